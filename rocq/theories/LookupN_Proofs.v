(** Lemmas about lookup tables with any number of inputs. *)
From Coq Require Import Sorting.Sorted Sorting.Permutation.
From Verif Require Import RBase Curves_Model Heights_Model Heights_Proofs Heights_Props Lookup_Model Lookup_Proofs Lookup_Props LookupN_Model.
Local Open Scope R_scope.

(** --- order --- *)
Lemma leqb_eq a : forall b, leqb a b = true <-> a = b.
Proof.
  induction a as [|x a IH]; intros [|y b]; cbn [leqb]; try (split; congruence). rewrite Bool.andb_true_iff, Reqb_true, IH. intuition congruence.
Qed.
Lemma llt_cons x a y b : llt (x :: a) (y :: b) = true <-> x < y \/ (x = y /\ llt a b = true).
Proof. cbn [llt]. now rewrite Bool.orb_true_iff, Bool.andb_true_iff, Rltb_true, Reqb_true. Qed.
Lemma llt_irr a : llt a a = false.
Proof. induction a as [|x a IH]; [reflexivity|]. destruct (llt (x :: a) (x :: a)) eqn:E; [|reflexivity]. apply llt_cons in E. destruct E as [E|(_ & E)]; [lra|congruence]. Qed.
Lemma llt_tr a : forall b c, llt a b = true -> llt b c = true -> llt a c = true.
Proof.
  induction a as [|x a IH]; intros [|y b] [|z c]; try (cbn [llt]; congruence). rewrite !llt_cons.
  intros [H|(-> & H)] [G|(-> & G)]; [left; lra|now left|now left|right]. split; [reflexivity|]. now apply IH with b.
Qed.
Lemma llt_tot a : forall b, llt a b = false -> leqb a b = false -> llt b a = true.
Proof.
  induction a as [|x a IH]; intros [|y b] H E; try (cbn in *; congruence). apply llt_cons. destruct (Rtotal_order x y) as [Q|[->|Q]].
  - rewrite (proj2 (llt_cons x a y b)) in H by (now left). discriminate.
  - right. split; [reflexivity|]. apply IH.
    + destruct (llt a b) eqn:G; [|reflexivity]. rewrite (proj2 (llt_cons y a y b)) in H by (right; tauto). discriminate.
    + cbn [leqb] in E. now rewrite Reqb_refl in E.
  - left. lra.
Qed.
Lemma keys_srt l : srt llt (sort_u llt leqb l).
Proof. apply sort_srt; [exact llt_irr|exact llt_tr|exact leqb_eq|exact llt_tot]. Qed.
Lemma keys_in l k : In k (sort_u llt leqb l) <-> In k l.
Proof. exact (sort_in llt leqb leqb_eq l k). Qed.
Lemma rsort_srt l : srt Rltb (sort_u Rltb Reqb l).
Proof. apply sort_srt; [exact rlt_irr|exact rlt_tr|exact Reqb_true|exact rlt_tot]. Qed.

(** --- the grid of all combinations, last axis fastest --- *)
Fixpoint grid (axs : list (list R)) : list (list R) :=
  match axs with [] => [[]] | a :: r => flat_map (fun x => map (cons x) (grid r)) a end.
Lemma grid_in axs : forall k, In k (grid axs) <-> Forall2 (fun x a => In x a) k axs.
Proof.
  induction axs as [|a r IH]; intros k; cbn [grid].
  - split; [intros [<-|[]]; constructor|]. intros H. inversion H. now left.
  - rewrite in_flat_map. split.
    + intros (x & Ix & H). apply in_map_iff in H. destruct H as (k' & <- & H). constructor; [exact Ix|]. now apply IH.
    + intros H. inversion H as [|x a' k' r' Hx Hk E1 E2]; subst. exists x. split; [exact Hx|]. apply in_map. now apply IH.
Qed.
Lemma grid_len axs : length (grid axs) = size axs.
Proof.
  induction axs as [|a r IH]; [reflexivity|]. cbn [grid size]. induction a as [|x a IHa]; [reflexivity|]. cbn [flat_map]. rewrite app_length, map_length, IHa, IH. reflexivity.
Qed.
Lemma grid_srt axs : Forall (srt Rltb) axs -> srt llt (grid axs).
Proof.
  induction 1 as [|a r Sa _ IH]; cbn [grid]; [repeat constructor|].
  assert (G : forall x l, srt llt l -> srt llt (map (cons x) l)).
  { clear. intros x l. induction 1 as [|k l S IH F]; [constructor|]. cbn [map]. constructor; [exact IH|]. apply Forall_forall. intros k' I. apply in_map_iff in I. destruct I as (k2 & <- & I).
    rewrite Forall_forall in F. apply llt_cons. right. split; [reflexivity|now apply F]. }
  induction Sa as [|x a Sa IHa F]; [constructor|]. cbn [flat_map]. specialize (G x _ IH). rewrite Forall_forall in F.
  assert (B : forall k k', In k (map (cons x) (grid r)) -> In k' (flat_map (fun x => map (cons x) (grid r)) a) -> llt k k' = true).
  { intros k k' Hk Hk'. apply in_map_iff in Hk. destruct Hk as (k1 & <- & _). apply in_flat_map in Hk'. destruct Hk' as (x' & Ix & Hk'). apply in_map_iff in Hk'.
    destruct Hk' as (k2 & <- & _). apply llt_cons. left. apply Rltb_true. now apply F. }
  clear -G B IHa. induction G as [|k l S IH2 F]; [exact IHa|]. cbn [app]. constructor; [apply IH2; intros p q Hp Hq; apply B; [now right|exact Hq]|].
  apply Forall_forall. intros k' Hk'. apply in_app_iff in Hk'. rewrite Forall_forall in F. destruct Hk' as [J|J]; [now apply F|]. apply B; [now left|exact J].
Qed.
Lemma grid_nth a r i k : (i < length a)%nat -> (k < size r)%nat -> nth (i * size r + k) (grid (a :: r)) [] = nth i a 0 :: nth k (grid r) [].
Proof.
  cbn [grid]. revert i. induction a as [|x a IH]; intros i Hi Hk; cbn [length] in Hi; [lia|]. cbn [flat_map]. destruct i as [|i].
  - cbn [Nat.mul Nat.add]. rewrite app_nth1 by (rewrite map_length, grid_len; exact Hk). rewrite (nth_indep _ _ (x :: [])) by (rewrite map_length, grid_len; exact Hk).
    rewrite (map_nth (cons x)). reflexivity.
  - rewrite app_nth2 by (rewrite map_length, grid_len; cbn; lia). rewrite map_length, grid_len. replace (S i * size r + k - size r)%nat with (i * size r + k)%nat by (cbn; lia).
    cbn [nth]. apply IH; [lia|exact Hk].
Qed.
Lemma map_const (x : R) (l : list (list R)) : map (fun k => nth 0 (x :: k) 0) l = repeat x (length l).
Proof. induction l as [|k l IH]; [reflexivity|]. cbn [map length repeat]. f_equal. exact IH. Qed.
Lemma size_pos axs : Forall (fun a => a <> []) axs -> (0 < size axs)%nat.
Proof. induction 1 as [|a r N _ IH]; cbn [size]; [lia|]. destruct a; [congruence|]. cbn [length]. nia. Qed.
Lemma uniq_col axs : Forall (@NoDup R) axs -> Forall (fun a => a <> []) axs -> forall i, (i < length axs)%nat -> uniq Reqb (col i (grid axs)) = nth i axs [].
Proof.
  intros N. induction N as [|a r Na Nr IH]; intros Ne i Hi; cbn [length] in Hi; [lia|]. inversion Ne as [|? ? Ha Hr]; subst. specialize (IH Hr).
  pose proof (size_pos r Hr) as Sp. cbn [grid]. destruct i as [|i]; cbn [nth].
  - clear IH Ha Ne Hi. induction Na as [|x a Nx Na IHa]; [reflexivity|]. cbn [flat_map]. unfold col in *. rewrite map_app, map_map.
    rewrite map_const, grid_len. destruct (size r) as [|m] eqn:E; [lia|]. rewrite uniq_repeat, IHa. rewrite filter_neq; [reflexivity|exact Reqb_true|exact Nx].
  - destruct a as [|x a]; [congruence|]. cbn [flat_map]. unfold col in *. rewrite map_app, map_map. cbn [nth]. rewrite uniq_app; [apply IH; lia|exact Reqb_true|].
    intros y I. apply in_map_iff in I. destruct I as (k & <- & I). apply in_flat_map in I. destruct I as (x' & _ & I). apply in_map_iff in I. destruct I as (k' & <- & I).
    cbn [nth]. apply in_map_iff. exists k'. tauto.
Qed.
Lemma key_cols n keys k : length k = n -> In k keys -> Forall2 (fun x a => In x a) k (map (fun i => sort_u Rltb Reqb (col i keys)) (seq 0 n)).
Proof.
  intros <- I.
  assert (G : forall k' s, (forall i, (i < length k')%nat -> nth i k' 0 = nth (s + i) k 0) -> Forall2 (fun x a => In x a) k' (map (fun i => sort_u Rltb Reqb (col i keys)) (seq s (length k')))).
  { induction k' as [|x k' IH]; intros s H; cbn [length seq map]; constructor.
    - apply (sort_in Rltb Reqb Reqb_true). unfold col. apply in_map_iff. exists k. split; [|exact I]. specialize (H 0%nat ltac:(cbn; lia)). cbn [nth] in H. rewrite H. f_equal. lia.
    - apply IH. intros i Hi. specialize (H (S i) ltac:(cbn; lia)). cbn [nth] in H. rewrite H. f_equal. lia. }
  apply G. reflexivity.
Qed.
Lemma map_nth_seq {A} (l : list (list A)) : map (fun i => nth i l []) (seq 0 (length l)) = l.
Proof.
  induction l as [|a l IH]; [reflexivity|]. cbn [length seq map nth]. f_equal. rewrite <- seq_shift, map_map. exact IH.
Qed.
(** a table that can be loaded is a full grid *)
Lemma load_n_some n rows d : rows <> [] -> (forall r, In r rows -> length (fst r) = n) -> load_n n rows = Some d -> let keys := sort_u llt leqb (map fst rows) in
  (2 <= n)%nat /\ axes d = map (fun i => sort_u Rltb Reqb (col i keys)) (seq 0 n) /\ keys = grid (axes d) /\ values d = map (mean_n rows) keys.
Proof.
  intros Hr Hn H keys. unfold load_n in H. fold keys in H. set (levels := map (fun i => sort_u Rltb Reqb (col i keys)) (seq 0 n)) in *.
  destruct (levshape levels) as [s|] eqn:Hs; [|discriminate]. destruct (Nat.eqb_spec (length keys) (size levels)) as [E|E]; [|discriminate]. cbn [andb] in H.
  destruct (Nat.eqb _ _); [|discriminate]. injection H as <-. cbn [axes values].
  assert (Ln : (2 <= n)%nat).
  { unfold levels in Hs. destruct n as [|[|n]]; cbn in Hs; try discriminate. lia. }
  assert (Ll : length levels = n) by (unfold levels; now rewrite map_length, seq_length).
  assert (Sl : Forall (srt Rltb) levels) by (apply Forall_forall; intros a Ia; unfold levels in Ia; apply in_map_iff in Ia; destruct Ia as (i & <- & _); apply rsort_srt).
  assert (Lk : forall k, In k keys -> length k = n).
  { intros k Hk. apply (proj1 (keys_in (map fst rows) k)) in Hk. apply in_map_iff in Hk. destruct Hk as (r & <- & Hk). now apply Hn. }
  assert (J1 : incl keys (grid levels)) by (intros k Hk; apply grid_in, key_cols; [now apply Lk|exact Hk]).
  assert (J2 : incl (grid levels) keys).
  { apply NoDup_length_incl; [apply (srt_nodup llt llt_irr), keys_srt|rewrite grid_len; lia|exact J1]. }
  assert (P : keys = grid levels).
  { apply (srt_eq llt llt_irr llt_tr); [apply keys_srt|now apply grid_srt|]. intros x. split; [apply J1|apply J2]. }
  assert (Nk : exists k, In k keys).
  { destruct rows as [|r rows]; [congruence|]. exists (fst r). apply keys_in. now left. }
  assert (Ne : Forall (fun a => a <> []) levels).
  { apply Forall_forall. intros a Ia Q. unfold levels in Ia. apply in_map_iff in Ia. destruct Ia as (i & <- & _). destruct Nk as (k & Hk).
    assert (I2 : In (nth i k 0) (sort_u Rltb Reqb (col i keys))) by (apply (sort_in Rltb Reqb Reqb_true); unfold col; apply in_map_iff; exists k; tauto). rewrite Q in I2. destruct I2. }
  assert (Ex : map (fun i => uniq Reqb (col i keys)) (seq 0 n) = levels).
  { rewrite <- (map_nth_seq levels), Ll. apply map_ext_in. intros i Hi. apply in_seq in Hi. rewrite P. apply uniq_col; [|exact Ne|lia].
    eapply Forall_impl; [|exact Sl]. intros a. apply (srt_nodup Rltb rlt_irr). }
  rewrite Ex. repeat split; try reflexivity; [exact Ln|exact P].
Qed.
Lemma loaded_axes n rows d : rows <> [] -> (forall r, In r rows -> length (fst r) = n) -> load_n n rows = Some d -> length (axes d) = n /\ Forall ascending (axes d).
Proof.
  intros Hr Hn H. destruct (load_n_some n rows d Hr Hn H) as (_ & A & _ & _). rewrite A. split; [now rewrite map_length, seq_length|].
  apply Forall_forall. intros a I. apply in_map_iff in I. destruct I as (i & <- & _). apply srt_asc, rsort_srt.
Qed.
Lemma loaded_value n rows d k : rows <> [] -> (forall r, In r rows -> length (fst r) = n) -> load_n n rows = Some d -> (k < size (axes d))%nat ->
  nth k (values d) 0 = mean_n rows (nth k (grid (axes d)) []) /\ In (nth k (grid (axes d)) []) (map fst rows).
Proof.
  intros Hr Hn H Hk. destruct (load_n_some n rows d Hr Hn H) as (_ & _ & P & V). rewrite V, P. split.
  - rewrite (nth_indep _ 0 (mean_n rows [])) by (rewrite map_length, grid_len; exact Hk). now rewrite map_nth.
  - apply keys_in. rewrite P. apply nth_In. now rewrite grid_len.
Qed.

(** --- interpolation --- *)
Lemma multi_node axs : Forall ascending axs -> Forall (fun a => (2 <= length a)%nat) axs -> forall x, In x (grid axs) ->
  exists ws k, weights_n axs x = Some ws /\ (k < size axs)%nat /\ nth k (grid axs) [] = x /\ forall v, multi axs ws v = v k.
Proof.
  intros As. induction As as [|a r Aa Ar IH]; intros Ls x Hx; apply grid_in in Hx.
  - inversion Hx; subst. exists [], 0%nat. repeat split. cbn. lia.
  - inversion Hx as [|y a' x' r' Hy Hx' E1 E2]; subst. inversion Ls as [|? ? La Lr]; subst.
    destruct (IH Lr x' (proj2 (grid_in r x') Hx')) as (ws & k & Ew & Hk & Ek & M).
    apply In_nth with (d := 0) in Hy. destruct Hy as (i & Hi & Ei). destruct (node_weights a i Aa La Hi) as (w & Ea & Na). rewrite Ei in Ea.
    exists (w :: ws), (i * size r + k)%nat. split; [cbn [weights_n]; now rewrite Ea, Ew|]. split; [cbn [size]; nia|]. split; [rewrite grid_nth by assumption; now rewrite Ei, Ek|].
    intros v. cbn [multi]. rewrite Na by now rewrite map_length, seq_length. rewrite map_seq_nth by exact Hi. now rewrite M.
Qed.
(** values within the axis' ends *)
Definition inside (y : R) (a : list R) : Prop := nth 0 a 0 <= y <= nth (length a - 1) a 0.
Lemma multi_within axs : Forall ascending axs -> Forall (fun a => (2 <= length a)%nat) axs -> forall x, Forall2 inside x axs ->
  exists ws, weights_n axs x = Some ws /\ forall v a b, (forall k, (k < size axs)%nat -> a <= v k <= b) -> a <= multi axs ws v <= b.
Proof.
  intros As. induction As as [|ax r Aa Ar IH]; intros Ls x Hx.
  - inversion Hx; subst. exists []. split; [reflexivity|]. intros v a b H. cbn [multi]. apply H. cbn. lia.
  - inversion Hx as [|y a' x' r' Hy Hx' E1 E2]; subst. inversion Ls as [|? ? La Lr]; subst. destruct (IH Lr x' Hx') as (ws & Ew & M).
    destruct (list_bound ax) as (a0 & b0 & Hb0). destruct (C152_within ax y ax true a0 b0 Aa La Hy eq_refl Hb0) as (w & E & _ & _). exists (w :: ws).
    split; [cbn [weights_n]; now rewrite E, Ew|]. intros v a b H. cbn [multi]. set (c := map _ _).
    assert (Lc : length c = length ax) by (unfold c; now rewrite map_length, seq_length).
    assert (B : forall u, In u c -> a <= u <= b).
    { intros u Hu. unfold c in Hu. apply in_map_iff in Hu. destruct Hu as (i & <- & Hi). apply in_seq in Hi. apply M. intros k Hk. apply H. cbn [size]. nia. }
    destruct (C152_within ax y c true a b Aa La Hy Lc B) as (w' & E' & N & _). rewrite E in E'. injection E' as <-. exact N.
Qed.
Lemma weights_outside axs : forall x, Exists (fun p => ~ inside (fst p) (snd p)) (combine x axs) -> weights_n axs x = None.
Proof.
  induction axs as [|a r IH]; intros [|y x] H; try reflexivity; cbn [combine] in H; [inversion H|]. cbn [weights_n].
  assert (G : ~ inside y a -> height_weights true a y = None).
  { intros N. unfold height_weights. cbn [andb]. destruct (Rltb y (nth 0 a 0)) eqn:E1; [reflexivity|]. destruct (Rltb (nth (length a - 1) a 0) y) eqn:E2; [now rewrite ?Bool.orb_true_r|].
    apply Rltb_false in E1, E2. elim N. split; lra. }
  inversion H as [p l Hp|p l Hp]; subst.
  - now rewrite G.
  - rewrite IH by exact Hp. now destruct (height_weights true a y).
Qed.
(** --- means --- *)
Lemma mean_n_perm rows rows' k : Permutation rows rows' -> mean_n rows k = mean_n rows' k.
Proof.
  intros H. unfold mean_n. assert (P : Permutation (map snd (filter (fun r => leqb (fst r) k) rows)) (map snd (filter (fun r => leqb (fst r) k) rows'))) by now apply Permutation_map, filter_perm.
  rewrite (rsum_perm _ _ P). now rewrite (Permutation_length P).
Qed.
Lemma mean_n_single rows k v : NoDup (map fst rows) -> In (k, v) rows -> mean_n rows k = v.
Proof.
  intros N I. unfold mean_n. replace (filter (fun r => leqb (fst r) k) rows) with [(k, v)]; [cbn; field|].
  induction rows as [|r rows IH]; [destruct I|]. cbn [map] in N. inversion N as [|? ? Nr N']; subst. cbn [filter]. destruct I as [->|I].
  - cbn [fst]. rewrite (proj2 (leqb_eq k k) eq_refl). f_equal. symmetry. cbn [fst] in Nr.
    assert (A : forall l : list rown, ~ In k (map fst l) -> filter (fun r => leqb (fst r) k) l = []).
    { induction l as [|q l IHl]; intros H; [reflexivity|]. cbn [filter]. destruct (leqb (fst q) k) eqn:E; [apply leqb_eq in E; elim H; left; exact E|]. apply IHl. intros J. apply H. now right. }
    now apply A.
  - destruct (leqb (fst r) k) eqn:E; [|now apply IH]. apply leqb_eq in E. elim Nr. rewrite E. change k with (fst (k, v)). now apply in_map.
Qed.
Lemma mean_n_bounds rows k a b : In k (map fst rows) -> (forall r, In r rows -> a <= snd r <= b) -> a <= mean_n rows k <= b.
Proof.
  intros I H. unfold mean_n. set (vs := map snd (filter (fun r => leqb (fst r) k) rows)).
  assert (V : forall v, In v vs -> a <= v <= b). { intros v Hv. unfold vs in Hv. apply in_map_iff in Hv. destruct Hv as (r & <- & Hr). apply filter_In in Hr. apply H. tauto. }
  assert (N : (0 < length vs)%nat).
  { unfold vs. apply in_map_iff in I. destruct I as (r & E & I). rewrite map_length. assert (In r (filter (fun r => leqb (fst r) k) rows)) by (apply filter_In; split; [exact I|now apply leqb_eq]).
    destruct (filter _ rows); [destruct H0|cbn; lia]. }
  assert (B : a * INR (length vs) <= rsum vs <= b * INR (length vs)).
  { clear -V. induction vs as [|v vs IH]; [cbn; lra|]. cbn [rsum length]. rewrite S_INR. pose proof (V v (or_introl eq_refl)). specialize (IH (fun v Hv => V v (or_intror Hv))). lra. }
  assert (P : 0 < INR (length vs)) by now apply lt_0_INR. split.
  - apply Rmult_le_reg_r with (INR (length vs)); [exact P|]. unfold Rdiv. rewrite Rmult_assoc, Rinv_l; lra.
  - apply Rmult_le_reg_r with (INR (length vs)); [exact P|]. unfold Rdiv. rewrite Rmult_assoc, Rinv_l; lra.
Qed.
(** --- affine data --- *)
Lemma axis_affine ax y : ascending ax -> (2 <= length ax)%nat -> inside y ax ->
  exists w, height_weights true ax y = Some w /\ forall a b, wsum w (map (fun i => a + b * nth i ax 0) (seq 0 (length ax))) = a + b * y.
Proof.
  intros Aa La Hy. destruct (cell_exists ax y Aa La Hy) as (k & Hk & K).
  destruct (C152_linear ax y k ax true Aa Hk K eq_refl) as (w & E & _). exists w. split; [exact E|]. intros a b.
  destruct (C152_linear ax y k (map (fun i => a + b * nth i ax 0) (seq 0 (length ax))) true Aa Hk K ltac:(now rewrite map_length, seq_length)) as (w' & E' & F). rewrite E in E'. injection E' as <-.
  rewrite F, !map_seq_nth by lia. assert (nth k ax 0 < nth (S k) ax 0) by (apply Aa; lia). field. lra.
Qed.
Definition dot (cs x : list R) : R := rsum (map (fun p => fst p * snd p) (combine cs x)).
Lemma dot_cons c cs y x : dot (c :: cs) (y :: x) = c * y + dot cs x.
Proof. reflexivity. Qed.
Lemma multi_affine axs : Forall ascending axs -> Forall (fun a => (2 <= length a)%nat) axs -> forall x, Forall2 inside x axs ->
  exists ws, weights_n axs x = Some ws /\ forall v c cs, length cs = length axs -> (forall k, (k < size axs)%nat -> v k = c + dot cs (nth k (grid axs) [])) -> multi axs ws v = c + dot cs x.
Proof.
  intros As. induction As as [|ax r Aa Ar IH]; intros Ls x Hx.
  - inversion Hx; subst. exists []. split; [reflexivity|]. intros v c cs Lc H. cbn [multi]. rewrite H by (cbn; lia). destruct cs; reflexivity.
  - inversion Hx as [|y a' x' r' Hy Hx' E1 E2]; subst. inversion Ls as [|? ? La Lr]; subst. destruct (IH Lr x' Hx') as (ws & Ew & M).
    destruct (axis_affine ax y Aa La Hy) as (w & E & F). exists (w :: ws). split; [cbn [weights_n]; now rewrite E, Ew|].
    intros v c [|c0 cs] Lc H; cbn [length] in Lc; [lia|]. cbn [multi]. rewrite dot_cons.
    rewrite (map_ext_in _ (fun i => (c + dot cs x') + c0 * nth i ax 0)).
    + rewrite F. lra.
    + intros i Hi. apply in_seq in Hi. rewrite (M _ (c + c0 * nth i ax 0) cs ltac:(lia)); [lra|]. intros k Hk. rewrite H by (cbn [size]; nia). rewrite grid_nth by (assumption || lia).
      rewrite dot_cons. lra.
Qed.
Lemma mean_n_affine rows k c cs : In k (map fst rows) -> (forall r, In r rows -> snd r = c + dot cs (fst r)) -> mean_n rows k = c + dot cs k.
Proof.
  intros I H. set (f := c + dot cs k).
  assert (G : f <= mean_n rows k <= f).
  { unfold mean_n. replace (filter (fun r => leqb (fst r) k) rows) with (filter (fun r => leqb (fst r) k) (filter (fun r => leqb (fst r) k) rows)).
    - apply (mean_n_bounds (filter (fun r => leqb (fst r) k) rows)).
      + apply in_map_iff in I. destruct I as (r & E & I). rewrite <- E at 1. apply in_map, filter_In. split; [exact I|now apply leqb_eq].
      + intros r Ir. apply filter_In in Ir. destruct Ir as (Ir & E). apply leqb_eq in E. rewrite (H r Ir), E. unfold f. lra.
    - generalize rows. intros l. induction l as [|q l IHl]; [reflexivity|]. cbn [filter]. destruct (leqb (fst q) k) eqn:E; [|exact IHl]. cbn [filter]. rewrite E. now rewrite IHl. }
  lra.
Qed.
