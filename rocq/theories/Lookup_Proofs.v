(** Lemmas about lookup tables. *)
From Coq Require Import Sorting.Sorted Sorting.Permutation.
From Verif Require Import RBase Curves_Model Heights_Model Heights_Proofs Lookup_Model.
Local Open Scope R_scope.

(** --- sorting without repetitions --- *)
Section Sort.
Context {K : Type} (lt eqb : K -> K -> bool).
Hypothesis Hirr : forall a, lt a a = false.
Hypothesis Htr : forall a b c, lt a b = true -> lt b c = true -> lt a c = true.
Hypothesis Heq : forall a b, eqb a b = true <-> a = b.
Hypothesis Htot : forall a b, lt a b = false -> eqb a b = false -> lt b a = true.
Definition srt := StronglySorted (fun a b => lt a b = true).
Lemma insert_in k l x : In x (insert_u lt eqb k l) <-> x = k \/ In x l.
Proof using Heq.
  induction l as [|a l IH]; cbn [insert_u]; [cbn; intuition|]. destruct (lt k a); [cbn; intuition|]. destruct (eqb k a) eqn:E.
  - apply Heq in E. subst. cbn. intuition.
  - cbn [In]. rewrite IH. intuition.
Qed.
Lemma insert_srt k l : srt l -> srt (insert_u lt eqb k l).
Proof using Hirr Htr Heq Htot.
  induction l as [|a l IH]; intros H; cbn [insert_u]; [repeat constructor|]. inversion H as [|? ? S F]; subst. destruct (lt k a) eqn:E1.
  - constructor; [exact H|]. constructor; [exact E1|]. eapply Forall_impl; [|exact F]. intros b. now apply Htr.
  - destruct (eqb k a) eqn:E2; [exact H|]. constructor; [now apply IH|]. apply Forall_forall. intros b Hb. apply insert_in in Hb. destruct Hb as [->|Hb]; [now apply Htot|].
    rewrite Forall_forall in F. now apply F.
Qed.
Lemma sort_in l x : In x (sort_u lt eqb l) <-> In x l.
Proof using Heq. induction l as [|a l IH]; cbn [sort_u fold_right]; [reflexivity|]. rewrite insert_in. fold (sort_u lt eqb l). rewrite IH. cbn. intuition. Qed.
Lemma sort_srt l : srt (sort_u lt eqb l).
Proof using Hirr Htr Heq Htot. induction l as [|a l IH]; [constructor|]. now apply insert_srt. Qed.
Lemma srt_nodup l : srt l -> NoDup l.
Proof using Hirr.
  induction 1 as [|a l S IH F]; constructor; [|exact IH]. intros I. rewrite Forall_forall in F. specialize (F _ I). rewrite Hirr in F. discriminate.
Qed.
(** sorted lists with the same elements are equal *)
Lemma srt_eq l1 l2 : srt l1 -> srt l2 -> (forall x, In x l1 <-> In x l2) -> l1 = l2.
Proof using Hirr Htr.
  intros S1. revert l2. induction S1 as [|a l1 S1 IH F1]; intros l2 S2 H.
  - destruct l2 as [|b l2]; [reflexivity|]. destruct (proj2 (H b) (or_introl eq_refl)).
  - destruct S2 as [|b l2 S2 F2]; [destruct (proj1 (H a) (or_introl eq_refl))|]. rewrite Forall_forall in F1, F2.
    assert (E : a = b).
    { destruct (proj1 (H a) (or_introl eq_refl)) as [E|Ia]; [now symmetry|]. destruct (proj2 (H b) (or_introl eq_refl)) as [E|Ib]; [exact E|].
      pose proof (Htr _ _ _ (F1 _ Ib) (F2 _ Ia)) as Q. rewrite Hirr in Q. discriminate. }
    subst b. f_equal. apply IH; [exact S2|]. intros x. split; intros I.
    + destruct (proj1 (H x) (or_intror I)) as [<-|J]; [|exact J]. specialize (F1 _ I). rewrite Hirr in F1. discriminate.
    + destruct (proj2 (H x) (or_intror I)) as [<-|J]; [|exact J]. specialize (F2 _ I). rewrite Hirr in F2. discriminate.
Qed.
Lemma uniq_in l x : In x (uniq eqb l) <-> In x l.
Proof using Heq.
  induction l as [|a l IH]; cbn [uniq]; [reflexivity|]. cbn [In]. rewrite filter_In, IH, Bool.negb_true_iff. split; [intuition|].
  intros [->|I]; [now left|]. destruct (eqb a x) eqn:E; [left; now apply Heq|right; tauto].
Qed.
Lemma filter_neq a l : ~ In a l -> filter (fun b => negb (eqb a b)) l = l.
Proof using Heq.
  induction l as [|b l IH]; intros H; [reflexivity|]. cbn [filter]. destruct (eqb a b) eqn:E; [apply Heq in E; subst; elim H; now left|]. cbn [negb]. f_equal. apply IH.
  intros I. apply H. now right.
Qed.
Lemma uniq_nodup l : NoDup l -> uniq eqb l = l.
Proof using Heq. induction 1 as [|a l N H IH]; [reflexivity|]. cbn [uniq]. rewrite IH. now rewrite filter_neq. Qed.
Lemma uniq_app l1 l2 : incl l2 l1 -> uniq eqb (l1 ++ l2) = uniq eqb l1.
Proof using Heq.
  assert (G : forall l1 l2, uniq eqb (l1 ++ l2) = uniq eqb l1 ++ filter (fun b => negb (existsb (eqb b) l1)) (uniq eqb l2)).
  { clear l1 l2. induction l1 as [|a l1 IH]; intros l2; cbn [app uniq].
    - cbn [existsb negb]. symmetry. clear. induction (uniq eqb l2) as [|c m IHm]; [reflexivity|]. cbn [filter existsb negb]. now rewrite IHm.
    - cbn [app]. rewrite IH, filter_app. f_equal. f_equal. cbn [existsb]. clear IH. induction (uniq eqb l2) as [|b l IH]; [reflexivity|]. cbn [filter].
      assert (S : eqb a b = eqb b a).
      { assert (A : eqb a b = true <-> eqb b a = true) by (rewrite !Heq; split; congruence). destruct (eqb a b), (eqb b a); intuition congruence. }
      destruct (existsb (eqb b) l1) eqn:E; cbn [negb].
      + rewrite Bool.orb_true_r. cbn [negb]. exact IH.
      + cbn [filter]. rewrite S, Bool.orb_false_r. destruct (eqb b a); cbn [negb]; now rewrite IH. }
  intros H. rewrite G.
  assert (E : filter (fun b => negb (existsb (eqb b) l1)) (uniq eqb l2) = []).
  { assert (A : forall b, In b (uniq eqb l2) -> negb (existsb (eqb b) l1) = false).
    { intros b Hb. apply uniq_in, H in Hb. apply Bool.negb_false_iff, existsb_exists. exists b. split; [exact Hb|now apply Heq]. }
    induction (uniq eqb l2) as [|b l IH]; [reflexivity|]. cbn [filter]. rewrite (A b) by now left. apply IH. intros c Hc. apply A. now right. }
  now rewrite E, app_nil_r.
Qed.
End Sort.

(** --- the orders --- *)
Lemma keqb_eq a b : keqb a b = true <-> a = b.
Proof. unfold keqb. rewrite Bool.andb_true_iff, !Reqb_true. destruct a, b; cbn; intuition congruence. Qed.
Lemma klt_spec a b : klt a b = true <-> fst a < fst b \/ (fst a = fst b /\ snd a < snd b).
Proof. unfold klt. rewrite Bool.orb_true_iff, Bool.andb_true_iff, !Rltb_true, Reqb_true. reflexivity. Qed.
Lemma klt_irr a : klt a a = false.
Proof. destruct (klt a a) eqn:E; [|reflexivity]. apply klt_spec in E. lra. Qed.
Lemma klt_tr a b c : klt a b = true -> klt b c = true -> klt a c = true.
Proof. rewrite !klt_spec. intros [H|H] [G|G]; [left; lra|left; lra|left; lra|right; lra]. Qed.
Lemma klt_tot a b : klt a b = false -> keqb a b = false -> klt b a = true.
Proof.
  intros H E. apply klt_spec. assert (N : ~ (fst a < fst b \/ fst a = fst b /\ snd a < snd b)) by (intros Q; apply klt_spec in Q; congruence).
  assert (M : a <> b) by (intros ->; rewrite (proj2 (keqb_eq b b) eq_refl) in E; discriminate). destruct a as [a1 a2], b as [b1 b2]. cbn in *.
  destruct (Rtotal_order a1 b1) as [Q|[Q|Q]]; [tauto| |left; lra]. destruct (Rtotal_order a2 b2) as [P|[P|P]]; [tauto|subst; elim M; reflexivity|right; lra].
Qed.
Lemma rlt_irr a : Rltb a a = false.
Proof. apply Rltb_false. lra. Qed.
Lemma rlt_tr a b c : Rltb a b = true -> Rltb b c = true -> Rltb a c = true.
Proof. rewrite !Rltb_true. lra. Qed.
Lemma rlt_tot a b : Rltb a b = false -> Reqb a b = false -> Rltb b a = true.
Proof. rewrite Rltb_false, Reqb_false, Rltb_true. intros [H|H] N; [exact H|now elim N]. Qed.

(** --- the grid --- *)
Lemma prod_srt lx ly : srt Rltb lx -> srt Rltb ly -> srt klt (list_prod lx ly).
Proof.
  intros Sx Sy. induction Sx as [|x lx Sx IH F]; [constructor|]. cbn [list_prod].
  assert (G : forall ly, srt Rltb ly -> srt klt (map (fun y => (x, y)) ly)).
  { clear. induction 1 as [|y ly S IH F]; [constructor|]. cbn [map]. constructor; [exact IH|]. apply Forall_forall. intros k Hk. apply in_map_iff in Hk. destruct Hk as (z & <- & I).
    rewrite Forall_forall in F. specialize (F z I). apply Rltb_true in F. apply klt_spec. cbn. right. split; [reflexivity|exact F]. }
  specialize (G ly Sy). rewrite Forall_forall in F.
  assert (B : forall k k', In k (map (fun y => (x, y)) ly) -> In k' (list_prod lx ly) -> klt k k' = true).
  { intros k k' Hk Hk'. apply in_map_iff in Hk. destruct Hk as (y & <- & _). destruct k' as [x' y']. apply in_prod_iff in Hk'. destruct Hk' as (Ix & _).
    specialize (F x' Ix). apply Rltb_true in F. apply klt_spec. cbn. now left. }
  clear -G B IH. induction G as [|k l S IH2 F]; [exact IH|]. cbn [app]. constructor; [apply IH2; intros a b Ha Hb; apply B; [now right|exact Hb]|].
  apply Forall_forall. intros k' Hk'. apply in_app_iff in Hk'. rewrite Forall_forall in F. destruct Hk' as [I|I]; [now apply F|]. apply B; [now left|exact I].
Qed.
Lemma prod_nth (lx ly : list R) (i j : nat) (d1 d2 : R) : (i < length lx)%nat -> (j < length ly)%nat -> nth (i * length ly + j) (list_prod lx ly) (d1, d2) = (nth i lx d1, nth j ly d2).
Proof.
  revert i. induction lx as [|x lx IH]; intros i Hi Hj; cbn [length] in Hi; [lia|]. cbn [list_prod]. destruct i as [|i].
  - cbn [Nat.mul Nat.add]. rewrite app_nth1 by (rewrite map_length; exact Hj). rewrite (nth_indep _ _ (x, d2)) by (rewrite map_length; exact Hj).
    rewrite (map_nth (fun y => (x, y))). reflexivity.
  - rewrite app_nth2 by (rewrite map_length; cbn; lia). rewrite map_length. replace (S i * length ly + j - length ly)%nat with (i * length ly + j)%nat by (cbn; lia).
    cbn [nth]. apply IH; [lia|exact Hj].
Qed.
Lemma map_fst_pair (x : R) (ly : list R) : map fst (map (fun y => (x, y)) ly) = repeat x (length ly).
Proof. induction ly; cbn; congruence. Qed.
Lemma map_snd_pair (x : R) (ly : list R) : map snd (map (fun y => (x, y)) ly) = ly.
Proof. induction ly; cbn; congruence. Qed.
Lemma uniq_repeat x n l : uniq Reqb (repeat x (S n) ++ l) = x :: filter (fun b => negb (Reqb x b)) (uniq Reqb l).
Proof.
  induction n as [|n IH]; [reflexivity|]. change (repeat x (S (S n)) ++ l) with (x :: (repeat x (S n) ++ l)). cbn [uniq]. rewrite IH. cbn [filter]. rewrite Reqb_refl. cbn [negb].
  f_equal. generalize (uniq Reqb l). intros m. induction m as [|b m IHm]; [reflexivity|]. cbn [filter]. destruct (negb (Reqb x b)) eqn:E; [|exact IHm]. cbn [filter]. rewrite E. now rewrite IHm.
Qed.
Lemma uniq_fst (lx ly : list R) : NoDup lx -> ly <> [] -> uniq Reqb (map fst (list_prod lx ly)) = lx.
Proof.
  intros N Hy. induction N as [|x lx Nx N IH]; [reflexivity|]. cbn [list_prod]. rewrite map_app, map_fst_pair. destruct ly as [|y ly]; [congruence|]. cbn [length].
  rewrite uniq_repeat, IH. rewrite filter_neq; [reflexivity|exact Reqb_true|exact Nx].
Qed.
Lemma uniq_snd (lx ly : list R) : lx <> [] -> NoDup ly -> uniq Reqb (map snd (list_prod lx ly)) = ly.
Proof.
  intros Hx N. destruct lx as [|x lx]; [congruence|]. cbn [list_prod]. rewrite map_app, map_snd_pair. rewrite uniq_app; [now apply uniq_nodup; [exact Reqb_true|]|exact Reqb_true|].
  intros y I. apply in_map_iff in I. destruct I as ([a b] & <- & I). apply in_prod_iff in I. tauto.
Qed.
(** a table that can be loaded is a full grid *)
Lemma load_some rows d : rows <> [] -> load rows = Some d -> let keys := sort_u klt keqb (map fst rows) in
  keys = list_prod (xs d) (ys d) /\ xs d = sort_u Rltb Reqb (map fst keys) /\ ys d = sort_u Rltb Reqb (map snd keys) /\ vals d = map (mean_of rows) keys.
Proof.
  intros Hr H keys. unfold load in H. fold keys in H. set (lx := sort_u Rltb Reqb (map fst keys)) in *. set (ly := sort_u Rltb Reqb (map snd keys)) in *.
  cbn [levshape map] in H. destruct (Nat.eqb_spec (length keys) (length lx * length ly)) as [E|E]; [|discriminate]. injection H as <-. cbn [xs ys vals].
  assert (Sx : srt Rltb lx) by (apply sort_srt; [exact rlt_irr|exact rlt_tr|exact Reqb_true|exact rlt_tot]).
  assert (Sy : srt Rltb ly) by (apply sort_srt; [exact rlt_irr|exact rlt_tr|exact Reqb_true|exact rlt_tot]).
  assert (Sk : srt klt keys) by (apply sort_srt; [exact klt_irr|exact klt_tr|exact keqb_eq|exact klt_tot]).
  assert (I : incl keys (list_prod lx ly)).
  { intros [a b] Hk. apply in_prod_iff. unfold lx, ly. rewrite !(sort_in Rltb Reqb Reqb_true). split; apply in_map_iff; exists (a, b); tauto. }
  assert (J : incl (list_prod lx ly) keys).
  { apply NoDup_length_incl; [now apply (srt_nodup klt klt_irr)|rewrite prod_length; lia|exact I]. }
  assert (P : keys = list_prod lx ly).
  { apply (srt_eq klt klt_irr klt_tr); [exact Sk|now apply prod_srt|]. intros x. split; [apply I|apply J]. }
  assert (Nk : exists k, In k keys).
  { destruct rows as [|r rows]; [congruence|]. exists (fst r). apply (sort_in klt keqb keqb_eq). now left. }
  assert (Nx : lx <> []). { intros Q. destruct Nk as ([a b] & Hk). rewrite P, Q in Hk. destruct Hk. }
  assert (Ny : ly <> []). { intros Q. destruct Nk as ([a b] & Hk). rewrite P, Q in Hk. apply in_prod_iff in Hk. destruct Hk as (_ & []). }
  assert (Ex : uniq Reqb (map fst keys) = lx) by (rewrite P; apply uniq_fst; [now apply (srt_nodup Rltb rlt_irr)|exact Ny]).
  assert (Ey : uniq Reqb (map snd keys) = ly) by (rewrite P; apply uniq_snd; [exact Nx|now apply (srt_nodup Rltb rlt_irr)]).
  rewrite Ex, Ey. repeat split; try reflexivity. exact P.
Qed.
Lemma srt_asc l : srt Rltb l -> ascending l.
Proof.
  induction 1 as [|a l S IH F]; intros i j H; cbn [length] in H; [lia|]. destruct i as [|i], j as [|j]; try lia.
  - cbn [nth]. rewrite Forall_forall in F. apply Rltb_true, F, nth_In. lia.
  - cbn [nth]. apply IH. lia.
Qed.
Lemma loaded_asc rows d : rows <> [] -> load rows = Some d -> ascending (xs d) /\ ascending (ys d).
Proof.
  intros Hr H. destruct (load_some rows d Hr H) as (_ & A & B & _). rewrite A, B.
  split; apply srt_asc, sort_srt; (exact rlt_irr || exact rlt_tr || exact Reqb_true || exact rlt_tot).
Qed.
Lemma loaded_entry rows d i j : rows <> [] -> load rows = Some d -> (i < length (xs d))%nat -> (j < length (ys d))%nat ->
  entry d i j = mean_of rows (nth i (xs d) 0, nth j (ys d) 0) /\ In (nth i (xs d) 0, nth j (ys d) 0) (map fst rows).
Proof.
  intros Hr H Hi Hj. destruct (load_some rows d Hr H) as (P & _ & _ & V).
  pose proof (prod_nth (xs d) (ys d) i j 0 0 Hi Hj) as Q.
  assert (L : (i * length (ys d) + j < length (list_prod (xs d) (ys d)))%nat) by (rewrite prod_length; nia).
  split.
  - unfold entry. rewrite V, P. rewrite (nth_indep _ 0 (mean_of rows (0, 0))) by (rewrite map_length; exact L). rewrite map_nth, Q. reflexivity.
  - rewrite <- Q. apply (sort_in klt keqb keqb_eq). rewrite P. apply nth_In. exact L.
Qed.
Lemma loaded_row rows d x y : rows <> [] -> load rows = Some d -> In (x, y) (map fst rows) ->
  exists i j, (i < length (xs d))%nat /\ (j < length (ys d))%nat /\ nth i (xs d) 0 = x /\ nth j (ys d) 0 = y.
Proof.
  intros Hr H I. destruct (load_some rows d Hr H) as (P & _ & _ & _). apply (sort_in klt keqb keqb_eq) in I. rewrite P in I. apply in_prod_iff in I.
  destruct I as (Ix & Iy). apply In_nth with (d := 0) in Ix, Iy. destruct Ix as (i & Hi & Ei), Iy as (j & Hj & Ej). exists i, j. tauto.
Qed.
Lemma sort_perm (rows rows' : list row) : Permutation rows rows' -> sort_u klt keqb (map fst rows) = sort_u klt keqb (map fst rows').
Proof.
  intros H. apply (srt_eq klt klt_irr klt_tr).
  1, 2: apply sort_srt; [exact klt_irr|exact klt_tr|exact keqb_eq|exact klt_tot].
  intros x. rewrite !(sort_in klt keqb keqb_eq). split; intros I; eapply Permutation_in; try exact I; [|apply Permutation_sym]; now apply Permutation_map.
Qed.
Lemma filter_perm {A} (f : A -> bool) l l' : Permutation l l' -> Permutation (filter f l) (filter f l').
Proof.
  induction 1; cbn [filter]; [constructor|destruct (f x); [now constructor|assumption]| |now apply Permutation_trans with (filter f l')].
  destruct (f x), (f y); try apply Permutation_refl; constructor.
Qed.
Lemma mean_perm rows rows' k : Permutation rows rows' -> mean_of rows k = mean_of rows' k.
Proof.
  intros H. unfold mean_of. assert (P : Permutation (map snd (filter (fun r => keqb (fst r) k) rows)) (map snd (filter (fun r => keqb (fst r) k) rows'))) by now apply Permutation_map, filter_perm.
  rewrite (rsum_perm _ _ P). now rewrite (Permutation_length P).
Qed.
Lemma mean_single rows k v : NoDup (map fst rows) -> In (k, v) rows -> mean_of rows k = v.
Proof.
  intros N I. unfold mean_of. replace (filter (fun r => keqb (fst r) k) rows) with [(k, v)]; [cbn; field|].
  induction rows as [|r rows IH]; [destruct I|]. cbn [map] in N. inversion N as [|? ? Nr N']; subst. cbn [filter]. destruct I as [->|I].
  - cbn [fst]. rewrite (proj2 (keqb_eq k k) eq_refl). f_equal. symmetry. cbn [fst] in Nr.
    assert (A : forall l : list row, ~ In k (map fst l) -> filter (fun r => keqb (fst r) k) l = []).
    { induction l as [|q l IHl]; intros H; [reflexivity|]. cbn [filter]. destruct (keqb (fst q) k) eqn:E; [apply keqb_eq in E; elim H; left; exact E|]. apply IHl. intros J. apply H. now right. }
    now apply A.
  - destruct (keqb (fst r) k) eqn:E; [|now apply IH]. apply keqb_eq in E. elim Nr. rewrite E. change k with (fst (k, v)). now apply in_map.
Qed.
Lemma mean_bounds rows k a b : In k (map fst rows) -> (forall r, In r rows -> a <= snd r <= b) -> a <= mean_of rows k <= b.
Proof.
  intros I H. unfold mean_of. set (vs := map snd (filter (fun r => keqb (fst r) k) rows)).
  assert (V : forall v, In v vs -> a <= v <= b). { intros v Hv. unfold vs in Hv. apply in_map_iff in Hv. destruct Hv as (r & <- & Hr). apply filter_In in Hr. apply H. tauto. }
  assert (N : (0 < length vs)%nat).
  { unfold vs. apply in_map_iff in I. destruct I as (r & E & I). rewrite map_length. assert (In r (filter (fun r => keqb (fst r) k) rows)) by (apply filter_In; split; [exact I|now apply keqb_eq]).
    destruct (filter _ rows); [destruct H0|cbn; lia]. }
  assert (B : a * INR (length vs) <= rsum vs <= b * INR (length vs)).
  { clear -V. induction vs as [|v vs IH]; [cbn; lra|]. cbn [rsum length]. rewrite S_INR. pose proof (V v (or_introl eq_refl)). specialize (IH (fun v Hv => V v (or_intror Hv))). lra. }
  assert (P : 0 < INR (length vs)) by now apply lt_0_INR. split.
  - apply Rmult_le_reg_r with (INR (length vs)); [exact P|]. unfold Rdiv. rewrite Rmult_assoc, Rinv_l; lra.
  - apply Rmult_le_reg_r with (INR (length vs)); [exact P|]. unfold Rdiv. rewrite Rmult_assoc, Rinv_l; lra.
Qed.
(** --- the turbine type --- *)
Lemma masked_nth sel : forall new old i, length new = length sel -> length old = length sel -> (i < length sel)%nat ->
  nth i (masked sel new old) 0 = if nth i sel false then nth i new 0 else nth i old 0.
Proof.
  induction sel as [|b sel IH]; intros [|x new] [|y old] i H1 H2 Hi; cbn [length] in *; try lia. cbn [masked]. destruct i as [|i]; cbn [nth]; [reflexivity|]. apply IH; lia.
Qed.
Lemma masked_len sel : forall new old, length new = length sel -> length old = length sel -> length (masked sel new old) = length sel.
Proof. induction sel as [|b sel IH]; intros [|x new] [|y old] H1 H2; cbn [length masked] in *; try lia. rewrite IH; lia. Qed.
