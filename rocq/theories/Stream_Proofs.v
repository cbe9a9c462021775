(** Proofs about the Streamlines2D wake frame. *)
From Verif Require Import Base RBase WindDir_Model WindDir_Proofs OnePoint_Model OnePoint_Proofs Timelines_Model Timelines_Proofs Order_Model Order_Spec Order_Proofs Stream_Model.
From Coq Require Import Permutation Sorted.
Local Open Scope R_scope.

Lemma argmin_le d n : (argmin d n <= n)%nat.
Proof. induction n as [|n IH]; cbn [argmin]; [lia|]. destruct (d (argmin d n)), (d (S n)); try destruct (Rltb _ _); lia. Qed.
(** a NaN wins *)
Lemma argmin_nan d n : (exists i, (i <= n)%nat /\ d i = None) -> d (argmin d n) = None.
Proof.
  induction n as [|n IH]; intros (i & Hi & H).
  - assert (i = O) by lia. subst. exact H.
  - cbn [argmin]. destruct (d (argmin d n)) eqn:E; [|exact E]. destruct (Nat.eq_dec i (S n)) as [->|Hne]; [now rewrite H|].
    discriminate IH. exists i. split; [lia|exact H].
Qed.
Lemma argmin_min d n f : (forall i, (i <= n)%nat -> d i = Some (f i)) -> forall i, (i <= n)%nat -> f (argmin d n) <= f i.
Proof.
  induction n as [|n IH]; intros H i Hi.
  - assert (i = O) by lia. subst. cbn. lra.
  - assert (IH' := IH (fun i Hi => H i (Nat.le_trans _ _ _ Hi (Nat.le_succ_diag_r n)))). clear IH.
    cbn [argmin]. rewrite (H (argmin d n)) by (pose proof (argmin_le d n); lia). rewrite (H (S n)) by lia.
    destruct (Rltb (f (S n)) (f (argmin d n))) eqn:E.
    + apply Rltb_true in E. destruct (Nat.eq_dec i (S n)) as [->|]; [lra|]. specialize (IH' i ltac:(lia)). lra.
    + apply Rltb_false in E. destruct (Nat.eq_dec i (S n)) as [->|]; [lra|]. apply IH'. lia.
Qed.

(** NaN start direction: no coordinates *)
Lemma sline_nan wdf step p0 i : fst (sline wdf step p0 None (S i)) = None.
Proof.
  induction i as [|i IH]; [reflexivity|]. change (sline wdf step p0 None (S (S i))) with
    (let '(p, w) := sline wdf step p0 None (S i) in
     let p' := match p, w with Some q, Some d => Some (add2 q (step * fst (wd2uv d 1), step * snd (wd2uv d 1))) | _, _ => None end in
     (p', match wdf p' with Some d => Some d | None => w end)).
  destruct (sline wdf step p0 None (S i)) as [p w]. cbn [fst] in IH. now rewrite IH.
Qed.
Lemma scoos_nan wdf step n p0 p : scoos step n (sline wdf step p0 None) p = None.
Proof.
  unfold scoos. destruct n as [|n]; [reflexivity|].
  assert (H : sdist (sline wdf step p0 None) p (argmin (sdist (sline wdf step p0 None) p) (S n)) = None).
  { apply argmin_nan. exists 1%nat. split; [lia|]. unfold sdist. now rewrite sline_nan. }
  unfold sdist at 1 in H. destruct (sline _ _ _ _ _) as [[q|] w]; [discriminate|reflexivity].
Qed.

(** uniform wind direction *)
Section Uniform.
Context (wdf : option (R * R) -> option R) (wd : R) (Hw : forall q, wdf q = Some wd) (step : R) (Hs : 0 < step) (p0 : R * R).
Let nx := wd2uv wd 1.
Lemma sline_uniform i : sline wdf step p0 (Some wd) i = (Some (add2 p0 (step * INR i * fst nx, step * INR i * snd nx)), Some wd).
Proof using Hw.
  induction i as [|i IH].
  - cbn [sline INR]. f_equal. f_equal. destruct p0. unfold add2. cbn. f_equal; ring.
  - cbn [sline]. rewrite IH, Hw, S_INR. fold nx. f_equal. f_equal. unfold add2. cbn [fst snd]. f_equal; ring.
Qed.
Lemma nx_unit : dot2 nx nx = 1.
Proof using Type. exact (n_unit wd). Qed.
Lemma nx_split q : norm2 q * norm2 q = dot2 q nx * dot2 q nx + dot2 q (perp2 nx) * dot2 q (perp2 nx).
Proof using Type.
  assert (E : norm2 q * norm2 q = dot2 q q) by (unfold norm2; apply sqrt_sqrt; unfold dot2; nra). rewrite E.
  replace (dot2 q q) with (dot2 q q * dot2 nx nx) by (rewrite nx_unit; ring). unfold dot2, perp2. cbn [fst snd]. ring.
Qed.
Lemma proj_x p i : dot2 (sub2 p (add2 p0 (step * INR i * fst nx, step * INR i * snd nx))) nx = dot2 (sub2 p p0) nx - step * INR i.
Proof using Type.
  replace (dot2 (sub2 p p0) nx - step * INR i) with (dot2 (sub2 p p0) nx - step * INR i * dot2 nx nx) by (rewrite nx_unit; ring).
  unfold dot2, sub2, add2. cbn [fst snd]. ring.
Qed.
Lemma proj_y p i : dot2 (sub2 p (add2 p0 (step * INR i * fst nx, step * INR i * snd nx))) (perp2 nx) = dot2 (sub2 p p0) (perp2 nx).
Proof using Type. unfold dot2, sub2, add2, perp2. cbn [fst snd]. ring. Qed.
Lemma near_exists x n : - step < x < (INR n + 1) * step -> exists k, (k <= n)%nat /\ Rabs (x - step * INR k) < step.
Proof using Hs.
  induction n as [|n IH]; intros Hx.
  - exists O. split; [lia|]. cbn in *. apply Rabs_def1; lra.
  - rewrite S_INR in Hx. destruct (Rlt_le_dec x ((INR n + 1) * step)) as [H|H].
    + destruct IH as (k & K1 & K2); [lra|]. exists k. split; [lia|exact K2].
    + exists (S n). split; [lia|]. rewrite S_INR. apply Rabs_def1; lra.
Qed.
Lemma argmin_near p n k : (k <= n)%nat ->
  let x := dot2 (sub2 p p0) nx in let i := argmin (sdist (sline wdf step p0 (Some wd)) p) n in Rabs (x - step * INR i) <= Rabs (x - step * INR k).
Proof using Hw Hs.
  intros Hk x i. set (f := fun j : nat => norm2 (sub2 p (add2 p0 (step * INR j * fst nx, step * INR j * snd nx)))).
  assert (M : f i <= f k).
  { apply (argmin_min _ n f); [|exact Hk]. intros j _. unfold sdist. now rewrite sline_uniform. }
  assert (Q : f i * f i <= f k * f k) by (pose proof (norm2_pos (sub2 p (add2 p0 (step * INR i * fst nx, step * INR i * snd nx)))); unfold f in *; nra).
  unfold f in Q. rewrite !nx_split, !proj_x, !proj_y in Q. fold x in Q. apply Rsqr_le_abs_0. unfold Rsqr. lra.
Qed.
Lemma scoos_uniform n p : let x := dot2 (sub2 p p0) nx in
  scoos step n (sline wdf step p0 (Some wd)) p = if Rltb (- step) x && Rltb x ((INR n + 1) * step) then Some (x, dot2 (sub2 p p0) (perp2 nx)) else None.
Proof using Hw Hs.
  intros x. unfold scoos. set (i := argmin _ n). rewrite sline_uniform. fold nx. rewrite proj_x, proj_y. fold x. cbn zeta.
  assert (Hi : (i <= n)%nat) by apply argmin_le.
  destruct (Rltb (- step) x && Rltb x ((INR n + 1) * step)) eqn:E.
  - rewrite andb_true_iff, !Rltb_true in E. destruct (near_exists x n E) as (k & K1 & K2). pose proof (argmin_near p n k K1) as M. cbn zeta in M. fold x i in M.
    assert (B : Rabs (x - step * INR i) < step) by lra. apply Rabs_def2 in B.
    rewrite (proj2 (Rltb_true _ _)), (proj2 (Rltb_true _ _)) by lra. cbn [andb]. f_equal. f_equal. ring.
  - destruct (Rltb (- step) (x - step * INR i) && Rltb (x - step * INR i) step) eqn:F; [|reflexivity]. exfalso.
    rewrite andb_true_iff, !Rltb_true in F. apply andb_false_iff in E. rewrite !Rltb_false in E.
    assert (Li : INR i <= INR n) by now apply le_INR. pose proof (pos_INR i). nra.
Qed.
End Uniform.

(** whatever is found is relative to the nearest point of the streamline *)
Lemma scoos_nearest step n line p x y : scoos step n line p = Some (x, y) ->
  exists i q w, (i <= n)%nat /\ line i = (Some q, Some w) /\
    (forall j q', (j <= n)%nat -> fst (line j) = Some q' -> norm2 (sub2 p q) <= norm2 (sub2 p q')) /\
    Rabs (x - step * INR i) < step /\ x = step * INR i + dot2 (sub2 p q) (wd2uv w 1) /\ y = dot2 (sub2 p q) (perp2 (wd2uv w 1)).
Proof.
  unfold scoos. set (i := argmin _ n). destruct (line i) as [[q|] [w|]] eqn:E; try discriminate. cbn zeta.
  destruct (Rltb _ _ && Rltb _ _) eqn:F; [|discriminate]. intros H. injection H as Hx Hy. rewrite andb_true_iff, !Rltb_true in F.
  exists i, q, w. split; [apply argmin_le|]. split; [exact E|]. split.
  - intros j q' Hj Hq.
    assert (V : forall k, (k <= n)%nat -> exists v, sdist line p k = Some v).
    { intros k Hk. destruct (sdist line p k) as [v|] eqn:D; [now exists v|].
      assert (N : sdist line p i = None) by (apply argmin_nan; now exists k). unfold sdist in N. rewrite E in N. discriminate. }
    set (f := fun k => match sdist line p k with Some v => v | None => 0 end).
    assert (M : f i <= f j). { apply (argmin_min _ n f); [|exact Hj]. intros k Hk. unfold f. destruct (V k Hk) as [v ->]. reflexivity. }
    unfold f, sdist in M. rewrite E, Hq in M. exact M.
  - split; [|now split]. rewrite <- Hx. apply Rabs_def1; lra.
Qed.

(** ** lexsort *)
Lemma olt_trans a b c : olt a b = true -> olt b c = true -> olt a c = true.
Proof. destruct a, b, c; cbn; rewrite ?Rltb_true; try discriminate; try reflexivity; lra. Qed.
Lemma olt_ntrans a b c : olt b a = false -> olt c b = false -> olt c a = false.
Proof. destruct a, b, c; cbn; rewrite ?Rltb_false; try discriminate; try reflexivity; lra. Qed.
Lemma olt_asym a b : olt a b = true -> olt b a = false.
Proof. destruct a, b; cbn; rewrite ?Rltb_true, ?Rltb_false; try discriminate; try reflexivity; lra. Qed.
Lemma lex_total a : forall b, lex_leb a b = true \/ lex_leb b a = true.
Proof.
  induction a as [|x a IH]; intros [|y b]; cbn [lex_leb]; auto.
  destruct (olt x y) eqn:E; [now left|]. destruct (olt y x) eqn:F; [now right|]. apply IH.
Qed.
Lemma lex_cons x a y b : lex_leb (x :: a) (y :: b) = true <-> olt x y = true \/ (olt x y = false /\ olt y x = false /\ lex_leb a b = true).
Proof. cbn [lex_leb]. destruct (olt x y), (olt y x); intuition discriminate. Qed.
Lemma lex_trans a : forall b c, lex_leb a b = true -> lex_leb b c = true -> lex_leb a c = true.
Proof.
  induction a as [|x a IH]; intros [|y b] [|z c]; try reflexivity; try (intros; discriminate).
  rewrite !lex_cons. intros [H|(H1 & H2 & H3)] [K|(K1 & K2 & K3)].
  - left. eapply olt_trans; eauto.
  - left. destruct (olt x z) eqn:E; [reflexivity|]. exfalso. assert (olt x y = false) by (apply (olt_ntrans y z x); assumption). congruence.
  - left. destruct (olt x z) eqn:E; [reflexivity|]. exfalso. assert (olt y z = false) by (apply (olt_ntrans z x y); assumption). congruence.
  - right. split; [eapply olt_ntrans; eauto|]. split; [eapply olt_ntrans; eauto|]. eapply IH; eauto.
Qed.
Lemma lexsort_spec n coosx : isperm n (lexsort n coosx) /\
  forall a b, (a < b < n)%nat -> let j := nth a (lexsort n coosx) O in let k := nth b (lexsort n coosx) O in
    lex_leb (rev (map (fun i => coosx i j) (seq 0 n))) (rev (map (fun i => coosx i k) (seq 0 n))) = true.
Proof.
  set (keys := map (fun j => rev (map (fun i => coosx i j) (seq 0 n))) (seq 0 n)).
  assert (Lk : length keys = n) by (unfold keys; now rewrite map_length, seq_length).
  destruct (argsort_spec _ lex_leb lex_total lex_trans keys []) as [A B]. rewrite Lk in A, B. split; [exact A|].
  intros a b Hab j k. specialize (B a b ltac:(lia) ltac:(lia)). change (argsort lex_leb keys) with (lexsort n coosx) in *. fold j k in B.
  assert (In_ : forall c, (c < n)%nat -> (nth c (lexsort n coosx) O < n)%nat).
  { intros c Hc. assert (I : In (nth c (lexsort n coosx) O) (lexsort n coosx)). { apply nth_In. rewrite (Permutation_length A), seq_length. exact Hc. }
    apply (Permutation_in _ A), in_seq in I. lia. }
  unfold keys in B. rewrite !nth_indep with (d := []) (d' := rev (map (fun i => coosx i O) (seq 0 n))) in B by (rewrite map_length, seq_length; apply In_; lia).
  rewrite !(map_nth (fun j => rev (map (fun i => coosx i j) (seq 0 n)))) in B. rewrite !seq_nth in B by (apply In_; lia). exact B.
Qed.
(** sorted by the coordinate in the last turbine's frame *)
Lemma lexsort_last m coosx a b : (a < b < S m)%nat -> olt (coosx m (nth b (lexsort (S m) coosx) O)) (coosx m (nth a (lexsort (S m) coosx) O)) = false.
Proof.
  intros H. destruct (lexsort_spec (S m) coosx) as [_ B]. specialize (B a b H). cbn zeta in B.
  rewrite seq_S, !map_app, !rev_app_distr in B. cbn [map rev app Nat.add] in B. apply lex_cons in B. destruct B as [B|(B1 & B2 & _)]; [now apply olt_asym|exact B2].
Qed.
(** equal keys: farm order *)
Lemma argsort_const {K} (leb : K -> K -> bool) keys : (forall a b, In a keys -> In b keys -> leb a b = true) -> argsort leb keys = seq 0 (length keys).
Proof.
  unfold argsort. generalize O. induction keys as [|k keys IH]; intros s H; [reflexivity|]. cbn [length seq combine isort fold_right].
  fold (isort leb (combine keys (seq (S s) (length keys)))). assert (IH' := IH (S s) (fun a b Ha Hb => H a b (or_intror Ha) (or_intror Hb))).
  destruct (isort leb (combine keys (seq (S s) (length keys)))) as [|q l] eqn:E; cbn [insert].
  - cbn [map] in *. now rewrite <- IH'.
  - assert (Q : In q (combine keys (seq (S s) (length keys)))). { apply (Permutation_in _ (isort_perm leb _)). rewrite E. now left. }
    cbn [fst]. rewrite H; [|now left|right; destruct q as [q1 q2]; exact (in_combine_l _ _ _ _ Q)]. cbn [map snd]. now rewrite <- IH'.
Qed.
Lemma lex_refl a : lex_leb a a = true.
Proof. destruct (lex_total a a); assumption. Qed.
Lemma lexsort_nan n : lexsort n (fun _ _ => None) = seq 0 n.
Proof.
  unfold lexsort. rewrite argsort_const; [now rewrite map_length, seq_length|]. intros a b Ha Hb. apply in_map_iff in Ha, Hb.
  destruct Ha as (? & <- & _), Hb as (? & <- & _). apply lex_refl.
Qed.
Lemma lexsort_ext n f g : (forall i j, f i j = g i j) -> lexsort n f = lexsort n g.
Proof. intros H. unfold lexsort. f_equal. apply map_ext. intros j. f_equal. apply map_ext. intros i. apply H. Qed.

(** the farm calculation *)
Lemma farm_nan nt wdf step n pos amb_wd : fst (farm_coos nt wdf step n pos amb_wd) = seq 0 nt /\
  forall k p, snd (farm_coos nt wdf step n pos amb_wd) k p = None.
Proof.
  unfold farm_coos. cbn zeta. set (data := get_streamline_data _ _ _ None _ _).
  assert (Od : stream_order nt step n data pos = seq 0 nt).
  { unfold stream_order. rewrite <- lexsort_nan. apply lexsort_ext. intros i j. unfold data, get_streamline_data, calc_streamlines. now rewrite scoos_nan. }
  cbn [fst snd]. split; [exact Od|]. intros k p. rewrite Od. unfold get_streamline_data.
  replace (forallb _ (seq 0 nt)) with true; [unfold data, get_streamline_data, calc_streamlines; apply scoos_nan|].
  symmetry. apply forallb_forall. intros t _. unfold data, get_streamline_data, calc_streamlines. cbn [sline fst]. now rewrite !Reqb_refl.
Qed.
