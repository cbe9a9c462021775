(** Theorems about layouts, turbine model lists and farm bounds. *)
From Verif Require Import RBase Farm_Model Farm_Proofs.
Local Open Scope R_scope.
Local Notation length := List.length.

(** C54: numbering and naming of farms built by layout functions *)
Theorem C54_numbering calls : let farm := fold_left add_points calls [] in
  length farm = length (List.concat calls) /\ map xy farm = List.concat calls /\
  (forall i t, nth_error farm i = Some t -> index t = i /\ name t = tname i) /\ NoDup (map name farm).
Proof.
  cbv zeta. assert (G : forall calls farm, map xy (fold_left add_points calls farm) = map xy farm ++ List.concat calls /\ (defaults farm -> defaults (fold_left add_points calls farm))).
  { induction calls0 as [|ps calls0 IH]; intros farm; cbn [fold_left List.concat]; [rewrite app_nil_r; tauto|]. destruct (IH (add_points farm ps)) as (A & B). split.
    - rewrite A. destruct (add_points_app ps farm) as (new & E & E1 & _). rewrite E, map_app, E1, <- app_assoc. reflexivity.
    - intros D. apply B. now apply add_points_defaults. }
  destruct (G calls []) as (A & B). specialize (B (conj eq_refl eq_refl)). destruct B as (B1 & B2). cbn [map app] in A. split; [|split; [exact A|split]].
  - rewrite <- A, map_length. reflexivity.
  - intros i t E. assert (L : (i < length (fold_left add_points calls []))%nat) by (apply nth_error_Some; congruence).
    assert (Q : nth_error (seq 0 (length (fold_left add_points calls []))) i = Some i) by (rewrite (nth_error_nth' _ 0%nat) by (rewrite seq_length; exact L); f_equal; now rewrite seq_nth).
    split.
    + apply (map_nth_error index) in E. rewrite B1, Q in E. congruence.
    + apply (map_nth_error name) in E. rewrite B2, (map_nth_error tname _ _ Q) in E. congruence.
  - rewrite B2. apply tnames_NoDup.
Qed.
Print Assumptions C54_numbering.
Theorem C54_row p0 delta n : length (row_points p0 delta n) = n /\
  forall i, (i < n)%nat -> nth_error (row_points p0 delta n) i = Some (fst p0 + INR i * fst delta, snd p0 + INR i * snd delta).
Proof.
  unfold row_points. split; [now rewrite map_length, seq_length|]. intros i Hi.
  apply (map_nth_error (fun i => (fst p0 + INR i * fst delta, snd p0 + INR i * snd delta)) i (seq 0 n)).
  rewrite (nth_error_nth' _ 0%nat) by (rewrite seq_length; lia). now rewrite seq_nth.
Qed.
Print Assumptions C54_row.
Theorem C54_grid p0 v0 v1 n0 n1 : length (grid_points p0 v0 v1 n0 n1) = (n0 * n1)%nat /\
  forall i j, (i < n0)%nat -> (j < n1)%nat -> nth_error (grid_points p0 v0 v1 n0 n1) (i * n1 + j) =
    Some (fst p0 + INR i * fst v0 + INR j * fst v1, snd p0 + INR i * snd v0 + INR j * snd v1).
Proof.
  split; [apply grid_length|]. intros i j Hi Hj. unfold grid_points.
  apply (map_nth_error (fun ij => (fst p0 + INR (fst ij) * fst v0 + INR (snd ij) * fst v1, snd p0 + INR (fst ij) * snd v0 + INR (snd ij) * snd v1)) _ _ (grid_index n0 n1 0 i j Hi Hj)).
Qed.
Print Assumptions C54_grid.
(** Ring with a float offset: on a circle around the base point, equal steps; the distance of neighbours is the arc's chord *)
Theorem C54_ring_float_partial p0 dist n off : (1 <= n)%nat -> length (ring_points_float p0 dist n off) = n /\
  let r := ring_radius dist n in
  (forall p, In p (ring_points_float p0 dist n off) -> d2 p p0 = r * r) /\
  (forall i p q, (i < n)%nat -> nth_error (ring_points_float p0 dist n off) i = Some p -> nth_error (ring_points_float p0 dist n off) ((i + 1) mod n) = Some q ->
    d2 p q = (2 * r * sin (PI / INR n)) * (2 * r * sin (PI / INR n))).
Proof.
  intros Hn. unfold ring_points_float. split; [now rewrite map_length, angles_float_length|]. cbv zeta. split.
  - intros p I. apply in_map_iff in I. destruct I as (a & <- & _). unfold d2, ring_point, wdvec. cbn [fst snd].
    pose proof (sin2_cos2 (a * PI / 180)) as S. unfold Rsqr in S. set (r := ring_radius dist n).
    transitivity (r * r * (sin (a * PI / 180) * sin (a * PI / 180) + cos (a * PI / 180) * cos (a * PI / 180))); [ring|]. rewrite S. ring.
  - intros i p q Hi Ep Eq. assert (Pn : 0 < INR n) by (apply lt_0_INR; lia).
    assert (Hm : ((i + 1) mod n < n)%nat) by (apply Nat.mod_upper_bound; lia).
    rewrite (map_nth_error _ _ _ (angles_float_nth n _ off i Hi)) in Ep. rewrite (map_nth_error _ _ _ (angles_float_nth n _ off _ Hm)) in Eq.
    injection Ep as <-. injection Eq as <-. rewrite chord.
    destruct (Nat.eq_dec (i + 1) n) as [E|E].
    + rewrite E, Nat.mod_same by lia. assert (Ei : INR i = INR n - 1) by (rewrite <- E, plus_INR; cbn; ring). rewrite Ei. cbn [INR].
      replace ((off + (INR n - 1) * (360 / INR n) - (off + 0 * (360 / INR n))) * PI / 360) with (PI - PI / INR n) by (field; lra).
      rewrite <- sin_PI_x with (x := PI / INR n). reflexivity.
    + rewrite Nat.mod_small by lia. rewrite plus_INR. cbn [INR].
      replace ((off + INR i * (360 / INR n) - (off + (INR i + 1) * (360 / INR n))) * PI / 360) with (- (PI / INR n)) by (field; lra).
      rewrite sin_neg. ring.
Qed.
Print Assumptions C54_ring_float_partial.
(** The turbines of a ring stand clockwise, the first one in the compass direction of the offset seen from the base point: north of it for 0, east of it for 90 degrees. *)
Theorem C54_ring_bearing p0 dist n off : (1 <= n)%nat -> let r := ring_radius dist n in
  (forall i, (i < n)%nat -> nth_error (ring_points_float p0 dist n off) i =
     Some (fst p0 + r * sin ((off + INR i * (360 / INR n)) * PI / 180), snd p0 + r * cos ((off + INR i * (360 / INR n)) * PI / 180))) /\
  (off = 0 -> nth_error (ring_points_float p0 dist n off) 0 = Some (fst p0, snd p0 + r)) /\ (off = 90 -> nth_error (ring_points_float p0 dist n off) 0 = Some (fst p0 + r, snd p0)).
Proof.
  intros Hn r. assert (G : forall i, (i < n)%nat -> nth_error (ring_points_float p0 dist n off) i = Some (fst p0 + r * sin ((off + INR i * (360 / INR n)) * PI / 180), snd p0 + r * cos ((off + INR i * (360 / INR n)) * PI / 180))).
  { intros i Hi. unfold ring_points_float. rewrite (map_nth_error _ _ _ (angles_float_nth n _ off i Hi)). reflexivity. }
  split; [exact G|]. split; intros ->; rewrite G by lia; cbn [INR]; do 2 f_equal.
  - replace ((0 + 0 * (360 / INR n)) * PI / 180) with 0 by lra. rewrite sin_0. ring.
  - replace ((0 + 0 * (360 / INR n)) * PI / 180) with 0 by lra. rewrite cos_0. ring.
  - replace ((90 + 0 * (360 / INR n)) * PI / 180) with (PI / 2) by lra. rewrite sin_PI2. ring.
  - replace ((90 + 0 * (360 / INR n)) * PI / 180) with (PI / 2) by lra. rewrite cos_PI2. ring.
Qed.
Print Assumptions C54_ring_bearing.
(** It is not the requested distance, but always smaller (the arc length is the requested distance). *)
Theorem C54_ring_spacing_refuted p0 dist n off i p q : (2 <= n)%nat -> 0 < dist -> (i < n)%nat ->
  nth_error (ring_points_float p0 dist n off) i = Some p -> nth_error (ring_points_float p0 dist n off) ((i + 1) mod n) = Some q ->
  d2 p q < dist * dist.
Proof.
  intros Hn Hd Hi Ep Eq. destruct (C54_ring_float_partial p0 dist n off) as (_ & _ & H); [lia|]. rewrite (H i p q Hi Ep Eq). clear H.
  assert (Pn : 2 <= INR n) by (change 2 with (INR 2); apply le_INR; lia). pose proof PI_RGT_0 as Pp.
  assert (A1 : 0 < PI / INR n) by (apply Rmult_lt_0_compat; [assumption|apply Rinv_0_lt_compat; lra]).
  assert (A2 : PI / INR n <= PI / 2). { unfold Rdiv. apply Rmult_le_compat_l; [lra|]. apply Rinv_le_contravar; lra. }
  pose proof (sin_lt _ A1 A2) as S. assert (S0 : 0 <= sin (PI / INR n)) by (apply sin_ge_0; lra).
  assert (E : 2 * ring_radius dist n * sin (PI / INR n) < dist).
  { unfold ring_radius. replace (2 * (INR n * dist / (2 * PI)) * sin (PI / INR n)) with (dist * (INR n / PI * sin (PI / INR n))) by (field; lra).
    rewrite <- (Rmult_1_r dist) at 2. apply Rmult_lt_compat_l; [assumption|]. apply (Rmult_lt_reg_r (PI / INR n)); [assumption|].
    replace (INR n / PI * sin (PI / INR n) * (PI / INR n)) with (sin (PI / INR n)) by (field; lra). lra. }
  assert (P : 0 <= 2 * ring_radius dist n * sin (PI / INR n)).
  { apply Rmult_le_pos; [|assumption]. unfold ring_radius. apply Rmult_le_pos; [lra|]. apply Rmult_le_pos; [nra|]. left. apply Rinv_0_lt_compat. lra. }
  nra.
Qed.
Print Assumptions C54_ring_spacing_refuted.
(** With an integer offset, as the default, the angle steps are whole degrees ... *)
Theorem C54_ring_int_refuted n off i : (1 <= n)%nat -> (0 <= off)%Z -> (i < n)%nat ->
  nth_error (angles_int (360 / INR n) off n) i = Some (off + Z.of_nat i * rfloor (360 / INR n))%Z.
Proof.
  intros Hn Ho Hi. apply angles_int_nth; [assumption| |assumption]. apply Rmult_le_pos; [lra|]. left. apply Rinv_0_lt_compat, lt_0_INR. lia.
Qed.
Print Assumptions C54_ring_int_refuted.
(** ... so that more than 360 turbines all stand on the same place *)
Theorem C54_ring_collapse_refuted p0 dist n off p q : (360 < n)%nat -> (0 <= off)%Z ->
  In p (ring_points_int p0 dist n off) -> In q (ring_points_int p0 dist n off) -> p = q.
Proof.
  intros Hn Ho. assert (G : forall p, In p (ring_points_int p0 dist n off) -> p = ring_point p0 (ring_radius dist n) (IZR off)).
  { intros x I. apply in_map_iff in I. destruct I as (a & <- & I). apply In_nth_error in I. destruct I as (i & I).
    assert (L : (i < n)%nat) by (rewrite <- (angles_int_length n (360 / INR n) off); apply nth_error_Some; congruence).
    rewrite C54_ring_int_refuted in I by (assumption || lia). injection I as <-. f_equal.
    assert (P : 360 < INR n) by (replace 360 with (INR 360) by (rewrite INR_IZR_INZ; reflexivity); now apply lt_INR).
    replace (rfloor (360 / INR n)) with 0%Z; [f_equal; lia|]. symmetry. apply rfloor_unique. split.
    - apply Rmult_le_pos; [lra|]. left. apply Rinv_0_lt_compat. lra.
    - apply (Rmult_lt_reg_r (INR n)); [lra|]. replace (360 / INR n * INR n) with 360 by (field; lra). lra. }
  intros Hp Hq. rewrite (G p Hp), (G q Hq). reflexivity.
Qed.
Print Assumptions C54_ring_collapse_refuted.
Example C54_nonvacuous : nth_error (angles_int (360 / INR 7) 0 7) 6 = Some 306%Z /\ length (grid_points (0, 0) (1, 0) (0, 1) 2 3) = 6%nat /\ name {| xy := (0, 0); index := 12; name := tname 12 |} = "T12"%string.
Proof.
  split; [|split; reflexivity]. rewrite C54_ring_int_refuted by lia. do 2 f_equal.
  replace (rfloor (360 / INR 7)) with 51%Z; [reflexivity|]. symmetry. apply rfloor_unique. replace (INR 7) with 7 by (cbn; lra). lra.
Qed.

(** C55 is false: turbines created from the same list object, e.g. by one layout call or with the default argument, share
    their models, and adding one to the first turbine adds it to the second, whose state selections do not follow. *)
Theorem C55_shared_models_refuted l ms m sel : (ms < size (run l))%nat -> let n := length (ts (run l)) in
  let s2 := run (l ++ [ONew (Some ms); ONew (Some ms)]) in let s3 := run (l ++ [ONew (Some ms); ONew (Some ms); OAdd n m sel]) in
  exists models, models_of s2 (S n) = Some models /\ models_of s3 (S n) = Some (models ++ [m]) /\ sels_of s3 (S n) = sels_of s2 (S n).
Proof.
  intros V. cbv zeta. exists (get (hp (run l)) ms).
  assert (A : forall l', run (l ++ l') = fold_left step l' (run l)) by (intros l'; unfold run; apply fold_left_app).
  rewrite !A. cbn [fold_left]. exact (shared_list (run l) ms m sel V).
Qed.
Print Assumptions C55_shared_models_refuted.
Example C55_default_argument : let s := run [ONew None; ONew None; OAdd 0 7 0] in models_of s 1 = Some [7%nat] /\ sels_of s 1 = Some [].
Proof. split; reflexivity. Qed.
(** If every turbine has its own list, turbines are independent and selections stay aligned, over all histories. *)
Theorem C55_own_lists_partial l a m sel : history_ok start l -> let s := run l in let s' := step s (OAdd a m sel) in
  models_of s' a = option_map (fun x => x ++ [m]) (models_of s a) /\ sels_of s' a = option_map (fun x => x ++ [sel]) (sels_of s a) /\
  forall b, b <> a -> models_of s' b = models_of s b /\ sels_of s' b = sels_of s b.
Proof.
  intros H. pose proof (good_run l start good_start H) as G. cbv zeta. fold (run l) in G. cbn [step]. destruct (nth_error (ts (run l)) a) as [t|] eqn:E.
  - destruct (good_change (run l) a t (fun x => x ++ [m]) (fun x => x ++ [sel]) G E) as (_ & A & B & C); [intros l1 l2 L; rewrite !app_length; cbn; lia|].
    auto.
  - unfold models_of, sels_of. rewrite E. cbn. auto.
Qed.
Print Assumptions C55_own_lists_partial.
Theorem C55_aligned_partial l a x y : history_ok start l -> models_of (run l) a = Some x -> sels_of (run l) a = Some y -> length x = length y.
Proof.
  intros H. pose proof (good_run l start good_start H) as G. fold (run l) in G. unfold models_of, sels_of. destruct (nth_error (ts (run l)) a) as [t|] eqn:E; cbn; [|discriminate].
  intros E1 E2. injection E1 as <-. injection E2 as <-. now apply (g_lengths _ G a).
Qed.
Print Assumptions C55_aligned_partial.
Example C55_nonvacuous : history_ok start [OList [1; 2]%nat; OList [3]%nat; ONew (Some 1%nat); ONew (Some 2%nat)] /\
  let s := run [OList [1; 2]%nat; OList [3]%nat; ONew (Some 1%nat); ONew (Some 2%nat); OInsert 0 1 9 0] in
  models_of s 0 = Some [1; 9; 2]%nat /\ models_of s 1 = Some [3%nat].
Proof.
  split; [|split; reflexivity]. cbn. unfold fresh. cbn. intuition (subst; cbn in *; try lia).
Qed.

(** C89 *)
Theorem C89_bounds_enclose cs m lo hi : axis_bounds cs m = (Some lo, Some hi) ->
  match m with
  | NoMargin => forall c, In c cs -> lo <= c <= hi
  | Margin e => forall c, In c cs -> lo <= c - e /\ c + e <= hi
  | MarginD k rd => forall i c d, nth_error cs i = Some c -> nth_error rd i = Some d -> lo <= c - k * d /\ c + k * d <= hi
  end.
Proof.
  destruct m as [|e|k rd]; cbn [axis_bounds]; intros H.
  - injection H as H1 H2. intros c I. split; [eapply lmin_le|eapply lmax_ge]; eassumption.
  - destruct (lmin cs) as [a|] eqn:E1; [|discriminate]. destruct (lmax cs) as [b|] eqn:E2; [|discriminate]. cbn in H. injection H as <- <-. intros c I.
    pose proof (lmin_le _ _ _ E1 I). pose proof (lmax_ge _ _ _ E2 I). lra.
  - injection H as H1 H2. intros i c d Ec Ed. split; [eapply lmin_le|eapply lmax_ge]; try eassumption.
    + exact (map2_in (fun c d => c - k * d) cs rd i c d Ec Ed).
    + exact (map2_in (fun c d => c + k * d) cs rd i c d Ec Ed).
Qed.
Print Assumptions C89_bounds_enclose.
(** they are tight *)
Theorem C89_bounds_attained cs e lo hi : axis_bounds cs (Margin e) = (Some lo, Some hi) -> exists c c', In c cs /\ In c' cs /\ lo = c - e /\ hi = c' + e.
Proof.
  cbn. destruct cs as [|x cs]; [discriminate|]. cbn. intros H. injection H as <- <-. exists (minl x cs), (maxl x cs). repeat split; [apply minl_in|apply maxl_in].
Qed.
Print Assumptions C89_bounds_attained.
Example C89_nonvacuous : axis_bounds [0; 500; 200] (MarginD 2 [100; 100; 100]) = (Some (-200), Some 700).
Proof. cbn. unfold Rmin, Rmax. f_equal; f_equal; repeat destruct (Rle_dec _ _); lra. Qed.
