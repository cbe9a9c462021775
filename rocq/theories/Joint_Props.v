(** C266: wakes and blockage together with the iterative algorithm. *)
From Coq Require Import Permutation.
From Verif Require Import RBase WindDir_Model Superp_Model Superp_Spec Induction_Proofs Blockage_Model Blockage_Proofs Curves_Model Curves_Spec Order_Model Order_Spec Order_Proofs FarmWakes_Model AnyOrder_Model Symm_Model
  Whole_Model Whole_Spec Whole_Proofs More_Props UpWake_Model UpWake_Spec UpWake_Proofs UpWake_Props Joint_Model Joint_Spec Joint_Proofs.
Local Open Scope R_scope.

(** The calculation starts with ambient results, and in every iteration the results of all turbines, wherever they are, follow from the results before it: wakes and blockage of all other turbines together, also of turbines side by side,
    with the region behind the rotors, whatever the order of the two wake models. *)
Theorem C266_iterations_partial : forall g ms farm, good_joint g -> good_farm farm -> both_models g ms ->
  undisturbed g farm (joint_results g ms farm 0) /\ forall k, follows g farm (joint_results g ms farm k) (joint_results g ms farm (S k)).
Proof.
  intros g ms farm HG HF Hm. split.
  - apply start_is; [assumption|]. now apply joint_start.
  - intros k. apply follows_is; [assumption|]. rewrite joint_next by assumption. now apply next_is.
Qed.
Print Assumptions C266_iterations_partial.
(** Results do not change in a further iteration if and only if they fit together. *)
Theorem C266_settled : forall g ms farm res, good_joint g -> good_farm farm -> both_models g ms ->
  (next_results g ms farm res = res <-> settled g farm res) /\ forall k, joint_results g ms farm (S k) = joint_results g ms farm k <-> settled g farm (joint_results g ms farm k).
Proof.
  intros g ms farm res HG HF Hm. assert (A : forall r, next_results g ms farm r = r <-> settled g farm r).
  { intros r. unfold settled. rewrite follows_is by assumption. rewrite (next_is g farm HG HF r ms Hm). split; intros E; symmetry; exact E. }
  split; [apply A|]. intros k. rewrite joint_next by assumption. apply A.
Qed.
Print Assumptions C266_settled.
(** The order of the two models is without effect. *)
Theorem C266_model_order : forall g farm k, good_joint g -> good_farm farm -> joint_results g [deficit_model g; blockage_model g] farm k = joint_results g [blockage_model g; deficit_model g] farm k.
Proof.
  intros g farm k HG HF. assert (A : both_models g [deficit_model g; blockage_model g]) by now left. assert (B : both_models g [blockage_model g; deficit_model g]) by now right.
  induction k as [|k IH]; [now rewrite !joint_start by assumption|]. rewrite !joint_next by assumption. rewrite IH. now rewrite !next_is by assumption.
Qed.
Print Assumptions C266_model_order.
(** Renumbering the turbines renumbers the results, after any number of iterations and also for turbines side by side. *)
Theorem C266_numbering : forall g ms farm p k, good_joint g -> good_farm farm -> both_models g ms -> Permutation p (seq 0 (length farm)) ->
  joint_results g ms (map (fun i => nth i farm no_turb) p) k = map (fun i => nth i (joint_results g ms farm k) no_res) p.
Proof.
  intros g ms farm p k HG HF Hm HP. assert (P : isperm (length farm) p) by exact HP. change (map (fun i => nth i farm no_turb) p) with (gather no_turb farm p). change (map (fun i => nth i (joint_results g ms farm k) no_res) p) with (gather no_res (joint_results g ms farm k) p).
  assert (HF' : good_farm (gather no_turb farm p)) by now apply renum_good. destruct (C266_iterations_partial g ms farm HG HF Hm) as [S0 SS]. destruct (C266_iterations_partial g ms _ HG HF' Hm) as [T0 TS].
  induction k as [|k IH].
  - apply start_is in T0; [|assumption]. rewrite T0. symmetry. apply start_is; [assumption|]. now apply start_renum.
  - specialize (TS k). apply follows_is in TS; [|assumption]. rewrite TS. symmetry. apply follows_is; [assumption|]. rewrite IH. apply follows_renum; [assumption|]. apply SS.
Qed.
Print Assumptions C266_numbering.
(** If the thrust coefficients do not change with the wind speed, then the results settle in the first iteration with wakes, at the one and only set of results that fit together. *)
Theorem C266_constant_thrust_partial : forall g ms farm, good_joint g -> good_farm farm -> both_models g ms -> constant_thrust g farm ->
  exists res, settled g farm res /\ (forall other, settled g farm other -> other = res) /\ forall k, joint_results g ms farm (S k) = res.
Proof.
  intros g ms farm HG HF Hm HK. destruct (C266_iterations_partial g ms farm HG HF Hm) as [S0 SS]. set (st := joint_results g ms farm 0) in *. assert (A : c_amb (j_c g) = true) by apply HK. assert (B : j_amb g = true) by apply HK.
  assert (FF : forall r r' new, (forall i, (i < length farm)%nat -> r_ct (nth i r no_res) = r_ct (nth i r' no_res)) -> follows g farm r new -> follows g farm r' new).
  { intros r r' new H [L F]. split; [exact L|]. intros j Hj. rewrite <- (left_thrust g farm r r' j A B H). now apply F. }
  assert (F1 : forall k, follows g farm st (joint_results g ms farm (S k))).
  { intros k. apply (FF (joint_results g ms farm k)); [|apply SS]. intros i Hi. destruct k as [|k]; [reflexivity|]. now apply (thrust_same g farm (joint_results g ms farm k) _ st HG HF HK S0 (SS k)). }
  exists (joint_results g ms farm 1). split; [|split].
  - apply (FF st); [|apply F1]. intros i Hi. symmetry. now apply (thrust_same g farm st _ st HG HF HK S0 (F1 0%nat)).
  - intros other H. apply (follows_unique g farm st); [exact HF| |apply F1]. apply (FF other); [|exact H]. intros i Hi. now apply (thrust_same g farm other _ st HG HF HK S0 H).
  - intros k. apply (follows_unique g farm st); [exact HF|apply F1|apply F1].
Qed.
Print Assumptions C266_constant_thrust_partial.
(** The downwind algorithm refuses the two models together. *)
Theorem C266_downwind_refuses : forall g ms farm, both_models g ms -> calc amb_ws turbine_results centre_points no_turb no_res 0 (uniform (j_c g)) ms farm = Err KeyError.
Proof. intros g ms farm [-> | ->]; reflexivity. Qed.
Print Assumptions C266_downwind_refuses.
(** Two equal turbines side by side have the same results after any number of iterations (with the downwind algorithm they have not, C265). *)
Theorem C266_side_by_side : forall g ms A B k, good_joint g -> good_farm [A; B] -> both_models g ms -> t_set A = t_set B -> t_diam A = t_diam B -> behind (c_wd (j_c g)) A B = 0 ->
  nth 0 (joint_results g ms [A; B] k) no_res = nth 1 (joint_results g ms [A; B] k) no_res.
Proof.
  intros g ms A B k HG HF Hm Et Ed Eb. destruct (C266_iterations_partial g ms _ HG HF Hm) as [S0 SS]. assert (Eb' : behind (c_wd (j_c g)) B A = 0) by (rewrite behind_opp, Eb; lra).
  assert (Er : beside (c_wd (j_c g)) A B = beside (c_wd (j_c g)) B A) by (unfold beside; cbv zeta; f_equal; ring).
  induction k as [|k IH].
  - destruct S0 as [_ S0]. destruct (S0 0%nat ltac:(cbn; lia)) as (A1 & A2 & A3). destruct (S0 1%nat ltac:(cbn; lia)) as (B1 & B2 & B3). cbn [nth] in *. rewrite Et, B2 in A2. rewrite Et, B3 in A3. injection A2 as A2. injection A3 as A3.
    destruct (nth 0 _ no_res), (nth 1 _ no_res). cbn in *. congruence.
  - destruct (SS k) as [_ S1]. destruct (S1 0%nat ltac:(cbn; lia)) as (A1 & A2 & A3). destruct (S1 1%nat ltac:(cbn; lia)) as (B1 & B2 & B3).
    assert (E : left_over g [A; B] (joint_results g ms [A; B] k) 0 = left_over g [A; B] (joint_results g ms [A; B] k) 1).
    { set (r := joint_results g ms [A; B] k) in *. clearbody r. unfold left_over, other_wakes, other_effects. cbn [length seq filter Nat.eqb negb map nth].
      assert (W1 : effect (j_c g) B (nth 1 r no_res) A = effect (j_c g) A (nth 0 r no_res) B).
      { unfold effect. rewrite Eb, Eb'. destruct (Rlt_dec 1e-8 0); [lra|reflexivity]. }
      assert (W2 : block_effect (blockage_scene g) (j_b g) B (nth 1 r no_res) A = block_effect (blockage_scene g) (j_b g) A (nth 0 r no_res) B).
      { rewrite IH. unfold block_effect, radii_behind, radii_beside. change (c_wd (blockage_scene g)) with (c_wd (j_c g)). rewrite Eb, Eb', Er, Ed. reflexivity. }
      rewrite W1, W2. reflexivity. }
    rewrite E in *. cbn [nth] in A2, A3, B2, B3. rewrite Et in A2, A3. rewrite B2 in A2. rewrite B3 in A3. injection A2 as A2. injection A3 as A3.
    set (r := joint_results g ms [A; B] (S k)) in *. clearbody r. destruct (nth 0 r no_res), (nth 1 r no_res). cbn in *. congruence.
Qed.
Print Assumptions C266_side_by_side.
(** three turbines in a row *)
Definition row : list (turb ttype) := [at_xy 0 0; at_xy 500 0; at_xy 1000 0].
Lemma row_good : good_farm row.
Proof. apply tube_farm. intros t [<-|[<-|[<-|[]]]]; eauto. Qed.
(** wind of 10 m/s from the west, the same lower limit for both superpositions *)
Definition lowest (l : R) : jset :=
  {| j_c := {| c_wd := 270; c_wsp := 10; c_def := Jensen; c_ctmax := 99/100; c_s := WSLinear; c_low := Some l; c_high := None; c_amb := true |}; j_b := g11 true; j_s := WSLinear; j_low := Some l; j_high := None; j_amb := true |}.
Lemma lowest_good l : 0 <= l <= 10 -> good_joint (lowest l).
Proof. intros H. split; unfold good_scene; cbn; repeat split; try lra; try (intros ? Q; injection Q as <-; lra); try (intros ? Q; discriminate Q); now left. Qed.
Lemma change_low (c : scene) l cs : c_low c = Some l -> c_high c = None -> l - c_wsp c <= change c cs.
Proof. intros E F. unfold change, limited. rewrite E, F. cbv zeta. pose proof (Rmax_r (c_wsp c + combination (c_s c) false (c_wsp c) cs) l). lra. Qed.
Lemma change_one (c : scene) l cs v : c_low c = Some l -> c_high c = None -> c_s c = WSLinear -> rsum (absol cs) = v -> c_wsp c + v <= l -> change c cs = l - c_wsp c.
Proof. intros E F S V H. unfold change, limited. rewrite E, F, S. cbn [combination]. rewrite V. cbv zeta. rewrite Rmax_right by exact H. reflexivity. Qed.
(** The wind speed stays above the lower limits that are given to the superpositions. False: if both superpositions have the same lower limit, the results of the iterations are below it, since the limit is applied to the
    wakes and to the blockage one at a time. *)
Theorem C266_limit_refuted : exists g farm l, good_joint g /\ good_farm farm /\ 0 < l < c_wsp (j_c g) /\ c_low (j_c g) = Some l /\ c_low (blockage_scene g) = Some l /\ forall ms k, both_models g ms -> r_ws (nth 1 (joint_results g ms farm (S k)) no_res) < l.
Proof.
  set (s := slow_down (blockage_scene (lowest 0)) (g11 true) (8/9) (radii_behind (blockage_scene (lowest 0)) (at_xy 1000 0) (at_xy 500 0)) (radii_beside (blockage_scene (lowest 0)) (at_xy 1000 0) (at_xy 500 0))).
  assert (X : radii_behind (blockage_scene (lowest 0)) (at_xy 1000 0) (at_xy 500 0) <= 0). { apply radii_back; [cbn; lra|]. change (c_wd (blockage_scene (lowest 0))) with 270. rewrite behind_xy. lra. }
  assert (SP : 0 < s) by (apply slow_strict; try (cbn; lra); try reflexivity; exact X).
  set (m := Rmin 1 (10 * s)). assert (M : 0 < m <= 1 /\ m <= 10 * s) by (unfold m, Rmin; destruct (Rle_dec _ _); lra). set (l := 10 - m). exists (lowest l), row, l. pose proof (lowest_good l ltac:(unfold l; lra)) as HG.
  split; [exact HG|]. split; [exact row_good|]. split; [cbn; unfold l; lra|]. split; [reflexivity|]. split; [reflexivity|]. intros ms k Hm. destruct (C266_iterations_partial (lowest l) ms row HG row_good Hm) as [[_ S0] SS].
  assert (Up : forall j r, c_wsp (j_c (lowest l)) + 2 * (l - 10) <= left_over (lowest l) row r j).
  { intros j r. unfold left_over. pose proof (change_low (j_c (lowest l)) l (other_wakes (j_c (lowest l)) row r j) eq_refl eq_refl) as A. pose proof (change_low (blockage_scene (lowest l)) l (other_effects (blockage_scene (lowest l)) (j_b (lowest l)) row r j) eq_refl eq_refl) as B.
    change (c_wsp (blockage_scene (lowest l))) with 10 in B. change (c_wsp (j_c (lowest l))) with 10 in A |- *. lra. }
  assert (Ty : forall j, (j < 3)%nat -> t_set (nth j row no_turb) = tube) by (intros [|[|[|j]]] Hj; try reflexivity; lia).
  assert (Down : forall r, (forall i, (i < 3)%nat -> r_ct (nth i r no_res) = 8/9) -> forall j, (j < 3)%nat -> left_over (lowest l) row r j <= 10).
  { intros r Cr j Hj. unfold left_over. assert (G : forall (c : scene) cs, c_low c = Some l -> c_high c = None -> c_s c = WSLinear -> c_wsp c = 10 -> rsum (absol cs) <= 0 -> change c cs <= 0).
    { intros c cs E1 E2 E3 E4 E5. unfold change, limited. rewrite E1, E2, E3, E4. cbn [combination]. cbv zeta. unfold Rmax. destruct (Rle_dec _ _); unfold l in *; lra. }
    assert (Sum : forall cs : list contrib, (forall sc v, In (Some (sc, v)) cs -> sc * v <= 0) -> rsum (absol cs) <= 0).
    { induction cs as [|[[sc v]|] cs IH]; intros I; unfold absol in *; cbn; [lra| |apply IH; intros; apply I; now right]. specialize (IH (fun sc v J => I sc v (or_intror J))). specialize (I sc v (or_introl eq_refl)). unfold rsum in *. lra. }
    assert (A : change (j_c (lowest l)) (other_wakes (j_c (lowest l)) row r j) <= 0).
    { apply G; try reflexivity. apply Sum. intros sc v I. apply in_map_iff in I as (i & E & I). apply filter_In in I as [I _]. apply in_seq in I. cbn in I. assert (Ii : In (nth i row no_turb) row) by (apply nth_In; cbn; lia). destruct (effect_neg (j_c (lowest l)) _ _ _ _ _ (proj1 HG) (proj1 (row_good _ Ii)) (proj2 (row_good _ Ii)) E) as (V & _ & S). rewrite (S eq_refl). cbn. lra. }
    assert (B : change (blockage_scene (lowest l)) (other_effects (blockage_scene (lowest l)) (j_b (lowest l)) row r j) <= 0).
    { apply G; try reflexivity. apply Sum. intros sc v I. apply in_map_iff in I as (i & E & I). apply filter_In in I as [I _]. apply in_seq in I. cbn in I. change (j_b (lowest l)) with (front_only (j_b (lowest l))) in E.
      destruct (effect_sign (blockage_scene (lowest l)) (j_b (lowest l)) _ (nth i r no_res) _ _ _ (proj2 HG) ltac:(unfold slows; cbn; lra) E) as (V & _ & S). rewrite (S eq_refl). cbn. lra. }
    change (c_wsp (j_c (lowest l))) with 10. lra. }
  assert (Ct : forall k i, (i < 3)%nat -> r_ct (nth i (joint_results (lowest l) ms row k) no_res) = 8/9).
  { clear k. induction k as [|k IH]; intros i Hi.
    - destruct (S0 i Hi) as (_ & E & _). rewrite Ty in E by exact Hi. rewrite tube_ct in E by (cbn; lra). now injection E.
    - destruct (SS k) as [_ H]. destruct (H i Hi) as (_ & E & _). rewrite Ty in E by exact Hi. rewrite tube_ct in E; [now injection E|]. pose proof (Up i (joint_results (lowest l) ms row k)) as A. pose proof (Down _ IH i Hi). change (c_wsp (j_c (lowest l))) with 10 in A. unfold l in *. lra. }
  destruct (SS k) as [_ H]. destruct (H 1%nat ltac:(cbn; lia)) as (E & _). rewrite E. specialize (Ct k). set (r := joint_results (lowest l) ms row k) in *. clearbody r. unfold left_over.
  assert (A : change (j_c (lowest l)) (other_wakes (j_c (lowest l)) row r 1) = l - 10).
  { unfold other_wakes. cbn [row length seq filter Nat.eqb negb map nth]. assert (T2 : effect (j_c (lowest l)) (at_xy 1000 0) (nth 2 r no_res) (at_xy 500 0) = None).
    { unfold effect. change (c_wd (j_c (lowest l))) with 270. rewrite behind_xy. destruct (Rlt_dec 1e-8 (500 - 1000)); [lra|reflexivity]. }
    assert (T0 : effect (j_c (lowest l)) (at_xy 0 0) (nth 0 r no_res) (at_xy 500 0) = Some (10, - (2 / 3))).
    { unfold effect. change (c_wd (j_c (lowest l))) with 270. rewrite behind_xy, beside_xy, Ct by lia. destruct (Rlt_dec 1e-8 (500 - 0)); [|lra]. destruct (Rlt_dec 1e-8 (8/9)); [|lra]. cbn [lowest j_c c_amb c_wsp at_xy t_set t_diam tube y_k]. f_equal. f_equal. unfold formula. cbn [lowest j_c c_def c_ctmax].
      rewrite Rminus_0_r, Rabs_R0. destruct (Rlt_dec 0 (100 / 2 + 0 * (500 - 0))); [|lra]. unfold induction. rewrite Rmin_left by lra. replace (1 - 8/9) with (1/3 * (1/3)) by lra. rewrite sqrt_square by lra. field. }
    rewrite T0, T2. rewrite (change_one _ l _ (10 * - (2/3))); try reflexivity; [unfold absol; cbn; ring|]. cbn. unfold l. lra. }
  assert (B : change (blockage_scene (lowest l)) (other_effects (blockage_scene (lowest l)) (j_b (lowest l)) row r 1) = l - 10).
  { unfold other_effects. cbn [row length seq filter Nat.eqb negb map nth]. assert (T0 : block_effect (blockage_scene (lowest l)) (j_b (lowest l)) (at_xy 0 0) (nth 0 r no_res) (at_xy 500 0) = None).
    { change (j_b (lowest l)) with (front_only (j_b (lowest l))). apply effect_behind. apply radii_ahead; [cbn; lra|]. change (c_wd (blockage_scene (lowest l))) with 270. rewrite behind_xy. cbn. lra. }
    assert (T2 : block_effect (blockage_scene (lowest l)) (j_b (lowest l)) (at_xy 1000 0) (nth 2 r no_res) (at_xy 500 0) = Some (10, - s)).
    { unfold block_effect. cbv zeta. rewrite Ct by lia. destruct (Rlt_dec 1e-8 (8/9)); [|lra]. destruct (Rle_dec _ 0) as [Q|Q]; [|exfalso; apply Q; exact X]. reflexivity. }
    rewrite T0, T2. clearbody s. rewrite (change_one _ l _ (10 * - s)); try reflexivity; [unfold absol; cbn; ring|]. change (c_wsp (blockage_scene (lowest l))) with 10. unfold l. lra. }
  rewrite A, B. change (c_wsp (j_c (lowest l))) with 10. unfold l. lra.
Qed.
Print Assumptions C266_limit_refuted.
(** a case that meets the hypotheses, with the region behind the rotors *)
Example C266_nonvacuous : let g := {| j_c := west_amb; j_b := g11 false; j_s := WSLinear; j_low := None; j_high := None; j_amb := true |} in
  good_joint g /\ good_farm row /\ both_models g [deficit_model g; blockage_model g] /\ good_farm [at_xy 0 0; at_xy 0 200] /\ behind (c_wd (j_c g)) (at_xy 0 0) (at_xy 0 200) = 0.
Proof.
  cbv zeta. split; [|split; [exact row_good|split; [now left|split]]].
  - split; [exact west_amb_good|]. unfold good_scene. cbn. repeat split; try lra; try (intros ? Q; discriminate Q); now left.
  - apply tube_farm. intros t [<-|[<-|[]]]; eauto.
  - change (c_wd (j_c _)) with 270. rewrite behind_xy. lra.
Qed.
(** and constant thrust, in which the results settle *)
Example C266_nonvacuous_constant : let g := {| j_c := {| c_wd := 270; c_wsp := 10; c_def := Jensen; c_ctmax := 99/100; c_s := WSLinear; c_low := Some 5; c_high := Some 12; c_amb := true |}; j_b := g11 false; j_s := WSMax; j_low := Some 8; j_high := Some 12; j_amb := true |} in
  good_joint g /\ good_farm row /\ constant_thrust g row.
Proof.
  cbv zeta. split; [|split; [exact row_good|]].
  - split; unfold good_scene; cbn; repeat split; try lra; try (intros ? Q; injection Q as <-; lra); now left.
  - split; [reflexivity|]. split; [reflexivity|]. exists 5, 8, 12, 12. repeat (split; [reflexivity|]). intros t u I H. cbn [j_c c_wsp] in *. assert (E : t_set t = tube) by (destruct I as [<-|[<-|[<-|[]]]]; reflexivity). rewrite E, !tube_ct by lra. reflexivity.
Qed.
