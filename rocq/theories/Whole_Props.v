(** C250: complete farm calculations. *)
From Verif Require Import RBase WindDir_Model Superp_Model Superp_Spec Curves_Model Curves_Spec Symm_Model Symm_Spec Whole_Model Whole_Spec Whole_Proofs.
Local Open Scope R_scope.

(** The calculation returns, for any number of turbines at any positions, the one and only set of results in which every turbine has the wind speed that the superposed wakes of all the others leave over. *)
Theorem C250_only_balanced_results : forall c farm, good_scene c -> good_farm farm ->
  exists res, farm_results c farm = Ok res /\ balanced c farm res /\ forall other, balanced c farm other -> other = res.
Proof. intros c farm HS HF. exact (result_balanced c farm HS HF). Qed.
Print Assumptions C250_only_balanced_results.
(** No turbine has more wind than there is, and none less than the lower limit. *)
Theorem C250_wind_speeds : forall c farm res j, good_scene c -> good_farm farm -> farm_results c farm = Ok res -> (j < length farm)%nat ->
  r_ws (nth j res no_res) <= c_wsp c /\ (forall l, c_low c = Some l -> l <= r_ws (nth j res no_res)).
Proof. intros c farm res j HS HF E Hj. exact (result_bounds c farm HS HF res E j Hj). Qed.
Print Assumptions C250_wind_speeds.
(** A turbine that is behind no other one has the undisturbed wind; with Jensen wakes also one that is beside all wakes. *)
Theorem C250_undisturbed : forall c farm res j, good_scene c -> good_farm farm -> farm_results c farm = Ok res -> (j < length farm)%nat ->
  (forall i, (i < length farm)%nat -> let s := nth i farm no_turb in let t := nth j farm no_turb in
     behind (c_wd c) s t <= 0 \/ (c_def c = Jensen /\ t_diam s / 2 + y_k (t_set s) * behind (c_wd c) s t <= beside (c_wd c) s t)) ->
  r_ws (nth j res no_res) = c_wsp c.
Proof. intros c farm res j HS HF E Hj H. exact (result_unwaked c farm HS HF res j E Hj H). Qed.
Print Assumptions C250_undisturbed.
(** With power curves that do not fall up to the wind speed of the state, no turbine produces more than alone, and the wind farm not more than its turbines would alone. *)
Theorem C250_power : forall c farm res, good_scene c -> good_farm farm -> farm_results c farm = Ok res ->
  (forall t, In t farm -> Curves_Spec.increasing (y_P (t_set t)) /\ c_wsp c <= fst (last (y_P (t_set t)) (0, 0))) ->
  (forall j, (j < length farm)%nat -> exists alone, interp (y_P (t_set (nth j farm no_turb))) (c_wsp c) = Ok alone /\ 0 <= r_p (nth j res no_res) <= alone) /\
  0 <= rsum (map r_p res) <= rsum (map (fun t => value (y_P (t_set t)) (c_wsp c)) farm).
Proof.
  intros c farm res HS HF E H.
  assert (A : forall j, (j < length farm)%nat -> 0 <= r_p (nth j res no_res) <= value (y_P (t_set (nth j farm no_turb))) (c_wsp c)).
  { intros j Hj. destruct (H (nth j farm no_turb) (nth_In farm no_turb Hj)) as [H1 H2]. exact (result_power c farm HS HF res j E Hj H1 H2). }
  split.
  - intros j Hj. exists (value (y_P (t_set (nth j farm no_turb))) (c_wsp c)). split; [|now apply A]. apply value_ok. apply (HF _ (nth_In farm no_turb Hj)).
  - destruct (C250_only_balanced_results c farm HS HF) as (res' & E' & (L & _) & _). rewrite E in E'. injection E' as <-. clear E H HF. revert res L A. induction farm as [|t farm IH]; intros [|r res] L A; try discriminate L; [cbn; lra|].
    change (0 <= r_p r + rsum (map r_p res) <= value (y_P (t_set t)) (c_wsp c) + rsum (map (fun t => value (y_P (t_set t)) (c_wsp c)) farm)).
    assert (A0 : 0 <= r_p r <= value (y_P (t_set t)) (c_wsp c)) by (apply (A 0%nat); apply PeanoNat.Nat.lt_0_succ).
    assert (B : 0 <= rsum (map r_p res) <= rsum (map (fun t => value (y_P (t_set t)) (c_wsp c)) farm)).
    { apply IH; [now injection L|]. intros j Hj. apply (A (Datatypes.S j)). cbn [length]. now apply -> PeanoNat.Nat.succ_lt_mono. }
    clear A IH HS L. lra.
Qed.
Print Assumptions C250_power.
(** Two turbines, the second one 1000 m behind the first one, west wind of 10 m/s, D = 100 m, k = 0.05, ct = 8/9: 10 m/s and 10 (1 - 1/6) m/s. The second turbine is listed first. *)
Definition flat : ttype := {| y_P := [(0, 0); (20, 2)]; y_C := [(0, 8/9); (20, 8/9)]; y_k := 5 / 100 |}.
Definition west : scene := {| c_wd := 270; c_wsp := 10; c_def := Jensen; c_ctmax := 99/100; c_s := WSLinear; c_low := Some 0; c_high := None; c_amb := false |}.
Definition row2 : list (turb ttype) := [mkturb (1000, 0, 100) 100 flat; mkturb (0, 0, 100) 100 flat].
Example C250_nonvacuous : good_scene west /\ good_farm row2 /\ exists a b, farm_results west row2 = Ok [a; b] /\ r_ws b = 10 /\ r_p b = 1 /\ r_ws a = 10 * (1 - 1 / 6).
Proof.
  assert (Hv : forall x, 0 <= x <= 20 -> value [(0, 8/9); (20, 8/9)] x = 8/9).
  { intros x Hx. unfold value, interp. cbn [last fst]. replace (Rltb x 0) with false by (symmetry; apply Rltb_false; lra). replace (Rltb 20 x) with false by (symmetry; apply Rltb_false; lra). cbn [interp_from]. destruct (Rltb x 20); lra. }
  assert (Hp : value [(0, 0); (20, 2)] 10 = 1).
  { unfold value, interp. cbn [last fst]. replace (Rltb 10 0) with false by (symmetry; apply Rltb_false; lra). replace (Rltb 20 10) with false by (symmetry; apply Rltb_false; lra). cbn [interp_from]. replace (Rltb 10 20) with true by (symmetry; apply Rltb_true; lra). lra. }
  assert (HS : good_scene west).
  { unfold good_scene, west. cbn. repeat split; try lra; try (intros ? Q; injection Q as <-; lra); try (intros ? Q; discriminate Q). right. right. exists 0. split; [reflexivity|lra]. }
  assert (HY : good_type flat).
  { unfold good_type, flat. cbn. repeat split; try lra; try discriminate; intros x v [Q|[Q|[]]]; injection Q as <- <-; lra. }
  assert (HF : good_farm row2). { intros t [<-|[<-|[]]]; cbn; (split; [exact HY|lra]). }
  split; [exact HS|]. split; [exact HF|]. destruct (C250_only_balanced_results west row2 HS HF) as (res & E & (L & B) & _).
  destruct res as [|a [|b [|]]]; try discriminate L. exists a, b. split; [exact E|].
  assert (Hb : r_ws b = 10).
  { apply (C250_undisturbed west row2 [a; b] 1 HS HF E ltac:(cbn; lia)). intros i Hi. left. cbn in Hi. assert (S1 : sin (270 * PI / 180) = -1). { replace (270 * PI / 180) with (3 * (PI / 2)) by field. apply sin_3PI2. }
    assert (C1 : cos (270 * PI / 180) = 0). { replace (270 * PI / 180) with (3 * (PI / 2)) by field. apply cos_3PI2. }
    unfold behind. cbn [west c_wd]. rewrite S1, C1. destruct i as [|[|i]]; [| |lia]; cbn; lra. }
  split; [exact Hb|]. assert (B1 := B 1%nat ltac:(cbn; lia)). cbv zeta in B1. destruct B1 as (U1 & C1 & P1). cbn [nth] in U1, C1, P1. rewrite <- U1 in C1, P1. rewrite Hb in C1, P1.
  cbn [row2 nth t_set flat y_C y_P] in C1, P1. split. { rewrite (value_ok [(0, 0); (20, 2)]) in P1 by discriminate. rewrite Hp in P1. now injection P1. }
  assert (Cb : r_ct b = 8/9). { rewrite (value_ok [(0, 8/9); (20, 8/9)]) in C1 by discriminate. rewrite Hv in C1 by lra. now injection C1. }
  assert (B0 := B 0%nat ltac:(cbn; lia)). cbv zeta in B0. destruct B0 as (U0 & _). cbn [nth row2 length seq map] in U0. rewrite U0.
  assert (S1 : sin (270 * PI / 180) = -1). { replace (270 * PI / 180) with (3 * (PI / 2)) by field. apply sin_3PI2. }
  assert (K1 : cos (270 * PI / 180) = 0). { replace (270 * PI / 180) with (3 * (PI / 2)) by field. apply cos_3PI2. }
  set (t1 := mkturb (1000, 0, 100) 100 flat) in *. set (t2 := mkturb (0, 0, 100) 100 flat) in *.
  assert (E1 : effect west t1 a t1 = None). { apply effect_self. unfold behind. lra. }
  assert (X : behind 270 t2 t1 = 1000). { unfold behind. rewrite S1, K1. cbn. unfold vx, vy. cbn. lra. }
  assert (Y : beside 270 t2 t1 = 0). { unfold beside. rewrite S1, K1. cbn. unfold vx, vy, vz. cbn. transitivity (sqrt 0); [f_equal; lra|apply sqrt_0]. }
  assert (E2 : effect west t2 b t1 = Some (10, - (1 / 6))).
  { unfold effect. cbn [west c_wd c_wsp c_amb]. rewrite X, Y, Cb, Hb. destruct (Rlt_dec 1e-8 1000) as [_|Q]; [|exfalso; lra]. destruct (Rlt_dec 1e-8 (8/9)) as [_|Q]; [|exfalso; lra].
    cbn [t_diam t2 t_set flat y_k]. apply f_equal. apply f_equal2; [reflexivity|].
    unfold formula. cbn [west c_def c_ctmax]. destruct (Rlt_dec 0 (100 / 2 + 5 / 100 * 1000)) as [_|Q]; [|exfalso; lra]. unfold induction. rewrite Rmin_left by lra. replace (1 - 8/9) with (1/3 * (1/3)) by lra. rewrite sqrt_square by lra. lra. }
  rewrite E1, E2. cbn [west c_s c_low c_high c_wsp combination]. unfold absol, Superp_Spec.covering. cbn [flat_map app map fst snd rsum limited]. rewrite Rmax_left; lra.
Qed.
