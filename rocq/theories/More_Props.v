(** C254: further turbines. *)
From Verif Require Import RBase Superp_Model Superp_Spec Curves_Model Curves_Spec Symm_Model Whole_Model Whole_Spec Whole_Proofs Whole_Props Flow_Model Flow_Spec Flow_Proofs More_Spec More_Proofs.
Local Open Scope R_scope.

(** With deficits that refer to the ambient wind speed and thrust coefficients that do not fall with less wind, further turbines at any places take wind from the turbines that are there already, and at all points, or leave it as it is. *)
Theorem C254_less_wind_partial : forall c farm more, good_scene c -> good_farm (farm ++ more) -> of_ambient c -> (forall t, In t farm -> steady_thrust c (t_set t)) ->
  exists res res', farm_results c farm = Ok res /\ farm_results c (farm ++ more) = Ok res' /\
    (forall j, (j < length farm)%nat -> r_ws (nth j res' no_res) <= r_ws (nth j res no_res)) /\
    (forall p, wind_at c (farm ++ more) res' p <= wind_at c farm res p).
Proof.
  intros c farm more HS HF HA HT. destruct (result_balanced c farm HS (HF0 farm more HF)) as (res & E & B & _). destruct (result_balanced c (farm ++ more) HS HF) as (res' & E' & B' & _). exists res, res'. split; [exact E|]. split; [exact E'|]. split.
  - intros j Hj. exact (wind_less c farm more res res' HS HF HA HT B B' j Hj).
  - intros p. apply (point_less c farm more res res' HS HF HA HT B B'). intros i Hi _. exact (wind_less c farm more res res' HS HF HA HT B B' i Hi).
Qed.
Print Assumptions C254_less_wind_partial.
(** ... and no turbine that is there already produces more than before, if the power curves do not fall up to the wind speed of the state. *)
Theorem C254_less_power_partial : forall c farm more, good_scene c -> good_farm (farm ++ more) -> of_ambient c -> (forall t, In t farm -> steady_thrust c (t_set t)) ->
  (forall t, In t farm -> Curves_Spec.increasing (y_P (t_set t)) /\ c_wsp c <= fst (last (y_P (t_set t)) (0, 0))) ->
  exists res res', farm_results c farm = Ok res /\ farm_results c (farm ++ more) = Ok res' /\ (forall j, (j < length farm)%nat -> r_p (nth j res' no_res) <= r_p (nth j res no_res)).
Proof.
  intros c farm more HS HF HA HT HP. destruct (result_balanced c farm HS (HF0 farm more HF)) as (res & E & B & _). destruct (result_balanced c (farm ++ more) HS HF) as (res' & E' & B' & _). exists res, res'. split; [exact E|]. split; [exact E'|].
  intros j Hj. destruct (HP _ (nth_In farm no_turb Hj)) as [P1 P2]. exact (power_less c farm more res res' HS HF HA HT B B' j Hj P1 P2).
Qed.
Print Assumptions C254_less_power_partial.
(** Turbines with the same thrust at all wind speeds up to 20 m/s and wakes that do not grow. *)
Definition tube : ttype := {| y_P := [(0, 0); (20, 2)]; y_C := [(0, 8/9); (20, 8/9)]; y_k := 0 |}.
Definition at_xy (x y : R) : turb ttype := mkturb (x, y, 100) 100 tube.
Definition pair : list (turb ttype) := [at_xy 500 40; at_xy 1000 80].
Definition front : list (turb ttype) := [at_xy 0 0].
(** the models of [west], with deficits relative to the ambient wind speed *)
Definition west_amb : scene := {| c_wd := 270; c_wsp := 10; c_def := Jensen; c_ctmax := 99/100; c_s := WSLinear; c_low := Some 0; c_high := None; c_amb := true |}.
Lemma tube_ct u : 0 <= u <= 20 -> interp (y_C tube) u = Ok (8/9).
Proof.
  intros H. unfold interp. cbn [tube y_C last fst]. replace (Rltb u 0) with false by (symmetry; apply Rltb_false; lra). replace (Rltb 20 u) with false by (symmetry; apply Rltb_false; lra). cbn [interp_from]. destruct (Rltb u 20); f_equal; lra.
Qed.
Lemma tube_steady c : c_wsp c = 10 -> c_low c = Some 0 -> steady_thrust c tube.
Proof.
  intros Hw Hl u v a b H0 H1 H2 Ea Eb. specialize (H0 0 Hl). rewrite Hw in H2. rewrite tube_ct in Ea by lra. rewrite tube_ct in Eb by lra. injection Ea as <-. injection Eb as <-. destruct (c_def c); lra.
Qed.
Lemma tube_good : good_farm (pair ++ front).
Proof.
  assert (G : good_type tube). { unfold good_type, tube. cbn. repeat split; try lra; try discriminate; intros x v [Q|[Q|[]]]; injection Q as <- <-; lra. }
  intros t H. cbn [pair front app In] in H. destruct H as [<-|[<-|[<-|[]]]]; (split; [exact G|cbn; lra]).
Qed.
Lemma west_amb_good : good_scene west_amb.
Proof. unfold good_scene, west_amb. cbn. repeat split; try lra; try (intros ? Q; injection Q as <-; lra); try (intros ? Q; discriminate Q). Qed.
Example C254_nonvacuous : good_scene west_amb /\ good_farm (pair ++ front) /\ of_ambient west_amb /\ (forall t, In t pair -> steady_thrust west_amb (t_set t)) /\
  (forall t, In t pair -> Curves_Spec.increasing (y_P (t_set t)) /\ c_wsp west_amb <= fst (last (y_P (t_set t)) (0, 0))).
Proof.
  split; [exact west_amb_good|]. split; [exact tube_good|]. split; [now left|]. split; intros t [<-|[<-|[]]]; cbn [at_xy t_set]; try (now apply tube_steady); cbn; lra.
Qed.
(** The effect of such a turbine in west wind. *)
Lemma tube_effect xs ys xt yt f : r_ct f = 8/9 -> 0 < c_wsp west ->
  (xt <= xs -> effect west (at_xy xs ys) f (at_xy xt yt) = None) /\
  (xs + 1 <= xt -> Rabs (yt - ys) < 50 -> effect west (at_xy xs ys) f (at_xy xt yt) = Some (r_ws f, - (2 / 3))) /\
  (xs + 1 <= xt -> 50 <= Rabs (yt - ys) -> effect west (at_xy xs ys) f (at_xy xt yt) = Some (r_ws f, 0)).
Proof.
  intros Hc _. assert (S1 : sin (270 * PI / 180) = -1). { replace (270 * PI / 180) with (3 * (PI / 2)) by field. apply sin_3PI2. }
  assert (K1 : cos (270 * PI / 180) = 0). { replace (270 * PI / 180) with (3 * (PI / 2)) by field. apply cos_3PI2. }
  assert (X : behind 270 (at_xy xs ys) (at_xy xt yt) = xt - xs). { unfold behind. rewrite S1, K1. cbn. unfold vx, vy. cbn. lra. }
  assert (Y : beside 270 (at_xy xs ys) (at_xy xt yt) = Rabs (yt - ys)). { unfold beside. rewrite S1, K1. cbn. unfold vx, vy, vz. cbn. rewrite <- sqrt_Rsqr_abs. unfold Rsqr. f_equal. ring. }
  split; [intros H; apply effect_self; cbn [west c_wd]; rewrite X; lra|].
  assert (E : xs + 1 <= xt -> effect west (at_xy xs ys) f (at_xy xt yt) = Some (r_ws f, formula west 100 0 (8/9) (xt - xs) (Rabs (yt - ys)))).
  { intros H. unfold effect. cbn [west c_wd c_wsp c_amb]. rewrite X, Y, Hc. destruct (Rlt_dec 1e-8 (xt - xs)) as [_|Q]; [|exfalso; apply Q; lra]. destruct (Rlt_dec 1e-8 (8/9)) as [_|Q]; [|exfalso; lra]. reflexivity. }
  split; intros H H'; rewrite E by exact H; apply f_equal, f_equal2; try reflexivity; unfold formula; cbn [west c_def c_ctmax].
  - destruct (Rlt_dec (Rabs (yt - ys)) (100 / 2 + 0 * (xt - xs))) as [_|Q]; [|exfalso; apply Q; lra]. unfold induction. rewrite Rmin_left by lra. replace (1 - 8/9) with (1/3 * (1/3)) by lra. rewrite sqrt_square by lra.
    replace (100 / (100 + 2 * 0 * (xt - xs))) with 1 by (field; lra). lra.
  - destruct (Rlt_dec (Rabs (yt - ys)) (100 / 2 + 0 * (xt - xs))) as [Q|_]; [exfalso; lra|reflexivity].
Qed.
(** With deficits that refer to the waked wind speed at the turbine (the default scaling of most superpositions), a further turbine in front can give wind to a turbine that is there already: it weakens the turbine whose wake is there.
    Here the second turbine of the pair has 10/3 m/s, and with the turbine in front 70/9 m/s. *)
Theorem C254_less_wind_refuted : exists c farm more, good_scene c /\ good_farm (farm ++ more) /\ (forall t, In t farm -> steady_thrust c (t_set t)) /\
  exists res res', farm_results c farm = Ok res /\ farm_results c (farm ++ more) = Ok res' /\ exists j, (j < length farm)%nat /\ r_ws (nth j res no_res) = 10 / 3 /\ r_ws (nth j res' no_res) = 70 / 9.
Proof.
  exists west, pair, front. destruct C250_nonvacuous as (HS & _). split; [exact HS|]. pose proof tube_good as HF. split; [exact HF|]. split; [intros t [<-|[<-|[]]]; cbn [at_xy t_set]; now apply tube_steady|].
  destruct (result_balanced west pair HS (HF0 pair front HF)) as (res & E & B & _). destruct (result_balanced west (pair ++ front) HS HF) as (res' & E' & B' & _). exists res, res'. split; [exact E|]. split; [exact E'|]. exists 1%nat. split; [cbn; lia|].
  assert (CT : forall fm rs, balanced west fm rs -> (forall t, In t fm -> t_set t = tube) -> good_farm fm -> farm_results west fm = Ok rs -> forall j, (j < length fm)%nat -> r_ct (nth j rs no_res) = 8/9).
  { intros fm rs Bb Ht Hg Er j Hj. destruct (result_bounds west fm HS Hg rs Er j Hj) as [U1 U2]. specialize (U2 0 eq_refl). cbn [west c_wsp] in U1. destruct Bb as [_ Bb]. destruct (Bb j Hj) as (W & C & _). cbv zeta in W, C. rewrite <- W in C.
    rewrite (Ht _ (nth_In fm no_turb Hj)) in C. rewrite tube_ct in C by lra. now injection C. }
  assert (C1 : forall j, (j < 2)%nat -> r_ct (nth j res no_res) = 8/9). { intros j Hj. apply (CT pair res B); [intros t [<-|[<-|[]]]; reflexivity|exact (HF0 pair front HF)|exact E|exact Hj]. }
  assert (C2 : forall j, (j < 3)%nat -> r_ct (nth j res' no_res) = 8/9). { intros j Hj. apply (CT (pair ++ front) res' B'); [intros t [<-|[<-|[<-|[]]]]; reflexivity|exact HF|exact E'|exact Hj]. }
  destruct B as [_ B]. destruct B' as [_ B']. assert (W0 : 0 < c_wsp west) by (cbn; lra).
  assert (A40 : Rabs (40 - 0) < 50) by (rewrite Rabs_right; lra). assert (A80 : 50 <= Rabs (80 - 0)) by (rewrite Rabs_right; lra). assert (AB : Rabs (80 - 40) < 50) by (rewrite Rabs_right; lra).
  assert (U0 : r_ws (nth 0 res no_res) = 10).
  { destruct (B 0%nat ltac:(cbn; lia)) as (W & _). cbv zeta in W. rewrite W. cbn [pair length seq map nth]. destruct (tube_effect 500 40 500 40 (nth 0 res no_res) (C1 0%nat ltac:(lia)) W0) as (T1 & _). destruct (tube_effect 1000 80 500 40 (nth 1 res no_res) (C1 1%nat ltac:(lia)) W0) as (T2 & _).
    rewrite T1, T2 by lra. cbn [west c_s c_low c_high c_wsp combination]. unfold absol. cbn [Superp_Spec.covering map rsum limited]. rewrite Rmax_left; lra. }
  assert (V2 : r_ws (nth 2 res' no_res) = 10).
  { destruct (B' 2%nat ltac:(cbn; lia)) as (W & _). cbv zeta in W. rewrite W. cbn [pair front app length seq map nth]. destruct (tube_effect 500 40 0 0 (nth 0 res' no_res) (C2 0%nat ltac:(lia)) W0) as (T1 & _). destruct (tube_effect 1000 80 0 0 (nth 1 res' no_res) (C2 1%nat ltac:(lia)) W0) as (T2 & _). destruct (tube_effect 0 0 0 0 (nth 2 res' no_res) (C2 2%nat ltac:(lia)) W0) as (T3 & _).
    rewrite T1, T2, T3 by lra. cbn [west c_s c_low c_high c_wsp combination]. unfold absol. cbn [Superp_Spec.covering map rsum limited]. rewrite Rmax_left; lra. }
  assert (V0 : r_ws (nth 0 res' no_res) = 10 / 3).
  { destruct (B' 0%nat ltac:(cbn; lia)) as (W & _). cbv zeta in W. rewrite W. cbn [pair front app length seq map nth]. destruct (tube_effect 500 40 500 40 (nth 0 res' no_res) (C2 0%nat ltac:(lia)) W0) as (T1 & _). destruct (tube_effect 1000 80 500 40 (nth 1 res' no_res) (C2 1%nat ltac:(lia)) W0) as (T2 & _). destruct (tube_effect 0 0 500 40 (nth 2 res' no_res) (C2 2%nat ltac:(lia)) W0) as (_ & T3 & _).
    rewrite T1, T2, T3 by (lra || exact A40). rewrite V2. cbn [west c_s c_low c_high c_wsp combination]. unfold absol. cbn [Superp_Spec.covering map rsum limited fst snd]. rewrite Rmax_left; lra. }
  split.
  - destruct (B 1%nat ltac:(cbn; lia)) as (W & _). cbv zeta in W. rewrite W. cbn [pair length seq map nth]. destruct (tube_effect 500 40 1000 80 (nth 0 res no_res) (C1 0%nat ltac:(lia)) W0) as (_ & T1 & _). destruct (tube_effect 1000 80 1000 80 (nth 1 res no_res) (C1 1%nat ltac:(lia)) W0) as (T2 & _).
    rewrite T1, T2 by (lra || exact AB). rewrite U0. cbn [west c_s c_low c_high c_wsp combination]. unfold absol. cbn [Superp_Spec.covering map rsum limited fst snd]. rewrite Rmax_left; lra.
  - destruct (B' 1%nat ltac:(cbn; lia)) as (W & _). cbv zeta in W. rewrite W. cbn [pair front app length seq map nth]. destruct (tube_effect 500 40 1000 80 (nth 0 res' no_res) (C2 0%nat ltac:(lia)) W0) as (_ & T1 & _). destruct (tube_effect 1000 80 1000 80 (nth 1 res' no_res) (C2 1%nat ltac:(lia)) W0) as (T2 & _). destruct (tube_effect 0 0 1000 80 (nth 2 res' no_res) (C2 2%nat ltac:(lia)) W0) as (_ & _ & T3).
    rewrite T1, T2, T3 by (lra || exact AB || exact A80). rewrite V0, V2. cbn [west c_s c_low c_high c_wsp combination]. unfold absol. cbn [Superp_Spec.covering map rsum limited fst snd]. rewrite Rmax_left; lra.
Qed.
Print Assumptions C254_less_wind_refuted.
