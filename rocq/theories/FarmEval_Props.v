(** Theorems about the evaluation of farm results. *)
From Verif Require Import RBase FarmEval_Model FarmEval_Proofs.
Local Open Scope R_scope.

(** C43: the state mean is between the extremes *)
Theorem C43_state_mean_bounds ns nt w v t : (forall s, (s < ns)%nat -> 0 <= wt w s t) -> bsum ns (fun s => wt w s t) = 1 ->
  exists r, reduce_states ns nt w v OWeights = Ok r /\ bmin ns (fun s => v s t) <= r t <= bmax ns (fun s => v s t).
Proof.
  intros Hw H1. eexists. split; [reflexivity|]. cbv beta. rewrite weinsum_t_no_nan.
  pose proof (weighted_bounds ns (fun s => v s t) (fun s => wt w s t) (bmin ns (fun s => v s t)) (bmax ns (fun s => v s t)) Hw) as B.
  rewrite H1 in B. cbv beta in B. rewrite !Rmult_1_r in B. apply B. intros s Hs. split; [now apply (bmin_le ns (fun s => v s t))|now apply (bmax_ge ns (fun s => v s t))].
Qed.
Print Assumptions C43_state_mean_bounds.
Theorem C43_state_mean_constant ns nt w c t : bsum ns (fun s => wt w s t) = 1 ->
  exists r, reduce_states ns nt w (fun _ _ => c) OWeights = Ok r /\ r t = c.
Proof. intros H. eexists. split; [reflexivity|]. cbv beta. rewrite weinsum_t_no_nan, bsum_scale, H. ring. Qed.
Print Assumptions C43_state_mean_constant.
Theorem C43_unweighted_mean_bounds ns nt w v t : (0 < ns)%nat ->
  exists r, reduce_states ns nt w v OMeanNW = Ok r /\ bmin ns (fun s => v s t) <= r t <= bmax ns (fun s => v s t).
Proof. intros H. eexists. split; [reflexivity|]. cbv beta. now apply mean_bounds. Qed.
Print Assumptions C43_unweighted_mean_bounds.
(** the mean farm power is the sum of the turbine means and, for weights by state, the mean of the farm sums *)
Theorem C43_farm_power_sum_of_means ns nt w v : exists r, reduce_states ns nt w v OWeights = Ok r /\
  calc_mean_farm_power ns nt w v = Ok (bsum nt r) /\ bsum nt r = bsum nt (fun t => bsum ns (fun s => v s t * wt w s t)).
Proof. eexists. split; [reflexivity|]. split; [reflexivity|]. apply bsum_ext. intros. apply weinsum_t_no_nan. Qed.
Print Assumptions C43_farm_power_sum_of_means.
Theorem C43_farm_power_mean_of_sums ns nt w v : exists r, reduce_turbines ns nt (WS w) v OSum = Ok r /\
  calc_mean_farm_power ns nt (WS w) v = Ok (bsum ns (fun s => w s * r s)).
Proof.
  eexists. split; [reflexivity|]. unfold calc_mean_farm_power, reduce_all, reduce_states. f_equal.
  transitivity (bsum nt (fun t => bsum ns (fun s => w s * v s t))).
  - apply bsum_ext. intros t _. rewrite weinsum_t_no_nan. apply bsum_ext. intros. cbn. ring.
  - rewrite bsum_swap. apply bsum_ext. intros s _. apply bsum_scale.
Qed.
Print Assumptions C43_farm_power_mean_of_sums.
(** The sum over states and turbines, in either order, whatever the weights *)
Theorem C43_farm_sum ns nt w v : calc_farm_sum ns nt w v = Ok (bsum nt (fun t => bsum ns (fun s => v s t))) /\ calc_farm_sum ns nt w v = Ok (bsum ns (fun s => bsum nt (fun t => v s t))).
Proof. split; [reflexivity|]. unfold calc_farm_sum, reduce_all. cbn. f_equal. apply bsum_swap. Qed.
Print Assumptions C43_farm_sum.
(** states with NaN values are dropped without changing the total weight *)
Theorem C43_nan_states_bounds ns nt nan w v t lo hi :
  (forall s, (s < ns)%nat -> 0 <= wt w s t) -> (forall s, (s < ns)%nat -> row_nan nt nan s = false -> lo <= v s t <= hi) ->
  0 < bsum ns (fun s => kept nt nan w s t) ->
  lo * bsum ns (fun s => wt w s t) <= weinsum_t ns nt nan w v t <= hi * bsum ns (fun s => wt w s t).
Proof. exact (weinsum_nan_bounds ns nt nan w v t lo hi). Qed.
Print Assumptions C43_nan_states_bounds.
(** extremes are values of the array *)
Theorem C43_extremes_attained ns nt w v t : (0 < ns)%nat -> exists lo hi,
  reduce_states ns nt w v OMin = Ok lo /\ reduce_states ns nt w v OMax = Ok hi /\
  (exists s, (s < ns)%nat /\ lo t = v s t) /\ (exists s, (s < ns)%nat /\ hi t = v s t) /\
  forall s, (s < ns)%nat -> lo t <= v s t <= hi t.
Proof.
  intros H. do 2 eexists. split; [reflexivity|]. split; [reflexivity|]. cbv beta.
  split; [now apply (bmin_at ns (fun s => v s t))|]. split; [now apply (bmax_at ns (fun s => v s t))|].
  intros s Hs. split; [now apply (bmin_le ns (fun s => v s t))|now apply (bmax_ge ns (fun s => v s t))].
Qed.
Print Assumptions C43_extremes_attained.
(** The farm mean is not a mean: it is the number of turbines times too large ... *)
Theorem C43_farm_mean_refuted ns nt w c : (forall t, (t < nt)%nat -> bsum ns (fun s => wt w s t) = 1) ->
  calc_farm_mean ns nt w (fun _ _ => c) = Ok (c * INR nt).
Proof. exact (farm_mean_const ns nt w c). Qed.
Print Assumptions C43_farm_mean_refuted.
(** ... and so is the unweighted turbine mean of reduce_all. *)
Theorem C43_turbine_mean_refuted ns nt w v so r : reduce_states ns nt w v so = Ok r ->
  reduce_all ns nt w v so OMeanNW = Ok (INR nt * mean nt r) \/ nt = O.
Proof.
  intros H. destruct (Nat.eq_dec nt 0) as [E|E]; [now right|left]. unfold reduce_all. rewrite H. f_equal. unfold mean. field. now apply not_0_INR.
Qed.
Print Assumptions C43_turbine_mean_refuted.
Example C43_nonvacuous : let w := WS (fun s => if (s =? 0)%nat then 1/4 else 3/4) in
  (forall s, (s < 2)%nat -> 0 <= wt w s 0%nat) /\ bsum 2 (fun s => wt w s 0%nat) = 1 /\ calc_farm_mean 2 5 w (fun _ _ => 8) = Ok 40.
Proof.
  cbv zeta. assert (H : bsum 2 (fun s => wt (WS (fun s => if (s =? 0)%nat then 1/4 else 3/4)) s 0%nat) = 1) by (unfold bsum; cbn; lra).
  split; [intros [|s] _; cbn; lra|]. split; [assumption|].
  rewrite farm_mean_const; [f_equal; cbn; lra|]. intros t _. exact H.
Qed.

(** C44: annual yield = mean power x hours of a year, in GWh, whatever the duration *)
Theorem C44_annual_yield ns nt st ou u hours dt w p h y : duration_hours ns st true hours dt = Ok h -> h <> 0 ->
  calc_turbine_yield ns nt st ou u true hours dt w p = Ok y ->
  forall t, y t = bsum ns (fun s => p s t * wt w s t) * 8760 * (match ou, u with Some f, _ => f t | _, Some x => x | _, _ => 0 end) / 1000000000.
Proof. intros H1 H2 H3. exact (annual_yield ns nt st ou u hours dt w p h H1 H2 y H3). Qed.
Print Assumptions C44_annual_yield.
Theorem C44_timeseries_energy ns nt t0 dt k u p : (2 <= ns)%nat -> dt = (k * 1000000000)%Z -> (0 <= k)%Z ->
  exists y, calc_turbine_yield ns nt (Times (fun i => t0 + Z.of_nat i * dt)%Z) None (Some u) false None None (WS (fun _ => / INR ns)) p = Ok y /\
  forall t, y t = bsum ns (fun s => p s t * u * (IZR k / 3600)) / 1000000000.
Proof. exact (timeseries_energy ns nt t0 dt k u p). Qed.
Print Assumptions C44_timeseries_energy.
(** Ambient farm yields are not available: the sum is looked up under the wrong name. *)
Theorem C44_ambient_farm_yield_refuted nt y pu : calc_farm_yield nt (yield_col true) y pu = Err KeyError.
Proof. reflexivity. Qed.
Print Assumptions C44_ambient_farm_yield_refuted.
Theorem C44_farm_yield_partial nt y pu : exists ps, calc_farm_yield nt (yield_col false) y pu = Ok (bsum nt y, ps) /\
  match pu, ps with None, None => True | Some u, Some (p75, p90) => 0 <= u -> 0 <= bsum nt y -> p90 <= p75 <= bsum nt y | _, _ => False end.
Proof. eexists. split; [reflexivity|]. destruct pu; [|exact I]. intros. nra. Qed.
Print Assumptions C44_farm_yield_partial.
Example C44_nonvacuous : exists y, calc_turbine_yield 3 1 (Times (fun i => 5 + Z.of_nat i * 600000000000)%Z) None (Some 1000) true None None (WS (fun _ => /3)) (fun s _ => INR s) = Ok y /\ y 0%nat = 876/100000.
Proof.
  pose proof (timeseries_duration 3 5 600000000000 600 true ltac:(lia) ltac:(lia) ltac:(lia)) as D.
  assert (E : exists y, calc_turbine_yield 3 1 (Times (fun i => 5 + Z.of_nat i * 600000000000)%Z) None (Some 1000) true None None (WS (fun _ => /3)) (fun s _ => INR s) = Ok y).
  { unfold calc_turbine_yield. rewrite D. now eexists. }
  destruct E as (y & E). exists y. split; [assumption|]. rewrite (C44_annual_yield _ _ _ _ _ _ _ _ _ _ _ D ltac:(cbn; lra) E). unfold bsum; cbn; lra.
Qed.

(** C45: efficiencies and capacities are fractions *)
Theorem C45_turbine_efficiency p p0 : 0 <= efficiency p p0 <= 1 /\ (1e-10 <= p -> p <= p0 -> efficiency p p0 = p / p0).
Proof. split; [exact (efficiency_range p p0)|exact (efficiency_value p p0)]. Qed.
Print Assumptions C45_turbine_efficiency.
Theorem C45_farm_efficiency ns nt w p p0 : (forall s t, (s < ns)%nat -> (t < nt)%nat -> 0 <= wt w s t) ->
  (forall s t, (s < ns)%nat -> (t < nt)%nat -> 0 <= p s t <= p0 s t) ->
  exists P P0, calc_mean_farm_power ns nt w p = Ok P /\ calc_mean_farm_power ns nt w p0 = Ok P0 /\
    0 <= farm_efficiency P P0 <= 1 /\ (1e-14 <= P0 -> farm_efficiency P P0 = P / P0).
Proof.
  intros H1 H2. destruct (farm_efficiency_arrays ns nt w p p0 H1 H2) as (P & P0 & A & B & C & D). exists P, P0.
  split; [assumption|]. split; [assumption|]. split; [apply farm_efficiency_range; lra|assumption].
Qed.
Print Assumptions C45_farm_efficiency.
Theorem C45_capacity p pnom : 0 <= p <= pnom -> 0 < pnom -> 0 <= capacity p pnom <= 1.
Proof.
  intros H1 H2. unfold capacity. split; [unfold Rdiv; apply Rmult_le_pos; [lra|]; left; now apply Rinv_0_lt_compat|].
  apply (Rmult_le_reg_r pnom); [assumption|]. unfold Rdiv. rewrite Rmult_assoc, Rinv_l by lra. lra.
Qed.
Print Assumptions C45_capacity.
Example C45_nonvacuous : efficiency 900 1200 = 3/4 /\ farm_efficiency 900 1200 = 3/4.
Proof. rewrite efficiency_value, farm_efficiency_value by lra. lra. Qed.
