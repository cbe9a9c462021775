(** Proofs about the evaluation of farm results. *)
From Verif Require Import RBase FarmEval_Model.
Local Open Scope R_scope.

Lemma bsum_S n f : bsum (S n) f = bsum n f + f n.
Proof. unfold bsum. rewrite seq_S, map_app, rsum_app. cbn. lra. Qed.
Lemma bsum_ext n f g : (forall i, (i < n)%nat -> f i = g i) -> bsum n f = bsum n g.
Proof. intros H. apply rsum_ext. intros i Hi. apply in_seq in Hi. apply H. lia. Qed.
Lemma bsum_le n f g : (forall i, (i < n)%nat -> f i <= g i) -> bsum n f <= bsum n g.
Proof. intros H. apply rsum_le. intros i Hi. apply in_seq in Hi. apply H. lia. Qed.
Lemma bsum_plus n f g : bsum n (fun i => f i + g i) = bsum n f + bsum n g.
Proof. apply rsum_map_plus. Qed.
Lemma bsum_scale n c f : bsum n (fun i => c * f i) = c * bsum n f.
Proof. apply rsum_map_scale. Qed.
Lemma bsum_const n c : bsum n (fun _ => c) = c * INR n.
Proof. unfold bsum. rewrite rsum_const, seq_length. reflexivity. Qed.
Lemma bsum_nonneg n f : (forall i, (i < n)%nat -> 0 <= f i) -> 0 <= bsum n f.
Proof. intros H. pose proof (bsum_le n (fun _ => 0) f H). rewrite bsum_const in H0. lra. Qed.
Lemma bsum_swap n m (f : nat -> nat -> R) : bsum n (fun i => bsum m (fun j => f i j)) = bsum m (fun j => bsum n (fun i => f i j)).
Proof.
  induction n as [|n IH].
  - transitivity (bsum m (fun _ => 0)); [rewrite bsum_const; unfold bsum; cbn; ring|]. apply bsum_ext. reflexivity.
  - rewrite bsum_S, IH. rewrite <- bsum_plus. apply bsum_ext. intros j _. rewrite bsum_S. reflexivity.
Qed.
Lemma bmin_S n f : bmin (S (S n)) f = Rmin (bmin (S n) f) (f (S n)).
Proof. reflexivity. Qed.
Lemma bmax_S n f : bmax (S (S n)) f = Rmax (bmax (S n) f) (f (S n)).
Proof. reflexivity. Qed.
Lemma bmin_le n f i : (i < n)%nat -> bmin n f <= f i.
Proof.
  induction n as [|[|n] IH]; intros H; [lia|replace i with O by lia; cbn; lra|]. rewrite bmin_S.
  destruct (Nat.eq_dec i (S n)) as [E|E]; [subst; apply Rmin_r|]. eapply Rle_trans; [apply Rmin_l|apply IH; lia].
Qed.
Lemma bmax_ge n f i : (i < n)%nat -> f i <= bmax n f.
Proof.
  induction n as [|[|n] IH]; intros H; [lia|replace i with O by lia; cbn; lra|]. rewrite bmax_S.
  destruct (Nat.eq_dec i (S n)) as [E|E]; [subst; apply Rmax_r|]. eapply Rle_trans; [apply IH; lia|apply Rmax_l].
Qed.
Lemma bmin_at n f : (0 < n)%nat -> exists i, (i < n)%nat /\ bmin n f = f i.
Proof.
  induction n as [|[|n] IH]; intros H; [lia|exists O; split; [lia|reflexivity]|]. rewrite bmin_S. destruct IH as (i & Hi & E); [lia|].
  unfold Rmin. destruct (Rle_dec _ _); [exists i; split; [lia|assumption]|exists (S n); split; [lia|reflexivity]].
Qed.
Lemma bmax_at n f : (0 < n)%nat -> exists i, (i < n)%nat /\ bmax n f = f i.
Proof.
  induction n as [|[|n] IH]; intros H; [lia|exists O; split; [lia|reflexivity]|]. rewrite bmax_S. destruct IH as (i & Hi & E); [lia|].
  unfold Rmax. destruct (Rle_dec _ _); [exists (S n); split; [lia|reflexivity]|exists i; split; [lia|assumption]].
Qed.

Lemma any_no_nan ns nt : any_nan ns nt no_nan = false.
Proof.
  unfold any_nan. induction (seq 0 ns) as [|s l IH]; [reflexivity|]. cbn [existsb]. rewrite IH.
  unfold row_nan, no_nan. induction (seq 0 nt) as [|t l' IH']; [reflexivity|exact IH'].
Qed.
Lemma row_no_nan nt s : row_nan nt no_nan s = false.
Proof. unfold row_nan, no_nan. induction (seq 0 nt) as [|t l' IH']; [reflexivity|exact IH']. Qed.
Lemma term_no_nan ns nt w v s t : term ns nt no_nan w v s t = v s t * wt w s t.
Proof. unfold term, weff. now rewrite any_no_nan, row_no_nan. Qed.
Lemma weinsum_t_no_nan ns nt w v t : weinsum_t ns nt no_nan w v t = bsum ns (fun s => v s t * wt w s t).
Proof. apply bsum_ext. intros. apply term_no_nan. Qed.

(** weighted mean between bounds *)
Lemma weighted_bounds n (f w : nat -> R) lo hi : (forall i, (i < n)%nat -> 0 <= w i) -> (forall i, (i < n)%nat -> lo <= f i <= hi) ->
  lo * bsum n w <= bsum n (fun i => f i * w i) <= hi * bsum n w.
Proof.
  intros Hw Hf. rewrite <- !bsum_scale. split; apply bsum_le; intros i Hi; specialize (Hw i Hi); specialize (Hf i Hi); nra.
Qed.
Lemma mean_bounds n f : (0 < n)%nat -> bmin n f <= mean n f <= bmax n f.
Proof.
  intros Hn. assert (P : 0 < INR n) by now apply lt_0_INR. unfold mean.
  assert (A : bmin n f * INR n <= bsum n f) by (rewrite <- bsum_const; apply bsum_le; intros; now apply bmin_le).
  assert (B : bsum n f <= bmax n f * INR n) by (rewrite <- bsum_const; apply bsum_le; intros; now apply bmax_ge).
  split; apply (Rmult_le_reg_r (INR n)); auto; unfold Rdiv; rewrite Rmult_assoc, Rinv_l by lra; lra.
Qed.
(** NaN states: dropped, total weight kept *)
Lemma weinsum_nan_bounds ns nt nan w v t lo hi :
  (forall s, (s < ns)%nat -> 0 <= wt w s t) -> (forall s, (s < ns)%nat -> row_nan nt nan s = false -> lo <= v s t <= hi) ->
  0 < bsum ns (fun s => kept nt nan w s t) ->
  lo * bsum ns (fun s => wt w s t) <= weinsum_t ns nt nan w v t <= hi * bsum ns (fun s => wt w s t).
Proof.
  intros Hw Hv Hp. unfold weinsum_t.
  set (w0 := bsum ns (fun s => wt w s t)) in *. set (w1 := bsum ns (fun s => kept nt nan w s t)) in *.
  assert (W01 : w1 <= w0).
  { apply bsum_le. intros s Hs. unfold kept. specialize (Hw s Hs). destruct (row_nan nt nan s); lra. }
  assert (Hk : forall s, (s < ns)%nat -> 0 <= kept nt nan w s t).
  { intros s Hs. unfold kept. specialize (Hw s Hs). destruct (row_nan nt nan s); lra. }
  assert (E : forall s, (s < ns)%nat -> term ns nt nan w v s t = (if any_nan ns nt nan then w0 / w1 else 1) * ((if row_nan nt nan s then lo else v s t) * kept nt nan w s t)).
  { intros s Hs. unfold term, weff, kept. fold w0. change (bsum ns (fun s => if row_nan nt nan s then 0 else wt w s t)) with w1.
    destruct (row_nan nt nan s) eqn:Er; destruct (any_nan ns nt nan); cbn; try ring. }
  rewrite (bsum_ext _ _ _ E), bsum_scale.
  destruct ns as [|ns'].
  { unfold w1, bsum in Hp. cbn in Hp. lra. }
  assert (LH : lo <= hi \/ forall s, (s < S ns')%nat -> row_nan nt nan s = true).
  { destruct (Rle_or_lt lo hi); [now left|right]. intros s Hs. destruct (row_nan nt nan s) eqn:Er; [reflexivity|]. specialize (Hv s Hs Er). lra. }
  destruct LH as [LH|LH].
  - destruct (weighted_bounds (S ns') (fun s => if row_nan nt nan s then lo else v s t) (fun s => kept nt nan w s t) lo hi Hk) as (A & B).
    { intros s Hs. destruct (row_nan nt nan s) eqn:Er; [lra|now apply Hv]. }
    fold w1 in A, B. destruct (any_nan (S ns') nt nan) eqn:Ea.
    + assert (Q : 0 <= w0 / w1) by (apply Rlt_le, Rdiv_lt_0_compat; lra).
      replace (lo * w0) with (w0 / w1 * (lo * w1)) by (field; lra). replace (hi * w0) with (w0 / w1 * (hi * w1)) by (field; lra).
      split; now apply Rmult_le_compat_l.
    + assert (w1 = w0); [|rewrite <- H; lra]. unfold w1, w0. apply bsum_ext. intros s Hs. unfold kept.
      destruct (row_nan nt nan s) eqn:Er; [|reflexivity]. exfalso.
      assert (any_nan (S ns') nt nan = true); [|congruence]. unfold any_nan. apply existsb_exists. exists s. split; [apply in_seq; lia|assumption].
  - exfalso. assert (w1 = 0); [|lra]. unfold w1. transitivity (bsum (S ns') (fun _ => 0)); [|rewrite bsum_const; ring]. apply bsum_ext.
    intros s Hs. unfold kept. now rewrite LH.
Qed.

(** farm power: order of contraction *)
Lemma farm_power_swap ns nt w v : weinsum_all ns nt no_nan w v = bsum nt (fun t => weinsum_t ns nt no_nan w v t).
Proof. unfold weinsum_all, weinsum_t. apply bsum_swap. Qed.
(** calc_farm_mean sums over the turbines *)
Lemma farm_mean_const ns nt w c : (forall t, (t < nt)%nat -> bsum ns (fun s => wt w s t) = 1) ->
  calc_farm_mean ns nt w (fun _ _ => c) = Ok (c * INR nt).
Proof.
  intros H. unfold calc_farm_mean, reduce_all, reduce_states. rewrite farm_power_swap. f_equal. rewrite <- bsum_const. apply bsum_ext.
  intros t Ht. rewrite weinsum_t_no_nan, bsum_scale, H by assumption. ring.
Qed.
Lemma farm_mean_times ns nt w v : exists m, calc_farm_mean ns nt w v = Ok m /\ m = bsum nt (fun t => bsum ns (fun s => v s t * wt w s t)).
Proof.
  unfold calc_farm_mean, reduce_all, reduce_states. eexists. split; [reflexivity|]. rewrite farm_power_swap. apply bsum_ext.
  intros t Ht. apply weinsum_t_no_nan.
Qed.
(** yields *)
Lemma annual_yield ns nt st ou u hours dt w p h : duration_hours ns st true hours dt = Ok h -> h <> 0 ->
  forall y, calc_turbine_yield ns nt st ou u true hours dt w p = Ok y ->
  forall t, y t = bsum ns (fun s => p s t * wt w s t) * 8760 * (match ou, u with Some f, _ => f t | _, Some x => x | _, _ => 0 end) / 1000000000.
Proof.
  intros Hd Hh y. unfold calc_turbine_yield. rewrite Hd. destruct ou as [f|], u as [x|]; try discriminate; intros E t; injection E as <-;
    rewrite weinsum_t_no_nan; field; assumption.
Qed.
Lemma timeseries_duration ns (t0 dt : Z) k annual : (2 <= ns)%nat -> dt = (k * 1000000000)%Z -> (0 <= k)%Z ->
  duration_hours ns (Times (fun i => t0 + Z.of_nat i * dt)%Z) annual None None = Ok (INR ns * (IZR k / 3600)).
Proof.
  intros Hn Hk Hpos. unfold duration_hours. destruct ns as [|[|n]]; [lia|lia|]. f_equal.
  replace (t0 + Z.of_nat (S (S n) - 1) * dt - (t0 + Z.of_nat 0 * dt) + (t0 + Z.of_nat (S (S n) - 1) * dt - (t0 + Z.of_nat (S (S n) - 2) * dt)))%Z
    with ((Z.of_nat (S (S n)) * k) * 1000000000)%Z by (subst dt; nia).
  rewrite Z.quot_mul by lia. rewrite mult_IZR, <- INR_IZR_INZ. field.
Qed.
(** non-annual yield of an equidistant, equally weighted time series: the energy sum *)
Lemma timeseries_energy ns nt t0 dt k u p : (2 <= ns)%nat -> dt = (k * 1000000000)%Z -> (0 <= k)%Z ->
  exists y, calc_turbine_yield ns nt (Times (fun i => t0 + Z.of_nat i * dt)%Z) None (Some u) false None None (WS (fun _ => / INR ns)) p = Ok y /\
  forall t, y t = bsum ns (fun s => p s t * u * (IZR k / 3600)) / 1000000000.
Proof.
  intros Hn Hk Hp. unfold calc_turbine_yield. rewrite (timeseries_duration ns t0 dt k false Hn Hk Hp). eexists. split; [reflexivity|].
  intros t. cbv beta zeta. rewrite weinsum_t_no_nan. cbn [wt]. f_equal.
  rewrite (bsum_ext ns (fun s => p s t * / INR ns) (fun s => / INR ns * p s t)) by (intros; ring).
  rewrite (bsum_ext ns (fun s => p s t * u * (IZR k / 3600)) (fun s => (u * (IZR k / 3600)) * p s t)) by (intros; ring).
  rewrite !bsum_scale. assert (INR ns <> 0) by (apply not_0_INR; lia). field. assumption.
Qed.
(** efficiency *)
Lemma efficiency_range p p0 : 0 <= efficiency p p0 <= 1.
Proof.
  unfold efficiency. rdec; [lra|]. assert (M : 0 < Rmax p0 1e-12) by (eapply Rlt_le_trans; [|apply Rmax_r]; lra).
  split; [|apply Rmin_r]. apply Rmin_glb; [|lra]. apply Rlt_le, Rdiv_lt_0_compat; lra.
Qed.
Lemma efficiency_value p p0 : 1e-10 <= p -> p <= p0 -> efficiency p p0 = p / p0.
Proof.
  intros H1 H2. unfold efficiency. rdec; [lra|]. rewrite Rmax_left by lra. apply Rmin_left.
  apply (Rmult_le_reg_r p0); [lra|]. unfold Rdiv. rewrite Rmult_assoc, Rinv_l by lra. lra.
Qed.
Lemma farm_efficiency_range p p0 : 0 <= p -> 0 <= farm_efficiency p p0 <= 1.
Proof.
  intros H. unfold farm_efficiency. assert (M : 0 < Rmax p0 1e-14) by (eapply Rlt_le_trans; [|apply Rmax_r]; lra).
  split; [|apply Rmin_r]. apply Rmin_glb; [|lra]. unfold Rdiv. apply Rmult_le_pos; [assumption|]. left. now apply Rinv_0_lt_compat.
Qed.
Lemma farm_efficiency_value p p0 : 0 <= p <= p0 -> 1e-14 <= p0 -> farm_efficiency p p0 = p / p0.
Proof.
  intros H1 H2. unfold farm_efficiency. rewrite Rmax_left by lra. apply Rmin_left.
  apply (Rmult_le_reg_r p0); [lra|]. unfold Rdiv. rewrite Rmult_assoc, Rinv_l by lra. lra.
Qed.
(** the farm efficiency from power arrays: waked power not above ambient power *)
Lemma farm_efficiency_arrays ns nt w p p0 : (forall s t, (s < ns)%nat -> (t < nt)%nat -> 0 <= wt w s t) ->
  (forall s t, (s < ns)%nat -> (t < nt)%nat -> 0 <= p s t <= p0 s t) ->
  exists P P0, calc_mean_farm_power ns nt w p = Ok P /\ calc_mean_farm_power ns nt w p0 = Ok P0 /\ 0 <= P <= P0 /\
    (1e-14 <= P0 -> farm_efficiency P P0 = P / P0).
Proof.
  intros Hw H. do 2 eexists. split; [reflexivity|]. split; [reflexivity|].
  assert (A : 0 <= bsum nt (weinsum_t ns nt no_nan w p) <= bsum nt (weinsum_t ns nt no_nan w p0)).
  { split.
    - apply bsum_nonneg. intros t Ht. rewrite weinsum_t_no_nan. apply bsum_nonneg. intros s Hs. specialize (Hw s t Hs Ht). specialize (H s t Hs Ht). nra.
    - apply bsum_le. intros t Ht. rewrite !weinsum_t_no_nan. apply bsum_le. intros s Hs. specialize (Hw s t Hs Ht). specialize (H s t Hs Ht). nra. }
  split; [assumption|]. intros. now apply farm_efficiency_value.
Qed.
