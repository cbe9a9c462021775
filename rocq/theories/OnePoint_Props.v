(** Theorems about one-point flow states. *)
From Verif Require Import RBase OnePoint_Model OnePoint_Proofs.
Local Open Scope R_scope.

(** C130: for every wind (displacements dxy of the states) and every point, the value lies within the range of the time series ... *)
Theorem C130_within_series n dxy data s p a b : (s < n)%nat -> (forall i, (i < n)%nat -> a <= data i <= b) -> a <= flow_value n dxy data s p <= b.
Proof. exact (flow_bounds n dxy data s p a b). Qed.
Print Assumptions C130_within_series.
(** ... hence constant series give constant fields, in particular a constant wind vector; and at the reference point it is the series *)
Theorem C130_constant_series n dxy data s p c : (s < n)%nat -> (forall i, (i < n)%nat -> data i = c) -> flow_value n dxy data s p = c.
Proof.
  intros Hs H. apply Rle_antisym; apply (flow_bounds n dxy data s p c c Hs); intros i Hi; rewrite (H i Hi); lra.
Qed.
Print Assumptions C130_constant_series.
Theorem C130_reference_point n dxy data s : (s < n)%nat -> 0 < norm2 (dxy s) -> flow_value n dxy data s (0, 0) = data s.
Proof. exact (at_reference n dxy data s). Qed.
Print Assumptions C130_reference_point.

(** C131: in constant wind with constant time steps (displacement v per step), the value at a point q (relative to the reference point), in state s, is
    the value of the time series, linearly interpolated in time, at the time at which the air passed (or will pass) the reference: the downwind
    distance is s minus that time index, k + f, times the length of a step. For times within the series; upstream of the reference only
    strictly between two time steps, and except for a distance of exactly 1e-10 m. *)
Theorem C131_transport_partial v n data s q k f : 0 < norm2 v -> (s < n)%nat -> (S k < n)%nat -> 0 <= f <= 1 ->
  dot2 q v / norm2 v = (INR s - (INR k + f)) * norm2 v -> dot2 q v / norm2 v <> 1e-10 -> INR k + f <= INR s \/ 0 < f < 1 ->
  flow_value n (fun _ => v) data s q = (1 - f) * data k + f * data (S k).
Proof. intros HL. exact (transport v HL n data s q k f). Qed.
Print Assumptions C131_transport_partial.
(** air that has not passed within the series: the last state is used, upstream ... *)
Theorem C131_far_upstream v n data s q : 0 < norm2 v -> (s < n)%nat -> dot2 q v / norm2 v < - (INR (n - S s) * norm2 v) ->
  flow_value n (fun _ => v) data s q = data (n - 1)%nat.
Proof. intros HL. exact (flow_far_up v HL n data s q). Qed.
Print Assumptions C131_far_upstream.
(** ... and also far downstream, where the air passed the reference before the series started: values from the future instead of the first state *)
Theorem C131_before_the_series_refuted v n data s q : 0 < norm2 v -> (s < n)%nat -> dot2 q v / norm2 v <> 1e-10 -> (INR s + 1) * norm2 v < dot2 q v / norm2 v ->
  flow_value n (fun _ => v) data s q = data (n - 1)%nat.
Proof. intros HL. exact (flow_far_down v HL n data s q). Qed.
Print Assumptions C131_before_the_series_refuted.
(** in the step before the start of the series, first and last state are mixed *)
Theorem C131_first_step_refuted v n data s q f : 0 < norm2 v -> (s < n)%nat -> 0 < f <= 1 -> dot2 q v / norm2 v = (INR s + f) * norm2 v -> dot2 q v / norm2 v <> 1e-10 ->
  flow_value n (fun _ => v) data s q = (1 - f) * data 0%nat + f * data (n - 1)%nat.
Proof. intros HL. exact (wrap v HL n data s q f). Qed.
Print Assumptions C131_first_step_refuted.
(** exactly a whole number of steps upstream the result is one state late: air that passes the reference at state s + j + 1 has the data of state s + j *)
Theorem C131_whole_steps_upstream_refuted v n data s q j : 0 < norm2 v -> (S (s + j) < n)%nat -> dot2 q v / norm2 v = - ((INR j + 1) * norm2 v) ->
  flow_value n (fun _ => v) data s q = data (s + j)%nat.
Proof. intros HL. exact (flow_up_exact v HL n data s q j). Qed.
Print Assumptions C131_whole_steps_upstream_refuted.
(** any wind and any times: the air moves during the step that follows the state; after the last state as long as before it *)
Theorem C131_last_step m uv times i :
  ((i <= m)%nat -> displacement (S (S m)) uv (steps times) i = (fst (uv i) * (times (S i) - times i), snd (uv i) * (times (S i) - times i))) /\
  displacement (S (S m)) uv (steps times) (S m) = (fst (uv (S m)) * (times (S m) - times m), snd (uv (S m)) * (times (S m) - times m)).
Proof.
  unfold displacement, steps. replace (S (S m) - 2)%nat with m by lia. split; [intros H; rewrite Nat.min_l by exact H; reflexivity|].
  rewrite Nat.min_r by lia. reflexivity.
Qed.
Print Assumptions C131_last_step.
(** Constant wind, times 0, 600 and 1800 seconds, 1 m/s: in state 1 the air 600 m downstream passed the reference at time 0, but the result is the
    mean of the data of states 0 and 1: the time step that follows the state is used instead of the one before it *)
Theorem C131_irregular_times_refuted data :
  let times i := match i with O => 0 | 1%nat => 600 | _ => 1800 end in
  flow_value 3 (displacement 3 (fun _ => (1, 0)) (steps times)) data 1 (600, 0) = (data 0%nat + data 1%nat) / 2.
Proof.
  intros times. set (dxy := displacement _ _ _).
  assert (D1 : dxy 1%nat = (1200, 0)) by (unfold dxy, displacement, steps, times; cbn; f_equal; ring).
  assert (HL : norm2 (1200, 0) = 1200). { unfold norm2, dot2. cbn. replace (1200 * 1200 + 0 * 0) with (1200 * 1200) by ring. apply sqrt_square. lra. }
  assert (P : px (1200, 0) (600, 0) = 600) by (unfold px; rewrite HL; unfold dot2; cbn; field).
  unfold flow_value, find_state. rewrite D1. rewrite (not_local (1200, 0)) by (rewrite ?HL, ?P; lra).
  cbn [back]. rewrite D1. rewrite eval_back, px_sub by (rewrite HL; lra). rewrite HL, P.
  rewrite (proj2 (Rleb_true _ _)), (proj2 (Rleb_true _ _)) by lra. cbn [andb interp_time]. rewrite (proj2 (Rleb_true _ _)) by lra. cbn [prev]. cbn zeta. field.
Qed.
Print Assumptions C131_irregular_times_refuted.
(** with equal time steps and constant wind the displacements are constant *)
Example C131_displacements n uv t0 dt i : displacement n (fun _ => uv) (steps (fun k => t0 + INR k * dt)) i = (fst uv * dt, snd uv * dt).
Proof. unfold displacement, steps. cbn zeta. rewrite S_INR. f_equal; ring. Qed.
(** 10 m/s, one minute steps, state 2 of 4: 900 m downstream, half way between states 0 and 1 *)
Example C131_nonvacuous data : flow_value 4 (fun _ => (600, 0)) data 2 (900, 50) = (1 - 0.5) * data 0%nat + 0.5 * data 1%nat.
Proof.
  assert (HL : norm2 (600, 0) = 600). { unfold norm2, dot2. cbn. replace (600 * 600 + 0 * 0) with (600 * 600) by ring. apply sqrt_square. lra. }
  apply C131_transport_partial; try lia; try lra; rewrite ?HL; unfold dot2; cbn; lra.
Qed.
