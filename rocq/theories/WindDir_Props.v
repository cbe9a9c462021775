(** Theorems about wind directions, yaw, the default wake frame's coordinates and convergence. *)
From Verif Require Import RBase WindDir_Model WindDir_Proofs Conv_Model Conv_Spec Conv_Proofs.
Local Open Scope R_scope.

(** C28 *)
Theorem C28_shortest_signed_angle a b : -540 <= b - a <= 540 ->
  -180 <= delta_wd a b <= 180 /\ (exists k : Z, delta_wd a b = b - a + 360 * IZR k) /\
  (forall k : Z, Rabs (delta_wd a b) <= Rabs (b - a + 360 * IZR k)).
Proof. intros H. destruct (delta_wd_range a b H) as (A & B). exact (conj A (conj B (delta_wd_shortest a b H))). Qed.
Print Assumptions C28_shortest_signed_angle.
Theorem C28_wind_directions a b : 0 <= a <= 360 -> 0 <= b <= 360 -> -180 <= delta_wd a b <= 180.
Proof. intros Ha Hb. exact (proj1 (delta_wd_range a b ltac:(lra))). Qed.
Print Assumptions C28_wind_directions.
Theorem C28_single_wrap_not_enough_outside a b : 540 < b - a \/ b - a < -540 -> ~ (-180 <= delta_wd a b <= 180).
Proof.
  intros [H|H].
  - pose proof (delta_wd_wrong_outside a b H). lra.
  - pose proof (delta_wd_wrong_below a b H). lra.
Qed.
Print Assumptions C28_single_wrap_not_enough_outside.
Example C28_nonvacuous : delta_wd 350 10 = 20 /\ delta_wd 10 350 = -20.
Proof. split; unfold delta_wd; cbn zeta; rdec; lra. Qed.

(** C29 *)
Theorem C29_direction_round_trip wd ws : 0 < ws ->
  uv2wd (wd2uv wd ws) = rmod wd 360 /\ 0 <= rmod wd 360 < 360 /\ (0 <= wd < 360 -> uv2wd (wd2uv wd ws) = wd).
Proof.
  intros H. split; [exact (uv_roundtrip wd ws H)|]. split; [apply rmod_range; lra|].
  intros Hw. rewrite (uv_roundtrip wd ws H). now apply rmod_small.
Qed.
Print Assumptions C29_direction_round_trip.
Theorem C29_speed_is_length wd ws : 0 <= ws ->
  sqrt (fst (wd2uv wd ws) * fst (wd2uv wd ws) + snd (wd2uv wd ws) * snd (wd2uv wd ws)) = ws.
Proof. exact (uv_length wd ws). Qed.
Print Assumptions C29_speed_is_length.
Theorem C29_vector_round_trip u v : wd2uv (uv2wd (u, v)) (sqrt (u * u + v * v)) = (u, v).
Proof. exact (wd_roundtrip u v). Qed.
Print Assumptions C29_vector_round_trip.
Theorem C29_reversed_vector wd ws : 0 < ws -> wdvec2wd (wd2wdvec wd ws) = rmod wd 360.
Proof. exact (wdvec_roundtrip wd ws). Qed.
Print Assumptions C29_reversed_vector.
(** west wind blows towards positive x *)
Example C29_nonvacuous : wd2uv 270 10 = (10, 0).
Proof.
  unfold wd2uv, wd2wdvec. cbn [fst snd]. replace (270 * PI / 180) with (3 * (PI / 2)) by field.
  rewrite sin_3PI2, cos_3PI2. f_equal; lra.
Qed.

(** C30 *)
Theorem C30_relative_absolute_relative wd yawm : 0 <= wd < 360 -> -180 < yawm < 180 -> yaw2yawm wd (yawm2yaw wd yawm) = yawm.
Proof. exact (yawm_roundtrip wd yawm). Qed.
Print Assumptions C30_relative_absolute_relative.
Theorem C30_absolute_relative_absolute wd yaw : yawm2yaw wd (yaw2yawm wd yaw) = rmod yaw 360.
Proof. exact (yaw_roundtrip wd yaw). Qed.
Print Assumptions C30_absolute_relative_absolute.
(** the bound is sharp: -180 degrees does not come back *)
Theorem C30_boundary_is_sharp wd : 0 <= wd < 180 -> yaw2yawm wd (yawm2yaw wd (-180)) = 180.
Proof. exact (yawm_180_lost wd). Qed.
Print Assumptions C30_boundary_is_sharp.
Example C30_nonvacuous : yawm2yaw 350 20 = 10.
Proof. unfold yawm2yaw. apply rmod_unique; try lra. exists (-1)%Z. lra. Qed.

(** C31; [dot d d] is the squared length *)
Theorem C31_isometry rotor wd p q :
  dot (vsub (wake_coos rotor wd p) (wake_coos rotor wd q)) (vsub (wake_coos rotor wd p) (wake_coos rotor wd q)) =
  dot (vsub p q) (vsub p q).
Proof. exact (coos_isometry rotor wd p q). Qed.
Print Assumptions C31_isometry.
Theorem C31_rotor_is_origin rotor wd : wake_coos rotor wd rotor = (0, 0, 0).
Proof. exact (coos_centre rotor wd). Qed.
Print Assumptions C31_rotor_is_origin.
Theorem C31_centreline rotor wd x p :
  wake_coos rotor wd p = (x, 0, 0) <-> p = centreline_point rotor wd x.
Proof. split; [exact (coos_centreline_only rotor wd p x)|intros ->; exact (coos_centreline rotor wd x)]. Qed.
Print Assumptions C31_centreline.
Example C31_nonvacuous : centreline_point (1, 2, 100) 270 500 = (501, 2, 100).
Proof.
  unfold centreline_point, wd2uv, wd2wdvec, vx, vy, vz. cbn [fst snd]. replace (270 * PI / 180) with (3 * (PI / 2)) by field.
  rewrite sin_3PI2, cos_3PI2. f_equal; [f_equal|]; lra.
Qed.

(** C23: the verdict is "every monitored value is a number and changed by at most its limit". *)
Theorem C23_verdict_means_small_change wd_vars limits verbose prev res :
  well_formed wd_vars limits prev res -> limits <> [] ->
  (check_converged wd_vars limits verbose (Some prev) res = Ok true <->
   forall v lim x0 x i a b, In (v, lim) limits -> prev v = Some x0 -> res v = Some x ->
     nth_error x0 i = Some a -> nth_error x i = Some b -> close (wd_vars v) lim a b).
Proof.
  intros W N. destruct (check_spec wd_vars limits verbose prev res W (fun _ => N)) as (b & E & I). rewrite E.
  split; [intros X; injection X as ->; now apply I|]. intros X. f_equal. now apply I.
Qed.
Print Assumptions C23_verdict_means_small_change.
Theorem C23_independent_of_verbosity wd_vars limits prev res :
  well_formed wd_vars limits prev res -> limits <> [] ->
  check_converged wd_vars limits true (Some prev) res = check_converged wd_vars limits false (Some prev) res.
Proof.
  intros W N. destruct (check_spec wd_vars limits true prev res W (fun _ => N)) as (b & E & I).
  destruct (check_spec wd_vars limits false prev res W (fun _ => N)) as (b' & E' & I'). rewrite E, E'.
  f_equal. destruct b, b'; auto; [symmetry; apply I', I|apply I, I']; reflexivity.
Qed.
Print Assumptions C23_independent_of_verbosity.
Theorem C23_first_iteration_never_accepted wd_vars limits verbose res : check_converged wd_vars limits verbose None res = Ok false.
Proof. reflexivity. Qed.
Print Assumptions C23_first_iteration_never_accepted.
Theorem C23_list_needs_all crits : check_list crits = Ok true <-> Forall (fun c => c = Ok true) crits.
Proof. exact (check_list_spec crits). Qed.
Print Assumptions C23_list_needs_all.
(** Without any limit the verbosity does matter: verbose output fails. *)
Theorem C23_empty_limits_verbose wd_vars prev res :
  check_converged wd_vars [] true (Some prev) res = Err ValueError /\ check_converged wd_vars [] false (Some prev) res = Ok true.
Proof. split; reflexivity. Qed.
Print Assumptions C23_empty_limits_verbose.
(** a wind direction moving from 359.5 to 0.2 is within a limit of 1 degree; NaN never is *)
Example C23_nonvacuous :
  well_formed (fun _ => true) [(0%nat, 1)] (fun _ => Some [Some 359.5; Some 3]) (fun _ => Some [Some 0.2; Some 3]) /\
  check_converged (fun _ => true) [(0%nat, 1)] true (Some (fun _ => Some [Some 359.5; Some 3])) (fun _ => Some [Some 0.2; Some 3]) = Ok true.
Proof.
  assert (W : well_formed (fun _ => true) [(0%nat, 1)] (fun _ => Some [Some 359.5; Some 3]) (fun _ => Some [Some 0.2; Some 3])).
  { intros v lim H. exists [Some 359.5; Some 3], [Some 0.2; Some 3]. split; [reflexivity|]. split; [reflexivity|]. split; [discriminate|]. split; [reflexivity|].
    intros _; split; intros a Ha; cbn in Ha; destruct Ha as [E|[E|[]]]; injection E as <-; lra. }
  split; [exact W|]. apply C23_verdict_means_small_change; [exact W|discriminate|].
  intros v lim x0 x i a b [E|[]] E0 E1 Ha Hb. injection E as <- <-. injection E0 as <-. injection E1 as <-.
  destruct i as [|[|i]]; cbn in Ha, Hb; [| |destruct i; discriminate]; injection Ha as <-; injection Hb as <-.
  - exists 359.5, 0.2. repeat split. exists 1%Z. unfold Rabs. destruct (Rcase_abs _); lra.
  - exists 3, 3. repeat split. exists 0%Z. unfold Rabs. destruct (Rcase_abs _); lra.
Qed.
Theorem C23_nan_never_accepted wd_vars limits verbose prev res v lim x0 x i :
  well_formed wd_vars limits prev res -> In (v, lim) limits -> prev v = Some x0 -> res v = Some x ->
  (nth_error x0 i = Some None \/ nth_error x i = Some None) ->
  check_converged wd_vars limits verbose (Some prev) res = Ok false.
Proof.
  intros W Hin E0 E1 Hn. assert (N : limits <> []) by (destruct limits; [destruct Hin|discriminate]).
  destruct (check_spec wd_vars limits verbose prev res W (fun _ => N)) as (b & E & I). rewrite E. f_equal.
  destruct b; [|reflexivity]. exfalso. pose proof (proj1 I eq_refl) as A.
  destruct (W v lim Hin) as (y0 & y & F0 & F1 & _ & L & _). rewrite E0 in F0. rewrite E1 in F1. injection F0 as <-. injection F1 as <-.
  assert (G : exists a b, nth_error x0 i = Some a /\ nth_error x i = Some b).
  { destruct Hn as [Hn|Hn].
    - destruct (nth_error x i) eqn:X; eauto. apply nth_error_None in X. assert (i < length x0)%nat by (apply nth_error_Some; congruence). lia.
    - destruct (nth_error x0 i) eqn:X; eauto. apply nth_error_None in X. assert (i < length x)%nat by (apply nth_error_Some; congruence). lia. }
  destruct G as (a & b & Ga & Gb). destruct (A v lim x0 x i a b Hin E0 E1 Ga Gb) as (c & d & Ec & Ed & _).
  destruct Hn as [Hn|Hn]; congruence.
Qed.
Print Assumptions C23_nan_never_accepted.
