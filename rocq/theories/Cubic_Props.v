(** Theorems about the cubic solver and the power mask. *)
From Verif Require Import RBase Cubic_Model Cubic_Spec Cubic_Proofs.
Local Open Scope R_scope.

(** C34: every finite cell of every row is a root of that row's polynomial. *)
Theorem C34_values_are_roots l out i row p x : cubic_roots l = Ok out -> nth_error l i = Some p -> a3 p <> 0 ->
  nth_error out i = Some row -> In (Some x) row -> a0 p + a1 p * x + a2 p * (x * x) + a3 p * (x * x * x) = 0.
Proof. exact (cubic_sound l out i row p x). Qed.
Print Assumptions C34_values_are_roots.
Theorem C34_shape l out : cubic_roots l = Ok out -> length out = length l /\ forall row, In row out -> length row = 3%nat.
Proof. exact (cubic_shape l out). Qed.
Print Assumptions C34_shape.
(** three real roots: all of them are returned, with multiplicity *)
Theorem C34_three_real_roots p : cD p <= 0 -> cQ p <> 0 -> exists r0 r1 r2 : R,
  row_out p = [Some r0; Some r1; Some r2] /\
  forall x, d_a p + c_a p * x + b_a p * (x * x) + x * x * x = (x - r0) * (x - r1) * (x - r2).
Proof. exact (three_roots p). Qed.
Print Assumptions C34_three_real_roots.
(** x^3 - x has discriminant D < 0: the row has three finite cells *)
Example C34_nonvacuous : let p := {| a0 := 0; a1 := -1; a2 := 0; a3 := 1 |} in
  exists r0 r1 r2, cubic_roots [p; p] = Ok [[Some r0; Some r1; Some r2]; [Some r0; Some r1; Some r2]] /\ a3 p <> 0.
Proof.
  intros p. assert (Q : cQ p = -1 / 3) by (unfold cQ, b_a, c_a, p; cbn [a0 a1 a2 a3]; field).
  assert (D : cD p <= 0). { unfold cD. rewrite Q. unfold cR, b_a, c_a, d_a, p. cbn [a0 a1 a2 a3]. nra. }
  destruct (three_roots p D ltac:(lra)) as (r0 & r1 & r2 & E & _). exists r0, r1, r2. split; [|cbn; lra].
  unfold cubic_roots, mask_ok. cbn [existsb forallb map]. rewrite (proj2 (Reqb_false (cQ p) 0) ltac:(lra)). cbn. now rewrite E.
Qed.

(** C78 is false: x^3 + x - 2 = 0 has the root 1, the solver returns no root; x^3 = 0 has the root 0, the solver
    returns NaN; and a batch with x^3 - 1 and x^3 - x raises IndexError although each is solved alone. *)
Theorem C78_finds_roots_refuted :
  (let p := {| a0 := -2; a1 := 1; a2 := 0; a3 := 1 |} in poly p 1 = 0 /\ cubic_roots [p] = Ok [[None; None; None]]) /\
  (let p := {| a0 := 0; a1 := 0; a2 := 0; a3 := 1 |} in poly p 0 = 0 /\ cubic_roots [p] = Ok [[None; None; None]]) /\
  (let p := {| a0 := -1; a1 := 0; a2 := 0; a3 := 1 |} in let q := {| a0 := 0; a1 := -1; a2 := 0; a3 := 1 |} in
   cubic_roots [p; q] = Err IndexError /\ (exists o, cubic_roots [p] = Ok o) /\ (exists o, cubic_roots [q] = Ok o)).
Proof.
  split; [|split]; cbn zeta.
  - split; [unfold poly; cbn [a0 a1 a2 a3]; ring|]. set (p := {| a0 := _ |}).
    assert (Q : cQ p = 1 / 3) by (unfold cQ, b_a, c_a, p; cbn [a0 a1 a2 a3]; field).
    assert (E : row_out p = [None; None; None]).
    { apply row_empty. left. split; [|lra]. unfold cD. rewrite Q. unfold cR, b_a, c_a, d_a, p. cbn [a0 a1 a2 a3]. nra. }
    unfold cubic_roots, mask_ok. cbn [existsb forallb map]. rewrite (proj2 (Reqb_false (cQ p) 0) ltac:(lra)). cbn. now rewrite E.
  - split; [unfold poly; cbn [a0 a1 a2 a3]; ring|]. set (p := {| a0 := _ |}).
    assert (Q : cQ p = 0) by (unfold cQ, b_a, c_a, p; cbn [a0 a1 a2 a3]; field).
    assert (E : row_out p = [None; None; None]).
    { apply row_empty. right. split; [exact Q|]. unfold cR, b_a, c_a, d_a, p. cbn [a0 a1 a2 a3]. nra. }
    unfold cubic_roots, mask_ok. cbn [existsb forallb map]. rewrite (proj2 (Reqb_true (cQ p) 0) Q). cbn. now rewrite E.
  - set (p := {| a0 := -1 |}). set (q := {| a0 := 0 |}).
    assert (Qp : cQ p = 0) by (unfold cQ, b_a, c_a, p; cbn [a0 a1 a2 a3]; field).
    assert (Qq : cQ q = -1 / 3) by (unfold cQ, b_a, c_a, q; cbn [a0 a1 a2 a3]; field).
    split; [|split; apply mask_spec; [right|left]; intros x [H|[]]; subst x; lra].
    unfold cubic_roots, mask_ok. cbn [existsb forallb]. rewrite (proj2 (Reqb_true (cQ p) 0) Qp), (proj2 (Reqb_false (cQ q) 0) ltac:(lra)). reflexivity.
Qed.
Print Assumptions C78_finds_roots_refuted.
(** exactly when a batch is accepted, exactly when no root is returned, and when all roots are *)
Theorem C78_batch_accepted_iff l :
  (exists out, cubic_roots l = Ok out) <-> ((forall p, In p l -> cQ p <> 0) \/ (forall p, In p l -> cQ p = 0)).
Proof. exact (mask_spec l). Qed.
Print Assumptions C78_batch_accepted_iff.
Theorem C78_no_root_iff p : row_out p = [None; None; None] <-> (0 < cD p /\ cQ p <> 0) \/ (cQ p = 0 /\ cR p <= 0).
Proof. exact (row_empty p). Qed.
Print Assumptions C78_no_root_iff.
Theorem C78_all_roots_partial p x : a3 p <> 0 -> cD p <= 0 -> cQ p <> 0 ->
  a0 p + a1 p * x + a2 p * (x * x) + a3 p * (x * x * x) = 0 -> In (Some x) (row_out p).
Proof. exact (cubic_complete_row p x). Qed.
Print Assumptions C78_all_roots_partial.

(** C79: PowerMask sets the thrust that momentum theory assigns to the masked power, as long as this is not above
    the Betz limit 16/27 (in units of the turbine's efficiency); above, the thrust becomes -inf. *)
Theorem C79_boost_beyond_limit_refuted : exists cp_e : R, 16 / 27 < cp_e < 1 /\ mask_ct [cp_e] = Ok [None].
Proof.
  exists 0.8. split; [lra|]. destruct (mask_ct_spec [0.8]) as (out & E & L & H). rewrite E.
  destruct (H 0%nat 0.8 eq_refl) as (_ & N). specialize (N ltac:(lra)). destruct out as [|o [|]]; try discriminate L.
  cbn in N. injection N as N. now subst o.
Qed.
Print Assumptions C79_boost_beyond_limit_refuted.
Theorem C79_consistent_thrust_partial l : exists out, mask_ct l = Ok out /\ length out = length l /\
  forall i c, nth_error l i = Some c ->
    (0 < c <= 16 / 27 -> exists a, nth_error out i = Some (Some (4 * a * (1 - a))) /\ 0 < a <= 1 / 3 /\ 4 * a * ((1 - a) * (1 - a)) = c) /\
    (16 / 27 < c -> nth_error out i = Some None).
Proof. exact (mask_ct_spec l). Qed.
Print Assumptions C79_consistent_thrust_partial.
(** the induction factor is determined by the power, and derating lowers the thrust *)
Theorem C79_unique_induction a a' : 0 <= a <= 1 / 3 -> 0 <= a' <= 1 / 3 ->
  4 * a * ((1 - a) * (1 - a)) = 4 * a' * ((1 - a') * (1 - a')) -> a = a'.
Proof. exact (cp_of_inj a a'). Qed.
Print Assumptions C79_unique_induction.
Theorem C79_derating_lowers_thrust c c' : 0 < c <= c' -> c' <= 16 / 27 -> exists ct ct' : R,
  mask_ct [c; c'] = Ok [Some ct; Some ct'] /\ 0 < ct <= ct' /\ ct' <= 8 / 9.
Proof.
  intros H H'. destruct (mask_ct_spec [c; c']) as (out & E & L & S).
  destruct (S 0%nat c eq_refl) as (S0 & _). destruct (S 1%nat c' eq_refl) as (S1 & _).
  destruct (S0 ltac:(lra)) as (a & N & A & P). destruct (S1 ltac:(lra)) as (a' & N' & A' & P').
  exists (4 * a * (1 - a)), (4 * a' * (1 - a')). rewrite E. destruct out as [|x [|y [|]]]; try discriminate L.
  cbn in N, N'. injection N as N. injection N' as N'. subst x y. split; [reflexivity|].
  assert (a <= a') by (apply cp_mono_inv; lra). split; [|nra]. split; [nra|]. apply ct_mono; lra.
Qed.
Print Assumptions C79_derating_lowers_thrust.
Example C79_nonvacuous : exists ct : R, mask_ct [1 / 2] = Ok [Some ct].
Proof.
  destruct (mask_ct_spec [1 / 2]) as (out & E & L & S). destruct (S 0%nat _ eq_refl) as (S0 & _). destruct (S0 ltac:(lra)) as (a & N & _).
  destruct out as [|x [|]]; try discriminate L. cbn in N. injection N as N. subst x. eauto.
Qed.
