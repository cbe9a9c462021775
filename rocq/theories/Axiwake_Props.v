(** Theorems about axisymmetric partial wakes. *)
From Verif Require Import RBase Circles_Spec Circles_Proofs Axiwake_Model Axiwake_Spec Axiwake_Proofs.
Local Open Scope R_scope.

(** C100: the rings cover the rotor, each weight is the fraction of the rotor (of the wake causing turbine's size) in the ring
    and the wake model is evaluated inside the ring *)
Theorem C100_weights_inside n D x dist k : (0 < n)%nat -> inside D x dist -> (k < n)%nat ->
  exists a b, axi_weight n D x dist k = ring_area (D / 2) a b dist / disc (D / 2) /\ 0 <= a < b /\ a <= axi_radius n D x dist k <= b /\
    (k = O -> a = 0) /\ (S k = n -> b = dist + D / 2) /\
    ((S k < n)%nat -> exists c, axi_weight n D x dist (S k) = ring_area (D / 2) b c dist / disc (D / 2)).
Proof.
  intros Hn H Hk. assert (HD : 0 < D) by (destruct H; lra). assert (Hd : 0 <= dist) by (destruct H; lra).
  exists (radius_in n D dist k), (radius_in n D dist (S k)). split; [now apply weight_inside|].
  split; [split; [now apply radius_in_nonneg|now apply radius_in_mono]|]. split; [now apply radius_in_ring|].
  split; [intros ->; reflexivity|]. split; [intros E; rewrite E; now apply radius_in_last|].
  intros _. exists (radius_in n D dist (S (S k))). now apply weight_inside.
Qed.
Print Assumptions C100_weights_inside.
(** with the wake centre outside of the disc, 1e-15 m^2 is added to each of the n areas *)
Theorem C100_weights_outside n D x dist k : (0 < n)%nat -> 0 < D -> outside D x dist -> (k < n)%nat ->
  let a := dist - D / 2 + D * INR k / INR n in let b := dist - D / 2 + D * INR (S k) / INR n in
  axi_weight n D x dist k = (ring_area (D / 2) a b dist + / 10 ^ 15) / (disc (D / 2) + INR n * / 10 ^ 15) /\ a <= axi_radius n D x dist k <= b.
Proof.
  intros Hn HD H Hk. assert (Hd : 0 <= dist) by (destruct H; lra). cbn zeta.
  assert (E : forall j, dist - D / 2 + D * INR j / INR n = radius_out n D dist j) by (intros j; unfold radius_out, Rdiv; ring).
  rewrite !E. split; [now apply weight_outside|now apply radius_out_ring].
Qed.
Print Assumptions C100_weights_outside.
Theorem C100_weights_sum n D x dist : (0 < n)%nat -> 0 < D -> 0 <= dist -> inside D x dist \/ outside D x dist ->
  rsum (map (axi_weight n D x dist) (seq 0 n)) = 1 /\ forall k, 0 <= axi_weight n D x dist k.
Proof. intros Hn HD Hd H. split; [now apply weight_total|]. intros k. now apply weight_nonneg. Qed.
Print Assumptions C100_weights_sum.
Theorem C100_average n D x dist w lo hi : (0 < n)%nat -> 0 < D -> 0 <= dist -> inside D x dist \/ outside D x dist ->
  (forall r, 0 <= r -> lo <= w r <= hi) -> lo <= axi_delta n D x dist w <= hi.
Proof. intros. now apply delta_bounds. Qed.
Print Assumptions C100_average.
Example C100_nonvacuous : inside 2 5 (1 / 2) /\ outside 2 5 3.
Proof. unfold inside, outside. assert (/ 10 ^ 8 < 1) by (rewrite <- Rinv_1; apply Rinv_lt_contravar; lra). lra. Qed.

(** C101 is false: a rotor whose rim passes exactly through the wake centre receives no wake at all, whatever the wake *)
Theorem C101_rim_refuted n D x w : axi_delta n D x (D / 2) w = 0.
Proof.
  unfold axi_delta. rewrite (rsum_map_ext _ (fun _ => 0)).
  - rewrite rsum_const. ring.
  - intros k _. unfold axi_weight, where_is. rewrite !(proj2 (Rltb_false (D / 2) (D / 2))) by lra. rewrite !andb_false_r. ring.
Qed.
Print Assumptions C101_rim_refuted.
(** while arbitrarily close to it, a wake of constant strength is felt fully *)
Theorem C101_neighbours_partial n D x dist c : (0 < n)%nat -> 0 < D -> 0 <= dist -> dist <> D / 2 -> / 10 ^ 8 < x -> axi_delta n D x dist (fun _ => c) = c.
Proof.
  intros Hn HD Hd N Hx. assert (0 < / 10 ^ 8) by (apply Rinv_0_lt_compat; lra). assert (H' : inside D x dist \/ outside D x dist).
  { destruct (Rlt_dec dist (D / 2)); [left|right]; unfold inside, outside; lra. }
  pose proof (C100_average n D x dist (fun _ => c) c c Hn HD Hd H' ltac:(intros; lra)). lra.
Qed.
Print Assumptions C101_neighbours_partial.

(** C102 is false: the rotor disc is that of the wake causing turbine. A wake filling radius 3 around the centre of a target with
    diameter 10 covers 36 percent of it; a source with diameter 2 makes the weights count it fully *)
Theorem C102_target_size_refuted n : (0 < n)%nat ->
  axi_delta n 2 1 0 (fun r => if Rleb r 3 then 1 else 0) = 1 /\ overlap_area (10 / 2) 3 0 / disc (10 / 2) = 36 / 100.
Proof.
  intros Hn. assert (H : inside 2 1 0) by (unfold inside; lra). split.
  - unfold axi_delta. rewrite (rsum_map_ext _ (axi_weight n 2 1 0)).
    + apply weight_total; try lra; [exact Hn|now left].
    + intros k Hk. apply in_seq in Hk. assert (B : axi_radius n 2 1 0 k <= 0 + 2 / 2).
      { pose proof (radius_in_ring n 2 1 0 Hn ltac:(lra) ltac:(lra) k H) as (_ & B). apply Rle_trans with (1 := B).
        rewrite <- (radius_in_last n 2 0 Hn). clear B. assert (L : (S k <= n)%nat) by lia. clear Hk. generalize dependent n. intros n Hn L.
        cut (forall m, radius_in n 2 0 (S k) <= radius_in n 2 0 (m + S k)%nat). { intros G. specialize (G (n - S k)%nat). replace (n - S k + S k)%nat with n in G by lia. exact G. }
        induction m as [|m IH]; [cbn [Nat.add]; lra|]. cbn [Nat.add]. pose proof (radius_in_mono n 2 0 Hn ltac:(lra) ltac:(lra) (m + S k)). lra. }
      rewrite (proj2 (Rleb_true _ 3)) by lra. ring.
  - rewrite overlap_contained by lra. unfold disc. pose proof PI_RGT_0. field. lra.
Qed.
Print Assumptions C102_target_size_refuted.
(** for targets with the source's diameter the sums above are fractions of the target's rotor *)
Theorem C102_equal_diameters_partial n Ds Dt x dist k : Ds = Dt -> (0 < n)%nat -> inside Dt x dist -> (k < n)%nat ->
  exists a b, axi_weight n Ds x dist k = ring_area (Dt / 2) a b dist / disc (Dt / 2) /\ a <= axi_radius n Ds x dist k <= b.
Proof.
  intros -> Hn H Hk. destruct (C100_weights_inside n Dt x dist k Hn H Hk) as (a & b & E & _ & B & _). now exists a, b.
Qed.
Print Assumptions C102_equal_diameters_partial.
