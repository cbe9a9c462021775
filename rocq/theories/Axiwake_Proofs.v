From Coquelicot Require Import Coquelicot.
From Verif Require Import RBase Circles_Model Circles_Spec Circles_Proofs Axiwake_Model Axiwake_Spec.
Local Open Scope R_scope.

Lemma rsum_map_ext {A} (f g : A -> R) l : (forall x, In x l -> f x = g x) -> rsum (map f l) = rsum (map g l).
Proof. apply rsum_ext. Qed.
Lemma telescope (f : nat -> R) n : forall m, rsum (map (fun k => f (S k) - f k) (seq m n)) = f (m + n)%nat - f m.
Proof.
  induction n as [|n IH]; intros m; cbn [seq map rsum].
  - rewrite Nat.add_0_r. lra.
  - rewrite IH. replace (S m + n)%nat with (m + S n)%nat by lia. lra.
Qed.
Lemma overlap_zero r d : overlap_area r 0 d = 0.
Proof.
  unfold overlap_area. rewrite (RInt_ext _ (fun _ => 0)).
  - rewrite RInt_const. change ((r - - r) * 0 = 0). ring.
  - intros x _. assert (E : hc 0 (x - d) = 0) by (unfold hc; rewrite Rmax_right; [apply sqrt_0|pose proof (Rle_0_sqr (x - d)); unfold Rsqr in *; lra]).
    rewrite E. change (2 * Rmin (hc r x) 0 = 0). rewrite Rmin_right by apply hc_nonneg. ring.
Qed.
Lemma overlap_le r a b d : 0 < r -> 0 <= a <= b -> 0 <= d -> overlap_area r a d <= overlap_area r b d.
Proof.
  intros H (Ha & Hb) Hd. destruct (Req_dec a 0) as [->|N].
  - rewrite overlap_zero. destruct (Req_dec b 0) as [->|M]; [rewrite overlap_zero; lra|].
    apply (overlap_bounds r b d H); lra.
  - apply overlap_mono_radius; lra.
Qed.
Lemma where_inside D x dist : inside D x dist -> where_is D x dist = Inside.
Proof.
  intros (Hx & Hd). unfold where_is. rewrite (proj2 (Rltb_false (D / 2) dist)) by lra. rewrite andb_false_r.
  rewrite (proj2 (Rltb_true 0 x)) by lra. rewrite (proj2 (Rltb_true dist (D / 2))) by lra. reflexivity.
Qed.
Lemma where_outside D x dist : outside D x dist -> where_is D x dist = Outside.
Proof.
  intros (Hx & Hd). unfold where_is. rewrite (proj2 (Rltb_true (/ 10 ^ 8) x)) by lra. rewrite (proj2 (Rltb_true (D / 2) dist)) by lra. reflexivity.
Qed.

Section Cell.
Variables (n : nat) (D x dist : R).
Hypotheses (Hn : (0 < n)%nat) (HD : 0 < D) (Hdist : 0 <= dist).
Lemma n_pos : 1 <= INR n.
Proof. change 1 with (INR 1). apply le_INR. lia. Qed.
Lemma disc_pos : 0 < disc (D / 2).
Proof. unfold disc. pose proof PI_RGT_0. apply Rmult_lt_0_compat; [lra|nra]. Qed.

(** inside *)
Lemma radius_in_pos k : 0 < radius_in n D dist (S k).
Proof. cbn [radius_in]. pose proof n_pos. pose proof (pos_INR k). apply Rmult_lt_0_compat; [apply Rdiv_lt_0_compat; lra|lra]. Qed.
Lemma radius_in_nonneg k : 0 <= radius_in n D dist k.
Proof. destruct k; [cbn; lra|]. pose proof (radius_in_pos k). lra. Qed.
Lemma radius_in_mono k : radius_in n D dist k < radius_in n D dist (S k).
Proof.
  destruct k as [|k]; [pose proof (radius_in_pos 0); cbn [radius_in] in *; lra|].
  cbn [radius_in]. rewrite S_INR. pose proof n_pos.
  assert (0 < (dist + D / 2) / (INR n - 1 / 2)) by (apply Rdiv_lt_0_compat; lra). nra.
Qed.
Lemma radius_in_last : radius_in n D dist n = dist + D / 2.
Proof.
  destruct n as [|m] eqn:E; [lia|]. cbn [radius_in]. rewrite S_INR. pose proof (pos_INR m). field. lra.
Qed.
Lemma area_in_ring k : area_in n D dist k = ring_area (D / 2) (radius_in n D dist k) (radius_in n D dist (S k)) dist.
Proof.
  unfold area_in, ring_area. cbn [rotor_in]. rewrite calc_area_overlap by (try apply radius_in_pos; lra). f_equal.
  destruct k as [|k]; cbn [rotor_in].
  - cbn [radius_in]. rewrite overlap_zero. unfold calc_area. rdec; lra.
  - now rewrite calc_area_overlap by (try apply radius_in_pos; lra).
Qed.
Lemma area_in_total : rsum (map (area_in n D dist) (seq 0 n)) = disc (D / 2).
Proof.
  rewrite (rsum_map_ext _ (fun k => overlap_area (D / 2) (radius_in n D dist (S k)) dist - overlap_area (D / 2) (radius_in n D dist k) dist)) by (intros; apply area_in_ring).
  rewrite (telescope (fun k => overlap_area (D / 2) (radius_in n D dist k) dist)). cbn [Nat.add]. rewrite radius_in_last. cbn [radius_in].
  rewrite overlap_zero. rewrite overlap_sym by lra. rewrite overlap_contained by lra. unfold disc. lra.
Qed.
Lemma weight_inside k : inside D x dist ->
  axi_weight n D x dist k = ring_area (D / 2) (radius_in n D dist k) (radius_in n D dist (S k)) dist / disc (D / 2).
Proof. intros H. unfold axi_weight. now rewrite where_inside, area_in_ring, area_in_total. Qed.
Lemma ring_nonneg a b : 0 <= a <= b -> 0 <= ring_area (D / 2) a b dist.
Proof. intros H. unfold ring_area. pose proof (overlap_le (D / 2) a b dist ltac:(lra) H Hdist). lra. Qed.

(** outside *)
Lemma radius_out_mono k : radius_out n D dist k < radius_out n D dist (S k).
Proof.
  unfold radius_out. rewrite S_INR. pose proof n_pos. assert (INR k / INR n < (INR k + 1) / INR n); [|nra].
  apply Rmult_lt_compat_r; [apply Rinv_0_lt_compat; lra|lra].
Qed.
Lemma radius_out_pos k : D / 2 < dist -> 0 < radius_out n D dist k.
Proof.
  intros H. unfold radius_out. assert (0 <= INR k / INR n) by (apply Rmult_le_pos; [apply pos_INR|apply Rlt_le, Rinv_0_lt_compat; pose proof n_pos; lra]). nra.
Qed.
Lemma area_out_ring k : D / 2 < dist -> area_out n D dist k = ring_area (D / 2) (radius_out n D dist k) (radius_out n D dist (S k)) dist + / 10 ^ 15.
Proof. intros H. unfold area_out, ring_area. rewrite !calc_area_overlap by (try (now apply radius_out_pos); lra). reflexivity. Qed.
Lemma area_out_total : D / 2 < dist -> rsum (map (area_out n D dist) (seq 0 n)) = disc (D / 2) + INR n * / 10 ^ 15.
Proof.
  intros H. rewrite (rsum_map_ext _ (fun k => (overlap_area (D / 2) (radius_out n D dist (S k)) dist - overlap_area (D / 2) (radius_out n D dist k) dist) + / 10 ^ 15)) by (intros; now apply area_out_ring).
  rewrite (rsum_map_plus (fun k => overlap_area (D / 2) (radius_out n D dist (S k)) dist - overlap_area (D / 2) (radius_out n D dist k) dist) (fun _ => / 10 ^ 15)).
  rewrite rsum_const, seq_length, (telescope (fun k => overlap_area (D / 2) (radius_out n D dist k) dist)). cbn [Nat.add].
  replace (radius_out n D dist n) with (dist + D / 2) by (unfold radius_out; field; pose proof n_pos; lra).
  replace (radius_out n D dist 0) with (dist - D / 2) by (unfold radius_out; cbn [INR]; field; pose proof n_pos; lra).
  rewrite (overlap_disjoint (D / 2) (dist - D / 2) dist) by lra. rewrite overlap_sym by lra. rewrite overlap_contained by lra. unfold disc. lra.
Qed.
Lemma weight_outside k : outside D x dist ->
  axi_weight n D x dist k = (ring_area (D / 2) (radius_out n D dist k) (radius_out n D dist (S k)) dist + / 10 ^ 15) / (disc (D / 2) + INR n * / 10 ^ 15).
Proof. intros H. unfold axi_weight. rewrite where_outside by exact H. destruct H. now rewrite area_out_ring, area_out_total. Qed.

(** both *)
Lemma eps_pos : 0 < / 10 ^ 15.
Proof. apply Rinv_0_lt_compat. lra. Qed.
Lemma total_pos : 0 < disc (D / 2) + INR n * / 10 ^ 15.
Proof. pose proof disc_pos. pose proof eps_pos. pose proof n_pos. nra. Qed.
Lemma weight_nonneg k : inside D x dist \/ outside D x dist -> 0 <= axi_weight n D x dist k.
Proof.
  intros [H|H].
  - rewrite weight_inside by exact H. apply Rmult_le_pos; [|apply Rlt_le, Rinv_0_lt_compat, disc_pos].
    apply ring_nonneg. pose proof (radius_in_nonneg k). pose proof (radius_in_mono k). lra.
  - rewrite weight_outside by exact H. destruct H. apply Rmult_le_pos; [|apply Rlt_le, Rinv_0_lt_compat, total_pos].
    assert (0 <= ring_area (D / 2) (radius_out n D dist k) (radius_out n D dist (S k)) dist); [|pose proof eps_pos; lra].
    apply ring_nonneg. pose proof (radius_out_pos k). pose proof (radius_out_mono k). lra.
Qed.
Lemma rsum_div {A} (f : A -> R) c l : rsum (map (fun k => f k / c) l) = rsum (map f l) / c.
Proof. rewrite (rsum_map_ext _ (fun k => / c * f k)) by (intros; unfold Rdiv; ring). rewrite rsum_map_scale. unfold Rdiv. ring. Qed.
Lemma weight_total : inside D x dist \/ outside D x dist -> rsum (map (axi_weight n D x dist) (seq 0 n)) = 1.
Proof.
  intros [H|H].
  - rewrite (rsum_map_ext _ (fun k => area_in n D dist k / disc (D / 2))) by (intros; unfold axi_weight; rewrite where_inside by exact H; now rewrite area_in_total).
    rewrite rsum_div, area_in_total. field. pose proof disc_pos; lra.
  - rewrite (rsum_map_ext _ (fun k => area_out n D dist k / (disc (D / 2) + INR n * / 10 ^ 15))) by (intros; unfold axi_weight; rewrite where_outside by exact H; destruct H; now rewrite area_out_total).
    destruct H. rewrite rsum_div, area_out_total by assumption. apply Rinv_r. pose proof total_pos; lra.
Qed.
Lemma delta_bounds (w : R -> R) lo hi : inside D x dist \/ outside D x dist -> (forall r, 0 <= r -> lo <= w r <= hi) -> lo <= axi_delta n D x dist w <= hi.
Proof.
  intros H Hw. assert (T := weight_total H). unfold axi_delta.
  assert (P : forall k, 0 <= axi_radius n D x dist k).
  { intros k. unfold axi_radius. destruct H as [H|H].
    - rewrite where_inside by exact H. destruct k; [lra|]. pose proof (radius_in_pos k). pose proof (radius_in_pos (S k)). lra.
    - rewrite where_outside by exact H. destruct H. pose proof (radius_out_pos k). pose proof (radius_out_pos (S k)). lra. }
  assert (L : rsum (map (fun k => lo * axi_weight n D x dist k) (seq 0 n)) = lo) by (rewrite rsum_map_scale, T; lra).
  assert (U : rsum (map (fun k => hi * axi_weight n D x dist k) (seq 0 n)) = hi) by (rewrite rsum_map_scale, T; lra).
  split.
  - rewrite <- L at 1. apply rsum_le. intros k _. pose proof (weight_nonneg k H). pose proof (Hw _ (P k)). nra.
  - rewrite <- U. apply rsum_le. intros k _. pose proof (weight_nonneg k H). pose proof (Hw _ (P k)). nra.
Qed.
Lemma radius_in_ring k : inside D x dist ->
  radius_in n D dist k <= axi_radius n D x dist k <= radius_in n D dist (S k).
Proof.
  intros H. unfold axi_radius. rewrite where_inside by exact H. pose proof (radius_in_mono k). destruct k as [|k]; [cbn [radius_in] in *; lra|]. lra.
Qed.
Lemma radius_out_ring k : outside D x dist ->
  radius_out n D dist k <= axi_radius n D x dist k <= radius_out n D dist (S k).
Proof. intros H. unfold axi_radius. rewrite where_outside by exact H. pose proof (radius_out_mono k). lra. Qed.
End Cell.
