(** Proofs about the cubic solver. *)
From Verif Require Import RBase Cubic_Model Cubic_Spec.
Local Open Scope R_scope.

Lemma poly_norm p x : a3 p <> 0 -> poly p x = a3 p * (d_a p + c_a p * x + b_a p * (x * x) + x * x * x).
Proof. intros H. unfold poly, d_a, c_a, b_a. field. exact H. Qed.
(** depressed form: x = t - b/3 *)
Lemma poly_depressed p t : a3 p <> 0 -> poly p (t - b_a p / 3) = a3 p * (t * t * t + 3 * cQ p * t - 2 * cR p).
Proof. intros H. rewrite poly_norm by exact H. unfold cQ, cR. field. Qed.

Lemma cos_3 x : cos (3 * x) = 4 * (cos x * cos x * cos x) - 3 * cos x.
Proof.
  replace (3 * x) with (2 * x + x) by ring. rewrite cos_plus, cos_2a, sin_2a.
  pose proof (sin2_cos2 x) as E. unfold Rsqr in E. set (c := cos x) in *. set (s := sin x) in *.
  replace (2 * s * c * s) with (2 * c * (s * s)) by ring. replace (s * s) with (1 - c * c) by lra. ring.
Qed.
Lemma trig_root q r phi : 0 < q -> cos (3 * phi) = r / sqrt (q * q * q) ->
  let t := 2 * sqrt q * cos phi in t * t * t - 3 * q * t - 2 * r = 0.
Proof.
  intros Hq H. cbn zeta. rewrite cos_3 in H.
  assert (S1 : sqrt q * sqrt q = q) by (apply sqrt_sqrt; lra).
  assert (S3 : sqrt (q * q * q) = q * sqrt q).
  { rewrite sqrt_mult by nra. rewrite sqrt_square by lra. reflexivity. }
  rewrite S3 in H. assert (Sp : 0 < sqrt q) by now apply sqrt_lt_R0.
  assert (E : r = (4 * (cos phi * cos phi * cos phi) - 3 * cos phi) * (q * sqrt q)).
  { rewrite H. field. split; lra. }
  rewrite E. set (s := sqrt q) in *. set (c := cos phi) in *.
  transitivity (8 * (s * s) * s * (c * c * c) - 6 * q * s * c - 2 * ((4 * (c * c * c) - 3 * c) * (q * s))); [ring|].
  rewrite S1. ring.
Qed.

Lemma D_le_cases p : cD p <= 0 -> cQ p <> 0 -> 0 < - cQ p /\ -1 <= cR p / sqrt (- (cQ p * cQ p * cQ p)) <= 1.
Proof.
  intros H HQ. unfold cD in H. assert (N : 0 < - cQ p).
  { destruct (Rle_lt_dec 0 (cQ p)) as [L|L]; [|lra]. exfalso. assert (0 < cQ p) by lra.
    assert (0 < cQ p * cQ p * cQ p) by (apply Rmult_lt_0_compat; [apply Rmult_lt_0_compat|]; assumption). nra. }
  split; [exact N|]. set (q := - cQ p) in *. replace (cQ p) with (- q) in * by (unfold q; ring).
  replace (- (- q * - q * - q)) with (q * q * q) by ring.
  assert (P3 : 0 < q * q * q) by (apply Rmult_lt_0_compat; [apply Rmult_lt_0_compat|]; assumption).
  set (s := sqrt (q * q * q)). assert (Sp : 0 < s) by now apply sqrt_lt_R0.
  assert (SS : s * s = q * q * q) by (apply sqrt_sqrt; lra).
  assert (RR : cR p * cR p <= s * s) by (rewrite SS; lra).
  assert (A : - s <= cR p <= s) by (split; nra).
  split; apply Rmult_le_reg_r with s; try exact Sp; unfold Rdiv; rewrite Rmult_assoc, Rinv_l by lra; lra.
Qed.

Lemma three_roots p : cD p <= 0 -> cQ p <> 0 -> exists r0 r1 r2 : R,
  row_out p = [Some r0; Some r1; Some r2] /\
  forall x, d_a p + c_a p * x + b_a p * (x * x) + x * x * x = (x - r0) * (x - r1) * (x - r2).
Proof.
  intros HD HQ. destruct (D_le_cases p HD HQ) as (Hq & HR). unfold row_out.
  rewrite (proj2 (Rleb_true _ _) HD), (proj2 (Reqb_false _ _) HQ). cbn zeta.
  set (th := acos (cR p / sqrt (- (cQ p * cQ p * cQ p)))). set (sq := sqrt (- cQ p)). set (B := b_a p / 3).
  do 3 eexists. split; [reflexivity|].
  set (q := - cQ p) in *.
  assert (C0 : cos th = cR p / sqrt (q * q * q)).
  { unfold th. rewrite cos_acos by exact HR. unfold q. f_equal. f_equal. ring. }
  set (c := cos (th / 3)). set (s := sin (th / 3)).
  assert (E : c * c + s * s = 1). { pose proof (sin2_cos2 (th / 3)) as E. unfold Rsqr in E. fold c s in E. lra. }
  assert (A1 : cos ((th + 2 * PI) / 3) = - c / 2 - sqrt 3 / 2 * s).
  { replace ((th + 2 * PI) / 3) with (th / 3 + 2 * (PI / 3)) by field. rewrite cos_plus, cos_2PI3, sin_2PI3. fold c s. field. }
  assert (A2 : cos ((th + 4 * PI) / 3) = - c / 2 + sqrt 3 / 2 * s).
  { replace ((th + 4 * PI) / 3) with (th / 3 - 2 * (PI / 3) + 2 * PI) by field. rewrite cos_plus, cos_2PI, sin_2PI, cos_minus, cos_2PI3, sin_2PI3. fold c s. field. }
  rewrite A1, A2.
  assert (T : let t := 2 * sq * c in t * t * t - 3 * q * t - 2 * cR p = 0).
  { apply trig_root; [exact Hq|]. replace (3 * (th / 3)) with th by field. exact C0. }
  cbn zeta in T.
  assert (S1 : sq * sq = q) by (apply sqrt_sqrt; lra). assert (S3 : sqrt 3 * sqrt 3 = 3) by (apply sqrt_sqrt; lra).
  intros x. set (y := x + B).
  transitivity (y * y * y - 3 * q * y - 2 * cR p).
  { unfold y, q, B, cQ, cR. field. }
  transitivity ((y - 2 * sq * c) * (y - 2 * sq * (- c / 2 - sqrt 3 / 2 * s)) * (y - 2 * sq * (- c / 2 + sqrt 3 / 2 * s))).
  2:{ unfold y. ring. }
  replace (2 * cR p) with (2 * sq * c * (2 * sq * c) * (2 * sq * c) - 3 * q * (2 * sq * c)) by lra.
  set (t := 2 * sq * c).
  replace ((y - t) * (y - 2 * sq * (- c / 2 - sqrt 3 / 2 * s)) * (y - 2 * sq * (- c / 2 + sqrt 3 / 2 * s)))
    with ((y - t) * (y * y + t * y + (sq * sq) * (c * c) - (sq * sq) * (sqrt 3 * sqrt 3) * (s * s))) by (unfold t; field).
  rewrite S1, S3. replace (s * s) with (1 - c * c) by lra.
  replace (q * (c * c)) with (t * t / 4) by (unfold t; rewrite <- S1; field).
  replace (q * 3 * (1 - c * c)) with (3 * q - 3 * (q * (c * c))) by ring.
  replace (q * (c * c)) with (t * t / 4) by (unfold t; rewrite <- S1; field). field.
Qed.

Lemma Rpower_cbrt y : 0 < y -> Rpower y (1 / 3) * Rpower y (1 / 3) * Rpower y (1 / 3) = y.
Proof.
  intros H. rewrite <- !Rpower_plus. replace (1 / 3 + 1 / 3 + 1 / 3) with 1 by field. now apply Rpower_1.
Qed.

Lemma row_sound p x : a3 p <> 0 -> In (Some x) (row_out p) -> poly p x = 0.
Proof.
  intros Ha Hin. destruct (Rle_lt_dec (cD p) 0) as [L|L].
  - destruct (Req_dec (cQ p) 0) as [Q|Q].
    + unfold row_out in Hin. rewrite (proj2 (Rleb_true _ _) L), (proj2 (Reqb_true _ _) Q) in Hin. cbn in Hin. intuition discriminate.
    + destruct (three_roots p L Q) as (r0 & r1 & r2 & E & F). rewrite E in Hin. rewrite poly_norm by exact Ha. rewrite F.
      cbn in Hin. destruct Hin as [H|[H|[H|[]]]]; injection H as H; subst; ring.
  - unfold row_out in Hin. rewrite (proj2 (Rleb_false _ _) L) in Hin. cbn in Hin. destruct Hin as [H|[H|[H|[]]]]; try discriminate.
    unfold row_Q0 in H. destruct (Reqb (cQ p) 0) eqn:Q; [|discriminate]. apply Reqb_true in Q.
    destruct (Reqb (cR p) 0) eqn:E0.
    + apply Reqb_true in E0. injection H as H. subst x. replace (- (b_a p / 3)) with (0 - b_a p / 3) by ring.
      rewrite poly_depressed by exact Ha. rewrite Q, E0. ring.
    + destruct (Rltb 0 (cR p)) eqn:Rp; [|discriminate]. apply Rltb_true in Rp. injection H as H. subst x.
      rewrite poly_depressed by exact Ha. rewrite Rpower_cbrt by lra. rewrite Q. ring.
Qed.

Lemma cubic_sound l out i row p x : cubic_roots l = Ok out -> nth_error l i = Some p -> a3 p <> 0 ->
  nth_error out i = Some row -> In (Some x) row -> poly p x = 0.
Proof.
  unfold cubic_roots. destruct (mask_ok l); [|discriminate]. intros H. injection H as H. subst out.
  intros Hp Ha Hr Hin. rewrite nth_error_map, Hp in Hr. cbn in Hr. injection Hr as Hr. subst row. now apply row_sound in Hin.
Qed.
Lemma cubic_shape l out : cubic_roots l = Ok out -> length out = length l /\ forall row, In row out -> length row = 3%nat.
Proof.
  unfold cubic_roots. destruct (mask_ok l); [|discriminate]. intros H. injection H as H. subst out. split; [apply map_length|].
  intros row Hr. apply in_map_iff in Hr. destruct Hr as (p & E & _). subst row. unfold row_out. cbn zeta. destruct (Rleb (cD p) 0); [destruct (Reqb (cQ p) 0)|]; reflexivity.
Qed.
Lemma cubic_complete_row p x : a3 p <> 0 -> cD p <= 0 -> cQ p <> 0 -> poly p x = 0 -> In (Some x) (row_out p).
Proof.
  intros Ha HD HQ Hx. destruct (three_roots p HD HQ) as (r0 & r1 & r2 & E & F). rewrite E.
  rewrite poly_norm, F in Hx by exact Ha. apply Rmult_integral in Hx. destruct Hx as [Hx|Hx]; [contradiction|].
  apply Rmult_integral in Hx. destruct Hx as [Hx|Hx]; [apply Rmult_integral in Hx; destruct Hx as [Hx|Hx]|].
  - left. f_equal. lra.
  - right; left. f_equal. lra.
  - right; right; left. f_equal. lra.
Qed.
Lemma row_empty p : row_out p = [None; None; None] <-> (0 < cD p /\ cQ p <> 0) \/ (cQ p = 0 /\ cR p <= 0).
Proof.
  assert (DQ : cQ p = 0 -> cD p = cR p * cR p) by (intros Q; unfold cD; rewrite Q; ring).
  unfold row_out, row_Q0. cbn zeta. split.
  - intros H. rdecin H; try discriminate H; rdec; auto.
    + right. split; [assumption|]. specialize (DQ ltac:(assumption)). nra.
  - intros H. destruct H as [(H & HQ)|(HQ & HR)].
    + rdec; try reflexivity; try lra; try contradiction.
    + specialize (DQ HQ). rdec; try reflexivity; try lra; try contradiction. nra.
Qed.
Lemma mask_spec l : (exists out, cubic_roots l = Ok out) <-> ((forall p, In p l -> cQ p <> 0) \/ (forall p, In p l -> cQ p = 0)).
Proof.
  unfold cubic_roots. assert (M : mask_ok l = true <-> ((forall p, In p l -> cQ p <> 0) \/ (forall p, In p l -> cQ p = 0))).
  { unfold mask_ok. rewrite orb_true_iff, negb_true_iff, forallb_forall. split; intros [H|H].
    - left. intros p Hp E. apply not_true_iff_false in H. apply H. apply existsb_exists. exists p. split; [exact Hp|now apply Reqb_true].
    - right. intros p Hp. now apply Reqb_true, H.
    - left. apply not_true_iff_false. intros K. apply existsb_exists in K. destruct K as (p & Hp & E). apply Reqb_true in E. now apply (H p Hp).
    - right. intros p Hp. now apply Reqb_true, H. }
  rewrite <- M. destruct (mask_ok l); split; intros H; try reflexivity; try discriminate; [eauto|destruct H as (o & H); discriminate].
Qed.

(** PowerMask *)
Lemma min_positive_spec l : match min_positive l with
  | Some m => In (Some m) l /\ 0 < m /\ forall y, In (Some y) l -> 0 < y -> m <= y
  | None => forall y, In (Some y) l -> y <= 0 end.
Proof.
  induction l as [|c l IH]; cbn [min_positive]; [intros y []|].
  destruct c as [x|]; cbn zeta.
  - destruct (Rltb 0 x) eqn:E; [apply Rltb_true in E|apply Rltb_false in E].
    + destruct (min_positive l) as [m|].
      * destruct IH as (I1 & I2 & I3). split; [|split].
        -- unfold Rmin. destruct (Rle_dec x m); [now left|now right].
        -- apply Rmin_glb_lt; assumption.
        -- intros y [H|H] Hy; [injection H as H; subst; apply Rmin_l|]. eapply Rle_trans; [apply Rmin_r|auto].
      * split; [now left|split; [exact E|]]. intros y [H|H] Hy; [injection H as H; lra|]. specialize (IH y H). lra.
    + destruct (min_positive l) as [m|].
      * destruct IH as (I1 & I2 & I3). split; [now right|split; [exact I2|]]. intros y [H|H] Hy; [injection H as H; lra|auto].
      * intros y [H|H]; [injection H as H; lra|auto].
  - destruct (min_positive l) as [m|].
    + destruct IH as (I1 & I2 & I3). split; [now right|split; [exact I2|]]. intros y [H|H] Hy; [discriminate|auto].
    + intros y [H|H]; [discriminate|auto].
Qed.

Lemma mask_Q c : cQ (mask_coef c) = -1 / 9.
Proof. unfold cQ, b_a, c_a, mask_coef. cbn [a0 a1 a2 a3]. field. Qed.
Lemma mask_D c : cD (mask_coef c) <= 0 <-> 0 <= c <= 16 / 27.
Proof.
  unfold cD. rewrite mask_Q. unfold cR, b_a, c_a, d_a, mask_coef. cbn [a0 a1 a2 a3].
  replace ((9 * (-8 / 4) * (4 / 4) - 27 * (- c / 4) - 2 * (-8 / 4) * (-8 / 4 * (-8 / 4))) / 54) with (c / 8 - 1 / 27) by field.
  split; intros H; [split|]; nra.
Qed.
Lemma mask_poly c x : poly (mask_coef c) x = cp_of x - c.
Proof. unfold poly, mask_coef, cp_of. cbn [a0 a1 a2 a3]. ring. Qed.

Lemma cp_continuity c : continuity (fun x => cp_of x - c).
Proof. unfold cp_of. reg. Qed.
Lemma cp_root c : 0 < c <= 16 / 27 -> exists z, 0 < z <= 1 / 3 /\ cp_of z = c.
Proof.
  intros H. destruct (IVT_cor (fun x => cp_of x - c) 0 (1 / 3) (cp_continuity c) ltac:(lra)) as (z & Hz & E).
  - unfold cp_of. nra.
  - exists z. split; [|lra]. split; [|lra]. destruct (Req_dec z 0) as [Z|Z]; [|lra]. subst z. unfold cp_of in E. lra.
Qed.
Lemma mask_row c : 0 < c <= 16 / 27 -> exists a, min_positive (row_out (mask_coef c)) = Some a /\ 0 < a <= 1 / 3 /\ cp_of a = c.
Proof.
  intros H. pose proof (proj2 (mask_D c) ltac:(lra)) as HD. assert (HQ : cQ (mask_coef c) <> 0) by (rewrite mask_Q; lra).
  assert (H3 : a3 (mask_coef c) <> 0) by (cbn; lra).
  destruct (cp_root c H) as (z & Hz & E).
  assert (I : In (Some z) (row_out (mask_coef c))) by (apply cubic_complete_row; auto; rewrite mask_poly; lra).
  pose proof (min_positive_spec (row_out (mask_coef c))) as M. destruct (min_positive (row_out (mask_coef c))) as [a|].
  - destruct M as (M1 & M2 & M3). exists a. split; [reflexivity|]. specialize (M3 z I ltac:(lra)).
    split; [lra|]. apply row_sound in M1; [|exact H3]. rewrite mask_poly in M1. lra.
  - specialize (M z I). lra.
Qed.
Lemma cp_of_inj a a' : 0 <= a <= 1 / 3 -> 0 <= a' <= 1 / 3 -> cp_of a = cp_of a' -> a = a'.
Proof.
  intros H H' E. unfold cp_of in E.
  assert (F : (a - a') * (a * a + a * a' + a' * a' - 2 * (a + a') + 1) = 0) by lra.
  apply Rmult_integral in F. destruct F as [F|F]; [lra|].
  assert (0 <= (1 / 3 - a) * (1 / 3 - a')) by (apply Rmult_le_pos; lra).
  assert (0 <= (1 / 3 - a) * (1 / 3 - a)) by (apply Rmult_le_pos; lra). assert (0 <= (1 / 3 - a') * (1 / 3 - a')) by (apply Rmult_le_pos; lra). lra.
Qed.
Lemma mask_ok_all l : mask_ok (map mask_coef l) = true.
Proof.
  unfold mask_ok. replace (existsb _ _) with false; [reflexivity|]. symmetry. induction l as [|c l IH]; [reflexivity|].
  cbn [map existsb]. rewrite IH, orb_false_r. apply Reqb_false. rewrite mask_Q. lra.
Qed.
Lemma mask_ct_spec l : exists out, mask_ct l = Ok out /\ length out = length l /\
  forall i c, nth_error l i = Some c ->
    (0 < c <= 16 / 27 -> exists a, nth_error out i = Some (Some (4 * a * (1 - a))) /\ 0 < a <= 1 / 3 /\ cp_of a = c) /\
    (16 / 27 < c -> nth_error out i = Some None).
Proof.
  unfold mask_ct, cubic_roots. rewrite mask_ok_all. cbn [bind]. eexists. split; [reflexivity|].
  split; [now rewrite !map_length|]. intros i c Hi. rewrite !nth_error_map, Hi. cbn [option_map]. split; intros H.
  - destruct (mask_row c H) as (a & E & A). rewrite E. eauto.
  - assert (E : row_out (mask_coef c) = [None; None; None]).
    { apply row_empty. left. split; [|rewrite mask_Q; lra]. apply Rnot_le_lt. intros K. apply mask_D in K. lra. }
    rewrite E. reflexivity.
Qed.
(** derating below the current power lowers the thrust *)
Lemma ct_mono a a' : 0 <= a <= a' -> a' <= 1 / 3 -> 4 * a * (1 - a) <= 4 * a' * (1 - a').
Proof. intros H H'. nra. Qed.
Lemma cp_mono_inv a a' : 0 <= a <= 1 / 3 -> 0 <= a' <= 1 / 3 -> cp_of a <= cp_of a' -> a <= a'.
Proof.
  intros H H' E. destruct (Rle_lt_dec a a') as [L|L]; [exact L|]. exfalso. unfold cp_of in E.
  assert (F : 0 < a * a + a * a' + a' * a' - 2 * (a + a') + 1).
  { assert (0 <= (1 / 3 - a) * (1 / 3 - a')) by (apply Rmult_le_pos; lra).
    assert (0 <= (1 / 3 - a) * (1 / 3 - a)) by (apply Rmult_le_pos; lra). assert (0 <= (1 / 3 - a') * (1 / 3 - a')) by (apply Rmult_le_pos; lra). lra. }
  assert (0 < (a - a') * (a * a + a * a' + a' * a' - 2 * (a + a') + 1)) by (apply Rmult_lt_0_compat; lra). lra.
Qed.
