(** Proofs about wind directions. *)
From Verif Require Import RBase WindDir_Model.
Local Open Scope R_scope.

Lemma delta_wd_cases a b : delta_wd a b = b - a /\ -180 <= b - a <= 180 \/
  delta_wd a b = b - a + 360 /\ b - a < -180 /\ b - a + 360 <= 180 \/
  delta_wd a b = b - a - 360 /\ 180 < b - a.
Proof. unfold delta_wd. cbn zeta. rdec; lra. Qed.
Lemma delta_wd_range a b : -540 <= b - a <= 540 ->
  -180 <= delta_wd a b <= 180 /\ exists k : Z, delta_wd a b = b - a + 360 * IZR k.
Proof.
  intros H. destruct (delta_wd_cases a b) as [(E & H1)|[(E & H1)|(E & H1)]]; rewrite E; split; try lra.
  - exists 0%Z. lra.
  - exists 1%Z. lra.
  - exists (-1)%Z. lra.
Qed.
Lemma delta_wd_congr a b : exists k : Z, delta_wd a b = b - a + 360 * IZR k.
Proof.
  destruct (delta_wd_cases a b) as [(E & H1)|[(E & H1)|(E & H1)]]; rewrite E.
  - exists 0%Z. lra.
  - exists 1%Z. lra.
  - exists (-1)%Z. lra.
Qed.
(** it is the shortest one *)
Lemma delta_wd_shortest a b : -540 <= b - a <= 540 ->
  forall k : Z, Rabs (delta_wd a b) <= Rabs (b - a + 360 * IZR k).
Proof.
  intros H k. destruct (delta_wd_range a b H) as (Hr & j & E).
  assert (X : b - a + 360 * IZR k = delta_wd a b + 360 * IZR (k - j)) by (rewrite E, minus_IZR; ring). rewrite X.
  destruct (Z.eq_dec (k - j) 0) as [Z0|Z0]; [rewrite Z0; right; f_equal; lra|].
  assert (1 <= IZR (k - j) \/ IZR (k - j) <= -1) as [G|G].
  { destruct (Z_lt_le_dec (k - j) 0); [right|left]; apply IZR_le; lia. }
  - rewrite (Rabs_right (delta_wd a b + _)) by lra. unfold Rabs. destruct (Rcase_abs _); lra.
  - rewrite (Rabs_left1 (delta_wd a b + _)) by lra. unfold Rabs. destruct (Rcase_abs _); lra.
Qed.
Lemma delta_wd_wrong_outside a b : 540 < b - a -> 180 < delta_wd a b.
Proof. intros H. destruct (delta_wd_cases a b) as [(E & H1)|[(E & H1)|(E & H1)]]; rewrite E; lra. Qed.
Lemma delta_wd_wrong_below a b : b - a < -540 -> delta_wd a b < -180.
Proof. intros H. destruct (delta_wd_cases a b) as [(E & H1)|[(E & H1)|(E & H1)]]; rewrite E; lra. Qed.

(** ** atan2 *)
Lemma cos_sign_pos p : - PI < p <= PI -> 0 < cos p -> - PI / 2 < p < PI / 2.
Proof.
  intros (H1 & H2) Hc. pose proof PI_RGT_0. split.
  - destruct (Rlt_le_dec (- PI / 2) p); auto. exfalso.
    assert (cos (- p) <= 0) by (apply cos_le_0; lra). rewrite cos_neg in *. lra.
  - destruct (Rlt_le_dec p (PI / 2)); auto. exfalso. assert (cos p <= 0) by (apply cos_le_0; lra). lra.
Qed.
Lemma atan2_polar r p : 0 < r -> - PI < p <= PI -> atan2 (r * sin p) (r * cos p) = p.
Proof.
  intros Hr Hp. pose proof PI_RGT_0 as Pi. unfold atan2.
  destruct (Rltb 0 (r * cos p)) eqn:E1; [apply Rltb_true in E1|apply Rltb_false in E1].
  - assert (Hc : 0 < cos p). { apply Rmult_lt_reg_l with r; [lra|]. now rewrite Rmult_0_r. }
    pose proof (cos_sign_pos p Hp Hc) as Hpp.
    replace (r * sin p / (r * cos p)) with (tan p) by (unfold tan; field; split; lra).
    apply atan_tan. lra.
  - assert (Hc : cos p <= 0). { apply Rmult_le_reg_l with r; [lra|]. now rewrite Rmult_0_r. }
    destruct (Rltb (r * cos p) 0) eqn:E2; [apply Rltb_true in E2|apply Rltb_false in E2].
    + assert (Hc' : cos p < 0). { apply Rmult_lt_reg_l with r; [lra|]. now rewrite Rmult_0_r. }
      assert (Ht : r * sin p / (r * cos p) = tan p) by (unfold tan; field; split; lra).
      destruct (Rltb (r * sin p) 0) eqn:E3; [apply Rltb_true in E3|apply Rltb_false in E3]; rewrite Ht.
      * assert (Hs : sin p < 0). { apply Rmult_lt_reg_l with r; [lra|]. now rewrite Rmult_0_r. }
        assert (p < 0). { destruct (Rlt_le_dec p 0); auto. exfalso. assert (0 <= sin p) by (apply sin_ge_0; lra). lra. }
        assert (p < - PI / 2). { destruct (Rlt_le_dec p (- PI / 2)); auto. exfalso. assert (0 <= cos p) by (apply cos_ge_0; lra). lra. }
        replace (tan p) with (tan (p + PI)).
        2:{ unfold tan. rewrite neg_sin, neg_cos. field. lra. }
        rewrite atan_tan by lra. lra.
      * assert (Hs : 0 <= sin p). { apply Rmult_le_reg_l with r; [lra|]. now rewrite Rmult_0_r. }
        assert (PI / 2 < p).
        { destruct (Rlt_le_dec (PI / 2) p); auto. exfalso.
          destruct (Rlt_le_dec p (- PI / 2)).
          - assert (0 < sin (- p)) by (apply sin_gt_0; lra). rewrite sin_neg in *. lra.
          - assert (0 <= cos p) by (apply cos_ge_0; lra). lra. }
        replace (tan p) with (tan (p - PI)).
        2:{ unfold tan. replace p with (p - PI + PI) at 3 4 by lra. rewrite neg_sin, neg_cos. field.
            replace p with (p - PI + PI) in Hc' by lra. rewrite neg_cos in Hc'. lra. }
        rewrite atan_tan by lra. lra.
    + assert (Hc0 : cos p = 0). { apply Rmult_eq_reg_l with r; [|lra]. rewrite Rmult_0_r. lra. }
      assert (Hs2 : sin p * sin p = 1). { pose proof (sin2_cos2 p) as T. unfold Rsqr in T. rewrite Hc0 in T. lra. }
      destruct (Rltb 0 (r * sin p)) eqn:E3; [apply Rltb_true in E3|apply Rltb_false in E3].
      * assert (Hs : 0 < sin p). { apply Rmult_lt_reg_l with r; [lra|]. now rewrite Rmult_0_r. }
        assert (0 < p). { destruct (Rlt_le_dec 0 p); auto. exfalso. assert (0 <= sin (- p)) by (apply sin_ge_0; lra). rewrite sin_neg in *. lra. }
        destruct (Rtotal_order p (PI / 2)) as [H'|[H'|H']]; [exfalso|lra|exfalso].
        { assert (0 < cos p) by (apply cos_gt_0; lra). lra. }
        { assert (cos p < 0) by (apply cos_lt_0; lra). lra. }
      * assert (Hs : sin p < 0).
        { assert (sin p <= 0). { apply Rmult_le_reg_l with r; [lra|]. now rewrite Rmult_0_r. } nra. }
        destruct (Rltb (r * sin p) 0) eqn:E4; [apply Rltb_true in E4|apply Rltb_false in E4; nra].
        assert (p < 0). { destruct (Rlt_le_dec p 0); auto. exfalso. assert (0 <= sin p) by (apply sin_ge_0; lra). lra. }
        destruct (Rtotal_order p (- (PI / 2))) as [H'|[H'|H']]; [exfalso|lra|exfalso].
        { assert (cos (- p) < 0) by (apply cos_lt_0; lra). rewrite cos_neg in *. lra. }
        { assert (0 < cos p) by (apply cos_gt_0; lra). lra. }
Qed.

(** every vector has a polar form with the wind-direction angle *)
Lemma polar_exists u v : exists r p, 0 <= r /\ - PI < p <= PI /\ u = r * sin p /\ v = r * cos p /\ r = sqrt (u * u + v * v).
Proof.
  set (r := sqrt (u * u + v * v)). pose proof PI_RGT_0 as Pi.
  assert (Hq : 0 <= u * u + v * v) by nra.
  assert (Hr : 0 <= r) by apply sqrt_pos. assert (Hrr : r * r = u * u + v * v) by (apply sqrt_sqrt; exact Hq).
  destruct (Req_dec r 0) as [H0|H0].
  - exists r, 0. rewrite H0 in *. assert (u = 0) by nra. assert (v = 0) by nra. repeat split; try lra.
  - assert (Hp : 0 < r) by lra.
    assert (Hc : -1 <= v / r <= 1).
    { split.
      - apply Rmult_le_reg_r with r; [lra|]. unfold Rdiv. rewrite Rmult_assoc, Rinv_l by lra. nra.
      - apply Rmult_le_reg_r with r; [lra|]. unfold Rdiv. rewrite Rmult_assoc, Rinv_l by lra. nra. }
    pose proof (acos_bound (v / r)) as Hb. pose proof (cos_acos (v / r) Hc) as Ec. pose proof (sin_acos (v / r) Hc) as Es.
    assert (Eu : r * sqrt (1 - (v / r)²) = Rabs u).
    { rewrite <- (sqrt_Rsqr_abs u). rewrite <- (sqrt_square r) at 1 by lra. rewrite <- sqrt_mult; [|nra|].
      - f_equal. unfold Rsqr. field_simplify; [|lra]. nra.
      - unfold Rsqr. nra. }
    destruct (Rle_lt_dec 0 u) as [Hu|Hu].
    + exists r, (acos (v / r)). repeat split; try lra.
      * rewrite Es, Eu, Rabs_right; lra.
      * rewrite Ec. field. lra.
    + exists r, (- acos (v / r)). repeat split; try lra.
      * destruct (Req_dec (acos (v / r)) PI) as [E|E]; [|lra]. exfalso.
        rewrite E, sin_PI in Es. rewrite <- Es in Eu. rewrite Rmult_0_r in Eu. unfold Rabs in Eu. destruct (Rcase_abs u); lra.
      * rewrite sin_neg, Es. rewrite Rabs_left in Eu by lra. lra.
      * rewrite cos_neg, Ec. field. lra.
Qed.

(** ** round trips *)
Lemma sin_cos_shift x k : sin (x + 2 * PI * IZR k) = sin x /\ cos (x + 2 * PI * IZR k) = cos x.
Proof.
  assert (G : forall n, sin (x + 2 * INR n * PI) = sin x /\ cos (x + 2 * INR n * PI) = cos x) by (intros; split; [apply sin_period|apply cos_period]).
  destruct (Z_le_gt_dec 0 k) as [Hk|Hk].
  - destruct (G (Z.to_nat k)) as (A & B). rewrite INR_IZR_INZ, Z2Nat.id in A, B by lia.
    replace (x + 2 * PI * IZR k) with (x + 2 * IZR k * PI) by ring. auto.
  - set (y := x + 2 * PI * IZR k). replace x with (y + 2 * INR (Z.to_nat (- k)) * PI).
    + split; symmetry; [apply sin_period|apply cos_period].
    + rewrite INR_IZR_INZ, Z2Nat.id by lia. rewrite opp_IZR. unfold y. ring.
Qed.
Lemma angle_wrap x : exists k : Z, - PI < x + 2 * PI * IZR k <= PI.
Proof.
  pose proof PI_RGT_0 as Pi.
  exists (rfloor ((PI - x) / (2 * PI))). pose proof (rfloor_spec ((PI - x) / (2 * PI))) as (A & B).
  set (k := IZR (rfloor ((PI - x) / (2 * PI)))) in *.
  assert (E : (PI - x) = 2 * PI * ((PI - x) / (2 * PI))) by (field; lra).
  assert (2 * PI * k <= 2 * PI * ((PI - x) / (2 * PI))) by (apply Rmult_le_compat_l; lra).
  assert (2 * PI * ((PI - x) / (2 * PI)) < 2 * PI * (k + 1)) by (apply Rmult_lt_compat_l; lra). lra.
Qed.
Lemma uv_roundtrip wd ws : 0 < ws -> uv2wd (wd2uv wd ws) = rmod wd 360.
Proof.
  intros H. pose proof PI_RGT_0 as Pi. unfold uv2wd, wd2uv, wd2wdvec. cbn [fst snd].
  destruct (angle_wrap (wd * PI / 180 - PI)) as (k & Hk). set (p := wd * PI / 180 - PI + 2 * PI * IZR k) in *.
  destruct (sin_cos_shift (wd * PI / 180 - PI) k) as (Es & Ec). fold p in Es, Ec.
  assert (S1 : - (ws * sin (wd * PI / 180)) = ws * sin p).
  { rewrite Es. replace (wd * PI / 180) with (wd * PI / 180 - PI + PI) at 1 by lra. rewrite neg_sin. ring. }
  assert (C1 : - (ws * cos (wd * PI / 180)) = ws * cos p).
  { rewrite Ec. replace (wd * PI / 180) with (wd * PI / 180 - PI + PI) at 1 by lra. rewrite neg_cos. ring. }
  rewrite S1, C1, atan2_polar by assumption.
  replace (180 + p * 180 / PI) with (wd + 360 * IZR k) by (unfold p; field; lra).
  apply rmod_shift. lra.
Qed.
Lemma wdvec_roundtrip wd ws : 0 < ws -> wdvec2wd (wd2wdvec wd ws) = rmod wd 360.
Proof. intros H. rewrite <- (uv_roundtrip wd ws H). reflexivity. Qed.
Lemma uv_length wd ws : 0 <= ws -> sqrt (fst (wd2uv wd ws) * fst (wd2uv wd ws) + snd (wd2uv wd ws) * snd (wd2uv wd ws)) = ws.
Proof.
  intros H. unfold wd2uv, wd2wdvec. cbn [fst snd]. set (t := wd * PI / 180).
  pose proof (sin2_cos2 t) as T. unfold Rsqr in T.
  replace (- (ws * sin t) * - (ws * sin t) + - (ws * cos t) * - (ws * cos t)) with (ws * ws) by nra.
  apply sqrt_square. lra.
Qed.
Lemma rmod_deg x : exists k : Z, rmod x 360 * PI / 180 = x * PI / 180 + 2 * PI * IZR k.
Proof. destruct (rmod_congr x 360) as (k & E). exists k. rewrite E. field. Qed.
Lemma wd_roundtrip u v : wd2uv (uv2wd (u, v)) (sqrt (u * u + v * v)) = (u, v).
Proof.
  pose proof PI_RGT_0 as Pi. destruct (polar_exists u v) as (r & p & Hr & Hp & Eu & Ev & Er). rewrite <- Er.
  destruct (Req_dec r 0) as [H0|H0].
  { unfold wd2uv, wd2wdvec. cbn [fst snd]. rewrite H0 in *. f_equal; lra. }
  unfold wd2uv, wd2wdvec, uv2wd. cbn [fst snd]. assert (Ea : atan2 u v = p) by (rewrite Eu, Ev; apply atan2_polar; lra). rewrite Ea.
  destruct (rmod_deg (180 + p * 180 / PI)) as (k & E). rewrite E.
  destruct (sin_cos_shift ((180 + p * 180 / PI) * PI / 180) k) as (Es & Ec). rewrite Es, Ec.
  replace ((180 + p * 180 / PI) * PI / 180) with (p + PI) by (field; lra). rewrite neg_sin, neg_cos. f_equal; lra.
Qed.

(** ** yaw *)
Lemma rmod_mod x : exists k : Z, rmod x 360 = x + 360 * IZR k.
Proof. apply rmod_congr. Qed.
Lemma yawm_roundtrip wd yawm : 0 <= wd < 360 -> -180 < yawm < 180 -> yaw2yawm wd (yawm2yaw wd yawm) = yawm.
Proof.
  intros Hw Hy. unfold yaw2yawm, yawm2yaw. pose proof (rmod_range (wd + yawm) 360 ltac:(lra)) as R.
  destruct (rmod_congr (wd + yawm) 360) as (k & E). set (y := rmod (wd + yawm) 360) in *.
  assert (Hk : (k = -1 \/ k = 0 \/ k = 1)%Z).
  { assert (-2 < IZR k < 2) by lra. assert (-2 < k)%Z by (apply lt_IZR; lra). assert (k < 2)%Z by (apply lt_IZR; lra). lia. }
  unfold delta_wd. cbn zeta. destruct Hk as [Hk|[Hk|Hk]]; subst k; rdec; lra.
Qed.
Lemma yawm_180_lost wd : 0 <= wd < 180 -> yaw2yawm wd (yawm2yaw wd (-180)) = 180.
Proof.
  intros H. unfold yaw2yawm, yawm2yaw. rewrite (rmod_unique (wd + -180) 360 (wd + 180)).
  - unfold delta_wd. cbn zeta. rdec; lra.
  - lra.
  - lra.
  - exists 1%Z. lra.
Qed.
Lemma yaw_roundtrip wd yaw : yawm2yaw wd (yaw2yawm wd yaw) = rmod yaw 360.
Proof.
  unfold yawm2yaw, yaw2yawm. destruct (delta_wd_congr wd yaw) as (k & E). rewrite E.
  replace (wd + (yaw - wd + 360 * IZR k)) with (yaw + 360 * IZR k) by ring. apply rmod_shift. lra.
Qed.

(** ** coordinates *)
Lemma n_unit wd : fst (wd2uv wd 1) * fst (wd2uv wd 1) + snd (wd2uv wd 1) * snd (wd2uv wd 1) = 1.
Proof.
  unfold wd2uv, wd2wdvec. cbn [fst snd]. pose proof (sin2_cos2 (wd * PI / 180)) as T. unfold Rsqr in T. lra.
Qed.
Lemma coos_isometry rotor wd p q :
  let d a b := dot (vsub a b) (vsub a b) in d (wake_coos rotor wd p) (wake_coos rotor wd q) = d p q.
Proof.
  cbn zeta. pose proof (n_unit wd) as U. unfold wake_coos. set (n := wd2uv wd 1) in *. destruct n as [n0 n1]. cbn [fst snd] in *.
  destruct p as [[px py] pz], q as [[qx qy] qz], rotor as [[rx ry] rz]. unfold dot, vsub, vx, vy, vz. cbn [fst snd].
  set (a := px - qx). set (b := py - qy).
  replace ((px - rx) * n0 + (py - ry) * n1 + (pz - rz) * 0 - ((qx - rx) * n0 + (qy - ry) * n1 + (qz - rz) * 0)) with (a * n0 + b * n1) by (unfold a, b; ring).
  replace ((px - rx) * - n1 + (py - ry) * n0 + (pz - rz) * 0 - ((qx - rx) * - n1 + (qy - ry) * n0 + (qz - rz) * 0)) with (b * n0 - a * n1) by (unfold a, b; ring).
  replace ((px - rx) * 0 + (py - ry) * 0 + (pz - rz) * 1 - ((qx - rx) * 0 + (qy - ry) * 0 + (qz - rz) * 1)) with (pz - qz) by ring.
  replace ((a * n0 + b * n1) * (a * n0 + b * n1) + (b * n0 - a * n1) * (b * n0 - a * n1)) with ((a * a + b * b) * (n0 * n0 + n1 * n1)) by ring.
  rewrite U. ring.
Qed.
Lemma coos_centre rotor wd : wake_coos rotor wd rotor = (0, 0, 0).
Proof. unfold wake_coos, dot, vsub, vx, vy, vz. cbn [fst snd]. f_equal; [f_equal|]; ring. Qed.
Lemma coos_centreline rotor wd x : wake_coos rotor wd (centreline_point rotor wd x) = (x, 0, 0).
Proof.
  pose proof (n_unit wd) as U. unfold wake_coos, centreline_point. set (n := wd2uv wd 1) in *. destruct n as [n0 n1]. cbn [fst snd] in *.
  destruct rotor as [[rx ry] rz]. unfold dot, vsub, vx, vy, vz. cbn [fst snd]. f_equal; [f_equal|]; try ring.
  transitivity (x * (n0 * n0 + n1 * n1)); [ring|]. rewrite U. ring.
Qed.
(** only the centreline has y = z = 0 *)
Lemma coos_centreline_only rotor wd p x : wake_coos rotor wd p = (x, 0, 0) -> p = centreline_point rotor wd x.
Proof.
  pose proof (n_unit wd) as U. unfold wake_coos, centreline_point. set (n := wd2uv wd 1) in *. destruct n as [n0 n1]. cbn [fst snd] in *.
  destruct rotor as [[rx ry] rz], p as [[px py] pz]. unfold dot, vsub, vx, vy, vz. cbn [fst snd]. intros H. injection H as H1 H2 H3.
  set (a := px - rx) in *. set (b := py - ry) in *. f_equal; [f_equal|].
  - enough (a = x * n0) by (unfold a in *; lra). rewrite <- H1.
    transitivity (a * (n0 * n0 + n1 * n1)); [rewrite U; ring|].
    transitivity ((a * n0 + b * n1) * n0 - n1 * (a * - n1 + b * n0 + (pz - rz) * 0)); [ring|rewrite H2; ring].
  - enough (b = x * n1) by (unfold b in *; lra). rewrite <- H1.
    transitivity (b * (n0 * n0 + n1 * n1)); [rewrite U; ring|].
    transitivity ((a * n0 + b * n1) * n1 + n0 * (a * - n1 + b * n0 + (pz - rz) * 0)); [ring|rewrite H2; ring].
  - lra.
Qed.
