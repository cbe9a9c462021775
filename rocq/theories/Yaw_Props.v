(** Theorems about yawed wakes. *)
From Verif Require Import RBase WindDir_Model Induction_Model Induction_Spec Induction_Proofs Yaw_Model Yaw_Spec Yaw_Proofs.
Local Open Scope R_scope.

(** C103: the wind deficit *)
Theorem C103_bounds ct2a p x y z : yaw_ok ct2a p -> -1 < deficit ct2a p x y z <= 0.
Proof. intros H. pose proof (deficit_range ct2a p H x y z). pose proof (twoa_range ct2a p H). lra. Qed.
Print Assumptions C103_bounds.
Theorem C103_strongest_on_axis ct2a p x y z : yaw_ok ct2a p -> 1e-8 < x -> 1e-8 < yct p -> deficit ct2a p x 0 0 <= deficit ct2a p x y z.
Proof. intros H. apply strongest. exact H. Qed.
Print Assumptions C103_strongest_on_axis.
Theorem C103_recovers_downstream ct2a p x x' : yaw_ok ct2a p -> 1e-8 < yct p -> 1e-8 < x <= x' -> deficit ct2a p x 0 0 <= deficit ct2a p x' 0 0.
Proof. intros H. now apply recovers. Qed.
Print Assumptions C103_recovers_downstream.
Theorem C103_none_upstream ct2a p x y z : x <= 1e-8 \/ yct p <= 1e-8 -> deficit ct2a p x y z = 0 /\ deflection ct2a p x = 0.
Proof. intros H. unfold deficit, deflection, selected. destruct H as [H|H]; apply Rltb_false in H; rewrite H; rewrite ?andb_false_r; now split. Qed.
Print Assumptions C103_none_upstream.
Definition sample : ypar := {| yD := 100; yct := 0.8; yti := 0.1; yalpha := 0.58; ybeta := 0.07; yk := 0.04; ygamma := PI / 3 |}.
Lemma sample_ok : yaw_ok (betz 0.9) sample.
Proof.
  unfold yaw_ok, sample. cbn [yD yct yti yalpha ybeta yk ygamma]. rewrite cos_PI3. do 7 (split; [lra|]). split; [apply betz_physical; lra|]. intros c Hc. apply betz_pos; lra.
Qed.
Example C103_nonvacuous : deficit (betz 0.9) sample 1 0 0 < 0.
Proof.
  pose proof sample_ok as OK. rewrite on_axis by (try exact OK; cbn; lra). pose proof (twoa_range _ _ OK).
  destruct (near (betz 0.9) sample 1) eqn:E; [lra|]. apply Rltb_false in E. destruct (ampl_far_range _ _ OK 1 E) as (_ & ->).
  pose proof (ct_eff_range _ _ OK 1 1 ltac:(lra)) as (A & _). destruct OK as (_ & _ & _ & _ & _ & _ & _ & _ & P4). pose proof (P4 _ A). lra.
Qed.

(** C104: the deflection of the wake has no jump where the near wake ends ... *)
Theorem C104_deflection_continuous ct2a p : yaw_ok ct2a p -> 1e-8 < x0 ct2a p -> 1e-8 < yct p ->
  left_limit (deflection ct2a p) (x0 ct2a p) (deflection ct2a p (x0 ct2a p)) /\ right_limit (deflection ct2a p) (x0 ct2a p) (deflection ct2a p (x0 ct2a p)).
Proof. intros H Hx Hc. destruct (deflection_limits ct2a p H Hx Hc) as (-> & A & B). now split. Qed.
Print Assumptions C104_deflection_continuous.
(** ... but the wind deficit of a yawed turbine has, above and below the wake centre *)
Theorem C104_deficit_jump_refuted ct2a p y z : yaw_ok ct2a p -> 1e-8 < x0 ct2a p -> 1e-8 < yct p -> cos (ygamma p) <> 1 -> z <> 0 ->
  exists l, left_limit (fun x => deficit ct2a p x y z) (x0 ct2a p) l /\ deficit ct2a p (x0 ct2a p) y z < l.
Proof.
  intros H Hx Hc N Nz. eexists. split; [apply deficit_left; try assumption; now right|].
  rewrite deficit_at by assumption. pose proof (twoa_range ct2a p H) as T. pose proof (sy0_pos ct2a p H) as S. pose proof (sz0_pos ct2a p H) as Z.
  pose proof (sigma_ratio p) as E. pose proof (cosg_range ct2a p H) as C. unfold cosg in *.
  assert (L : exp (- 0.5 * ((y * y + z * z) / (sigma_y0 p * sigma_y0 p))) < exp (- 0.5 * (y * y / (sigma_y0 p * sigma_y0 p) + z * z / (sigma_z0 p * sigma_z0 p)))).
  { apply exp_increasing. assert (Q : z * z / (sigma_z0 p * sigma_z0 p) < z * z / (sigma_y0 p * sigma_y0 p)).
    { apply Rmult_lt_compat_l; [pose proof (Rsqr_pos_lt z Nz); unfold Rsqr in *; lra|]. apply Rinv_lt_contravar; [apply Rmult_lt_0_compat; apply Rmult_lt_0_compat; lra|].
      apply Rmult_le_0_lt_compat; try lra; rewrite E; nra. }
    replace ((y * y + z * z) / (sigma_y0 p * sigma_y0 p)) with (y * y / (sigma_y0 p * sigma_y0 p) + z * z / (sigma_y0 p * sigma_y0 p)) by (unfold Rdiv; ring). lra. }
  nra.
Qed.
Print Assumptions C104_deficit_jump_refuted.
(** without yaw the deficit has no jump off the centre line *)
Theorem C104_unyawed_partial ct2a p y z : yaw_ok ct2a p -> 1e-8 < x0 ct2a p -> 1e-8 < yct p -> cos (ygamma p) = 1 -> y <> 0 \/ z <> 0 ->
  left_limit (fun x => deficit ct2a p x y z) (x0 ct2a p) (deficit ct2a p (x0 ct2a p) y z).
Proof.
  intros H Hx Hc E N. rewrite deficit_at by assumption. pose proof (sigma_ratio p) as S. unfold cosg in S. rewrite E, Rmult_1_l in S. rewrite <- S.
  replace (y * y / (sigma_y0 p * sigma_y0 p) + z * z / (sigma_y0 p * sigma_y0 p)) with ((y * y + z * z) / (sigma_y0 p * sigma_y0 p)) by (unfold Rdiv; ring).
  now apply deficit_left.
Qed.
Print Assumptions C104_unyawed_partial.

(** C105: coordinates in the yawed frame. One target point: the coordinates of the unyawed frame, shifted by the deflection *)
Theorem C105_shifted_by_deflection_partial ydef rotor wd q :
  yawed_coos ydef rotor wd [1] [q] = let c := wake_coos rotor wd q in [(vx c, vy c - ydef (vx c), vz c)].
Proof. exact (yawed_single ydef rotor wd q). Qed.
Print Assumptions C105_shifted_by_deflection_partial.
Theorem C105_unyawed_partial ct2a p rotor wd q : ygamma p = 0 -> yawed_coos (deflection ct2a p) rotor wd [1] [q] = [wake_coos rotor wd q].
Proof. intros H. rewrite yawed_single. cbn zeta. rewrite deflection_zero by exact H. f_equal. apply vec_eq; cbn; ring. Qed.
Print Assumptions C105_unyawed_partial.
(** targets with several points: the lateral extent is lost, even without yaw; all points get the same lateral coordinate *)
Theorem C105_points_collapse_refuted ydef rotor wd ws ps a b : In a (yawed_coos ydef rotor wd ws ps) -> In b (yawed_coos ydef rotor wd ws ps) -> vy a = vy b.
Proof. unfold yawed_coos. cbn zeta. intros Ha Hb. apply in_map_iff in Ha, Hb. destruct Ha as (c & <- & _). destruct Hb as (d & <- & _). reflexivity. Qed.
Print Assumptions C105_points_collapse_refuted.
Theorem C105_example_refuted : yawed_coos (fun _ => 0) (0, 0, 0) 270 [1 / 2; 1 / 2] [(100, 10, 0); (100, -10, 0)] = [(100, 0, 0); (100, 0, 0)] /\
  map (wake_coos (0, 0, 0) 270) [(100, 10, 0); (100, -10, 0)] = [(100, 10, 0); (100, -10, 0)].
Proof.
  assert (S : sin (270 * PI / 180) = -1) by (replace (270 * PI / 180) with (3 * (PI / 2)) by field; apply sin_3PI2).
  assert (C : cos (270 * PI / 180) = 0) by (replace (270 * PI / 180) with (3 * (PI / 2)) by field; apply cos_3PI2).
  assert (E : forall u v w, wake_coos (0, 0, 0) 270 (u, v, w) = (u, v, w)).
  { intros u v w. unfold wake_coos, wd2uv, wd2wdvec. cbn zeta. cbn [fst snd]. rewrite S, C. apply vec_eq; unfold dot, vsub, vx, vy, vz; cbn [fst snd]; ring. }
  unfold yawed_coos. cbn [map]. rewrite !E. split; [|reflexivity]. cbn [map wavg]. cbn zeta. unfold vx, vy, vz. cbn [fst snd]. repeat f_equal; field.
Qed.
Print Assumptions C105_example_refuted.

(** C106 is false: the frame's centreline points are displaced to the wrong side. In the frame's own coordinates they lie at
    minus twice the deflection *)
Theorem C106_centreline_refuted ydef rotor wd n x j : (forall i, x i < x (S i)) -> (2 <= n)%nat -> (j < n)%nat ->
  yawed_coos ydef rotor wd [1] [yawed_centreline ydef rotor wd n x j] = [(x j, - 2 * ydef (x j), 0)].
Proof. apply centreline_coos. Qed.
Print Assumptions C106_centreline_refuted.
Theorem C106_undeflected_partial ydef rotor wd n x j : (forall i, x i < x (S i)) -> (2 <= n)%nat -> (j < n)%nat ->
  (yawed_coos ydef rotor wd [1] [yawed_centreline ydef rotor wd n x j] = [(x j, 0, 0)] <-> ydef (x j) = 0).
Proof.
  intros M Hn Hj. rewrite centreline_coos by assumption. split.
  - intros H. injection H as H. lra.
  - intros ->. repeat f_equal. ring.
Qed.
Print Assumptions C106_undeflected_partial.
Example C106_nonvacuous : exists p x, yaw_ok (betz 0.9) p /\ deflection (betz 0.9) p x <> 0.
Proof.
  pose proof sample_ok as OK. exists sample, (x0 (betz 0.9) sample). split; [exact OK|]. pose proof (x0_pos _ _ OK) as X.
  assert (B : 1 < x0 (betz 0.9) sample).
  { pose proof (twoa_range _ _ OK) as T. unfold x0. pose proof (sq2_pos) as Q. assert (Q2 : sqrt 2 < 2) by (rewrite <- (sqrt_square 2) at 2 by lra; apply sqrt_lt_1_alt; lra).
    unfold cosg. cbn [yD yalpha yti ybeta ygamma sample]. rewrite cos_PI3. set (t := twoa (betz 0.9) sample) in *.
    assert (Z : 0 < sqrt 2 * (4 * 0.58 * 0.1 + 0.07 * t)) by (apply Rmult_lt_0_compat; lra).
    assert (G : forall a b, 0 < b -> b < a -> 1 < a / b).
    { intros a b Hb Ha. apply Rmult_lt_reg_r with (1 := Hb). unfold Rdiv. rewrite Rmult_assoc, Rinv_l by lra. lra. }
    apply G; [exact Z|]. nra. }
  destruct (deflection_limits _ _ OK ltac:(lra) ltac:(cbn; lra)) as (-> & _).
  assert (T : 0 < theta (betz 0.9) sample).
  { unfold theta, cosg. cbn [ygamma yct sample]. rewrite cos_PI3. pose proof PI_RGT_0. destruct OK as (_ & _ & _ & _ & _ & _ & _ & _ & P4). pose proof (P4 (0.8 * (1 / 2)) ltac:(lra)). 
    apply Rmult_lt_0_compat; [|lra]. apply Rdiv_lt_0_compat; lra. }
  nra.
Qed.

(** C107 is false: of two models of this type with different parameters, the second uses the data calculated with the
    parameters of the first *)
Theorem C107_own_parameters_refuted {K P D : Type} (Keq : K -> K -> bool) (calc : P -> K -> D) k q1 q2 : Keq k k = true ->
  uses Keq calc None [(k, q1); (k, q2)] = [calc q1 k; calc q1 k].
Proof. intros H. cbn [uses use]. now rewrite H. Qed.
Print Assumptions C107_own_parameters_refuted.
(** every call uses data of its own parameters and coordinates if all models of this type have the same parameters, provided
    that the check value determines the coordinates (no hash collision) *)
Theorem C107_equal_parameters_partial {K P D : Type} (Keq : K -> K -> bool) (calc : P -> K -> D) q l :
  (forall a b, Keq a b = true -> a = b) -> (forall k q', In (k, q') l -> q' = q) -> uses Keq calc None l = map (fun kq => calc (snd kq) (fst kq)) l.
Proof. intros HK Hl. apply (uses_same Keq calc HK q); [discriminate|exact Hl]. Qed.
Print Assumptions C107_equal_parameters_partial.
