From Coquelicot Require Import Coquelicot.
From Verif Require Import RBase WindDir_Model WindDir_Proofs Induction_Spec Induction_Model Induction_Proofs Yaw_Model Yaw_Spec.
Local Open Scope R_scope.

Section S.
Variables (ct2a : R -> R) (p : ypar).
Hypothesis OK : yaw_ok ct2a p.
Notation x0 := (x0 ct2a p). Notation twoa := (twoa ct2a p). Notation cosg := (cosg p).
Notation sigma_y := (sigma_y ct2a p). Notation sigma_z := (sigma_z ct2a p).

Lemma sq2_pos : 0 < sqrt 2. Proof. apply sqrt_lt_R0. lra. Qed.
Lemma sq8_pos : 0 < sqrt 8. Proof. apply sqrt_lt_R0. lra. Qed.
Lemma sq8_sq : sqrt 8 * sqrt 8 = 8. Proof. apply sqrt_sqrt. lra. Qed.
Lemma twoa_range : 0 < twoa < 1.
Proof. destruct OK as (_ & Hc & _ & _ & _ & _ & _ & (P1 & P2 & P3) & P4). unfold Yaw_Model.twoa. pose proof (P3 (yct p) ltac:(lra)). pose proof (P4 (yct p) ltac:(lra)). lra. Qed.
Lemma cosg_range : 0 < cosg <= 1.
Proof. destruct OK as (_ & _ & _ & _ & _ & _ & H & _). unfold Yaw_Model.cosg. pose proof (COS_bound (ygamma p)). lra. Qed.
Lemma x0_pos : 0 < x0.
Proof.
  pose proof twoa_range. pose proof cosg_range. pose proof sq2_pos. destruct OK as (HD & _ & Ht & Ha & Hb & _). unfold Yaw_Model.x0.
  apply Rdiv_lt_0_compat; [apply Rmult_lt_0_compat; [nra|lra]|]. apply Rmult_lt_0_compat; [lra|].
  assert (0 < yalpha p * yti p) by nra. assert (0 <= ybeta p * twoa) by nra. lra.
Qed.
Lemma sy0_pos : 0 < sigma_y0 p.
Proof. pose proof cosg_range. pose proof sq8_pos. destruct OK as (HD & _). unfold sigma_y0. apply Rdiv_lt_0_compat; nra. Qed.
Lemma sz0_pos : 0 < sigma_z0 p.
Proof. pose proof sq8_pos. destruct OK as (HD & _). unfold sigma_z0. apply Rdiv_lt_0_compat; lra. Qed.
Lemma sigma_grow x x' : x <= x' -> sigma_y x <= sigma_y x' /\ sigma_z x <= sigma_z x'.
Proof. destruct OK as (_ & _ & _ & _ & _ & Hk & _). unfold Yaw_Model.sigma_y, Yaw_Model.sigma_z. intros H. split; nra. Qed.
Lemma sigma_x0 : sigma_y x0 = sigma_y0 p /\ sigma_z x0 = sigma_z0 p.
Proof. unfold Yaw_Model.sigma_y, Yaw_Model.sigma_z. split; ring. Qed.
Lemma sigma_pos x : x0 <= x -> 0 < sigma_y x /\ 0 < sigma_z x.
Proof. intros H. pose proof (sigma_grow _ _ H) as (A & B). destruct sigma_x0 as (E & F). rewrite E in A. rewrite F in B. pose proof sy0_pos. pose proof sz0_pos. lra. Qed.
Lemma prod_x0 : 8 * sigma_y x0 * sigma_z x0 = cosg * (yD p * yD p).
Proof.
  destruct sigma_x0 as (-> & ->). unfold sigma_y0, sigma_z0. pose proof sq8_sq. pose proof sq8_pos.
  transitivity (8 * (cosg * (yD p * yD p)) / (sqrt 8 * sqrt 8)); [field; lra|]. rewrite sq8_sq. field.
Qed.
Lemma ct_eff_x0 : ct_eff ct2a p x0 = yct p.
Proof. unfold ct_eff. rewrite prod_x0. pose proof cosg_range. destruct OK as (HD & _). field. lra. Qed.
Lemma ct_eff_range x x' : x0 <= x <= x' -> 0 < ct_eff ct2a p x' <= ct_eff ct2a p x.
Proof.
  intros (H & H'). pose proof (sigma_pos x H) as (A & B). pose proof (sigma_grow x x' H') as (C & D). pose proof cosg_range. destruct OK as (HD & Hc & _).
  assert (N : 0 < yct p * cosg * (yD p * yD p)) by (apply Rmult_lt_0_compat; nra).
  assert (Q : 0 < 8 * sigma_y x * sigma_z x) by (apply Rmult_lt_0_compat; lra).
  assert (Q' : 8 * sigma_y x * sigma_z x <= 8 * sigma_y x' * sigma_z x') by (apply Rmult_le_compat; lra).
  unfold ct_eff. split; [apply Rdiv_lt_0_compat; lra|]. apply Rmult_le_compat_l; [lra|]. apply Rinv_le_contravar; lra.
Qed.
Lemma ampl_far_range x : x0 <= x -> - twoa <= ampl_far ct2a p x <= 0 /\ ampl_far ct2a p x = -2 * ct2a (ct_eff ct2a p x).
Proof.
  intros H. pose proof (ct_eff_range x0 x ltac:(lra)) as (A & B). rewrite ct_eff_x0 in B. pose proof twoa_range.
  destruct OK as (_ & Hc & _ & _ & _ & _ & _ & (P1 & P2 & P3) & _). unfold ampl_far, Yaw_Model.twoa in *.
  pose proof (P1 (ct_eff ct2a p x) ltac:(lra)). pose proof (P2 (ct_eff ct2a p x) (yct p) ltac:(lra)). rewrite Rmax_left by lra. lra.
Qed.
Lemma ampl_far_mono x x' : x0 <= x <= x' -> ampl_far ct2a p x <= ampl_far ct2a p x'.
Proof.
  intros H. destruct (ampl_far_range x ltac:(lra)) as (_ & ->). destruct (ampl_far_range x' ltac:(lra)) as (_ & ->).
  pose proof (ct_eff_range x x' H). destruct OK as (_ & _ & _ & _ & _ & _ & _ & (P1 & P2 & P3) & _).
  pose proof (P2 (ct_eff ct2a p x') (ct_eff ct2a p x) ltac:(lra)). lra.
Qed.
Lemma sqr_nonneg z : 0 <= z * z. Proof. nra. Qed.
Lemma near_factor_range x r : 0 < near_factor ct2a p x r <= 1.
Proof. unfold near_factor. destruct (Rltb _ _); [|lra]. apply exp_gauss_bounds, sqr_nonneg. Qed.
Lemma far_factor_range x y z : 0 < far_factor ct2a p x y z <= 1.
Proof.
  unfold far_factor. pose proof (exp_gauss_bounds _ (sqr_nonneg (y / sigma_y x))). pose proof (exp_gauss_bounds _ (sqr_nonneg (z / sigma_z x))).
  set (a := exp _) in *. set (b := exp _) in *. nra.
Qed.
Lemma deficit_range x y z : - twoa <= deficit ct2a p x y z <= 0.
Proof.
  pose proof twoa_range as T. unfold deficit. destruct (selected p x); [|lra]. destruct (near ct2a p x) eqn:E.
  - unfold ampl_near. pose proof (near_factor_range x (sqrt (y * y + z * z))). nra.
  - apply Rltb_false in E. destruct (ampl_far_range x E) as (A & _). pose proof (far_factor_range x y z). nra.
Qed.
Lemma sel_true x : 1e-8 < x -> 1e-8 < yct p -> selected p x = true.
Proof. intros H H'. unfold selected. rewrite (proj2 (Rltb_true 1e-8 x)) by exact H. rewrite (proj2 (Rltb_true 1e-8 (yct p))) by exact H'. reflexivity. Qed.
Lemma sq00 : sqrt (0 * 0 + 0 * 0) = 0.
Proof. replace (0 * 0 + 0 * 0) with 0 by ring. apply sqrt_0. Qed.
Lemma r_pc0_nonneg : 0 <= r_pc0 ct2a p.
Proof. unfold r_pc0. destruct OK as (HD & _). pose proof (sqrt_pos (0.5 * yct p * cosg / (2 * ct2a (yct p * cosg)) / (1 - twoa))). nra. Qed.
Lemma r_pc_nonneg x : x <= x0 -> 0 <= r_pc ct2a p x.
Proof.
  intros H. unfold r_pc. pose proof r_pc0_nonneg. pose proof x0_pos.
  assert (x / x0 <= 1). { apply Rmult_le_reg_r with x0; [lra|]. unfold Rdiv. rewrite Rmult_assoc, Rinv_l by lra. lra. } nra.
Qed.
Lemma on_axis x : 1e-8 < x -> 1e-8 < yct p ->
  deficit ct2a p x 0 0 = if near ct2a p x then - twoa else ampl_far ct2a p x.
Proof.
  intros H H'. unfold deficit. rewrite sel_true by assumption. destruct (near ct2a p x) eqn:E.
  - apply Rltb_true in E. unfold near_factor, ampl_near. rewrite sq00. pose proof (r_pc_nonneg x ltac:(lra)).
    rewrite (proj2 (Rltb_false (r_pc ct2a p x) 0)) by lra. ring.
  - unfold far_factor. unfold Rdiv. rewrite !Rmult_0_l, !Rmult_0_r, exp_0. ring.
Qed.
Lemma recovers x x' : 1e-8 < yct p -> 1e-8 < x <= x' -> deficit ct2a p x 0 0 <= deficit ct2a p x' 0 0.
Proof.
  intros Hc H. rewrite !on_axis by lra. unfold near. destruct (Rltb x x0) eqn:E, (Rltb x' x0) eqn:E'; try lra.
  - apply Rltb_false in E'. apply (ampl_far_range x' E').
  - apply Rltb_true in E'. apply Rltb_false in E. lra.
  - apply Rltb_false in E. apply ampl_far_mono. lra.
Qed.
Lemma strongest x y z : 1e-8 < x -> 1e-8 < yct p -> deficit ct2a p x 0 0 <= deficit ct2a p x y z.
Proof.
  intros H Hc. rewrite on_axis by assumption. unfold deficit. rewrite sel_true by assumption. pose proof twoa_range. destruct (near ct2a p x) eqn:E.
  - unfold ampl_near. pose proof (near_factor_range x (sqrt (y * y + z * z))). nra.
  - apply Rltb_false in E. destruct (ampl_far_range x E) as (A & _). pose proof (far_factor_range x y z). nra.
Qed.

(** --- transition at x0 --- *)
Lemma sqsd_x0 : sqsd ct2a p x0 = 1.
Proof. unfold sqsd. rewrite prod_x0. pose proof cosg_range. destruct OK as (HD & _). rewrite <- sqrt_1. f_equal. field. lra. Qed.
Lemma sqct_range : 0 < sqrt (yct p) <= 1.
Proof. destruct OK as (_ & Hc & _). split; [apply sqrt_lt_R0; lra|]. rewrite <- sqrt_1. apply sqrt_le_1_alt. lra. Qed.
Lemma delta_far_x0 : delta_far ct2a p x0 = theta ct2a p * x0.
Proof.
  unfold delta_far. cbn zeta. rewrite sqsd_x0. pose proof sqct_range. set (s := sqrt (yct p)) in *.
  replace ((1.6 + s) * (1.6 * 1 - s) / ((1.6 - s) * (1.6 * 1 + s))) with 1; [rewrite ln_1; ring|].
  replace ((1.6 + s) * (1.6 * 1 - s)) with ((1.6 - s) * (1.6 * 1 + s)) by ring. symmetry. apply Rinv_r. nra.
Qed.
Lemma c_id_x x : continuous (fun y : R => y) x. Proof. apply continuous_id. Qed.
Lemma sqsd_cont : continuous (sqsd ct2a p) x0.
Proof.
  unfold sqsd. apply (continuous_comp (fun x => 8 * sigma_y x * sigma_z x / (cosg * (yD p * yD p))) sqrt).
  - apply (ex_derive_continuous (fun x => 8 * sigma_y x * sigma_z x / (cosg * (yD p * yD p)))). unfold Yaw_Model.sigma_y, Yaw_Model.sigma_z. auto_derive. exact I.
  - apply continuous_sqrt.
Qed.
Lemma delta_far_cont : continuous (delta_far ct2a p) x0.
Proof.
  unfold delta_far. cbn zeta. apply (continuous_comp (sqsd ct2a p) (fun q => theta ct2a p * x0 + yD p * theta ct2a p / 14.7 * sqrt (cosg / (yct p * (yk p * yk p))) * (2.9 + 1.3 * (1 - twoa) - yct p) * ln ((1.6 + sqrt (yct p)) * (1.6 * q - sqrt (yct p)) / ((1.6 - sqrt (yct p)) * (1.6 * q + sqrt (yct p))))) x0 sqsd_cont).
  apply (ex_derive_continuous (fun q => theta ct2a p * x0 + yD p * theta ct2a p / 14.7 * sqrt (cosg / (yct p * (yk p * yk p))) * (2.9 + 1.3 * (1 - twoa) - yct p) * ln ((1.6 + sqrt (yct p)) * (1.6 * q - sqrt (yct p)) / ((1.6 - sqrt (yct p)) * (1.6 * q + sqrt (yct p)))))).
  rewrite sqsd_x0. pose proof sqct_range. generalize dependent (sqrt (yct p)). intros s Hs.
  generalize (theta ct2a p * x0) (yD p * theta ct2a p / 14.7 * sqrt (cosg / (yct p * (yk p * yk p))) * (2.9 + 1.3 * (1 - twoa) - yct p)). intros a b.
  auto_derive. split; [|split; [|exact I]].
  - assert (0 < (1.6 - s) * (1.6 * 1 + s)) by (apply Rmult_lt_0_compat; lra). lra.
  - apply Rmult_lt_0_compat; [apply Rmult_lt_0_compat; lra|]. apply Rinv_0_lt_compat. apply Rmult_lt_0_compat; lra.
Qed.
Lemma cont_eps (f : R -> R) a : continuous f a -> forall eps, 0 < eps -> exists del, 0 < del /\ forall x, Rabs (x - a) < del -> Rabs (f x - f a) < eps.
Proof.
  intros H eps He. apply continuity_pt_filterlim in H. destruct (H eps He) as (d & Hd & F). exists d. split; [exact Hd|].
  intros x Hx. destruct (Req_dec x a) as [->|N]; [replace (f a - f a) with 0 by ring; rewrite Rabs_R0; exact He|].
  apply (F x). split; [split; [exact I|congruence]|exact Hx].
Qed.
Lemma left_of (f g : R -> R) a l d : 0 < d -> (forall x, a - d < x < a -> f x = g x) -> continuous g a -> g a = l -> left_limit f a l.
Proof.
  intros Hd E C G eps He. destruct (cont_eps g a C eps He) as (del & H1 & H2). exists (Rmin d del). split; [now apply Rmin_glb_lt|].
  intros x Hx. pose proof (Rmin_l d del). pose proof (Rmin_r d del). rewrite E by lra. rewrite <- G. apply H2. rewrite Rabs_left; lra.
Qed.
Lemma right_of (f g : R -> R) a l d : 0 < d -> (forall x, a < x < a + d -> f x = g x) -> continuous g a -> g a = l -> right_limit f a l.
Proof.
  intros Hd E C G eps He. destruct (cont_eps g a C eps He) as (del & H1 & H2). exists (Rmin d del). split; [now apply Rmin_glb_lt|].
  intros x Hx. pose proof (Rmin_l d del). pose proof (Rmin_r d del). rewrite E by lra. rewrite <- G. apply H2. rewrite Rabs_right; lra.
Qed.
Lemma deflection_limits : 1e-8 < x0 -> 1e-8 < yct p ->
  deflection ct2a p x0 = theta ct2a p * x0 /\ left_limit (deflection ct2a p) x0 (theta ct2a p * x0) /\ right_limit (deflection ct2a p) x0 (theta ct2a p * x0).
Proof.
  intros Hx Hc. split; [|split].
  - unfold deflection. rewrite sel_true by assumption. unfold near. rewrite (proj2 (Rltb_false x0 x0)) by lra. apply delta_far_x0.
  - apply (left_of _ (fun x => theta ct2a p * x) x0 _ (x0 - 1e-8)); [lra| | |reflexivity].
    + intros x H. unfold deflection. rewrite sel_true by lra. unfold near. now rewrite (proj2 (Rltb_true x x0)) by lra.
    + apply (ex_derive_continuous (fun x => theta ct2a p * x)). auto_derive. exact I.
  - apply (right_of _ (delta_far ct2a p) x0 _ 1); [lra| |apply delta_far_cont|apply delta_far_x0].
    intros x H. unfold deflection. rewrite sel_true by lra. unfold near. now rewrite (proj2 (Rltb_false x x0)) by lra.
Qed.
Lemma r_pc_x0 : r_pc ct2a p x0 = 0.
Proof. unfold r_pc. pose proof x0_pos. unfold Rdiv. rewrite Rinv_r by lra. ring. Qed.
Lemma r_pc_s_x0 : r_pc_s ct2a p x0 = sigma_y0 p.
Proof. unfold r_pc_s. pose proof x0_pos. unfold Rdiv. rewrite Rinv_r by lra. ring. Qed.
Lemma deficit_left y z : 1e-8 < x0 -> 1e-8 < yct p -> (y <> 0 \/ z <> 0) ->
  left_limit (fun x => deficit ct2a p x y z) x0 (- twoa * exp (- 0.5 * ((y * y + z * z) / (sigma_y0 p * sigma_y0 p)))).
Proof.
  intros Hx Hc N. set (r := sqrt (y * y + z * z)).
  assert (Rs : r * r = y * y + z * z) by (apply sqrt_sqrt; pose proof (sqr_nonneg y); pose proof (sqr_nonneg z); lra).
  assert (Rp : 0 < r) by (apply sqrt_lt_R0; destruct N as [N|N]; [pose proof (Rsqr_pos_lt y N)|pose proof (Rsqr_pos_lt z N)]; unfold Rsqr in *; pose proof (sqr_nonneg y); pose proof (sqr_nonneg z); lra).
  pose proof x0_pos as X. pose proof sy0_pos as S.
  set (g := fun x => - twoa * exp (- 0.5 * (((r - r_pc ct2a p x) / r_pc_s ct2a p x) * ((r - r_pc ct2a p x) / r_pc_s ct2a p x)))).
  assert (C1 : continuous (r_pc ct2a p) x0). { apply (ex_derive_continuous (r_pc ct2a p)). unfold r_pc. auto_derive. lra. }
  destruct (cont_eps _ _ C1 r Rp) as (d & Hd & Hclose). rewrite r_pc_x0 in Hclose.
  apply (left_of _ g x0 _ (Rmin (x0 - 1e-8) d)).
  - apply Rmin_glb_lt; lra.
  - intros x H. pose proof (Rmin_l (x0 - 1e-8) d). pose proof (Rmin_r (x0 - 1e-8) d). unfold deficit, g. rewrite sel_true by lra. unfold near. rewrite (proj2 (Rltb_true x x0)) by lra.
    fold r. unfold near_factor, ampl_near. assert (B : Rabs (r_pc ct2a p x - 0) < r) by (apply Hclose; rewrite Rabs_left; lra).
    pose proof (Rle_abs (r_pc ct2a p x - 0)). rewrite (proj2 (Rltb_true (r_pc ct2a p x) r)) by lra. ring.
  - apply (ex_derive_continuous g). unfold g, r_pc, r_pc_s. auto_derive. replace (x0 * / x0) with 1 by (field; lra).
    rewrite Rmult_1_l. repeat split; lra.
  - unfold g. rewrite r_pc_x0, r_pc_s_x0. f_equal. f_equal. f_equal. rewrite <- Rs. field. lra.
Qed.
Lemma deficit_at y z : 1e-8 < x0 -> 1e-8 < yct p ->
  deficit ct2a p x0 y z = - twoa * exp (- 0.5 * (y * y / (sigma_y0 p * sigma_y0 p) + z * z / (sigma_z0 p * sigma_z0 p))).
Proof.
  intros Hx Hc. unfold deficit. rewrite sel_true by assumption. unfold near. rewrite (proj2 (Rltb_false x0 x0)) by lra.
  destruct (ampl_far_range x0 ltac:(lra)) as (_ & ->). rewrite ct_eff_x0. unfold far_factor. destruct sigma_x0 as (-> & ->). rewrite <- exp_plus.
  unfold Yaw_Model.twoa. replace (-2 * ct2a (yct p)) with (- (2 * ct2a (yct p))) by ring. f_equal. f_equal. pose proof sy0_pos. pose proof sz0_pos. field. split; lra.
Qed.
Lemma sigma_ratio : sigma_y0 p = cosg * sigma_z0 p.
Proof. unfold sigma_y0, sigma_z0, Rdiv. ring. Qed.
End S.

(** --- frame --- *)
Lemma yawed_single ydef rotor wd q : yawed_coos ydef rotor wd [1] [q] = let c := wake_coos rotor wd q in [(vx c, vy c - ydef (vx c), vz c)].
Proof. unfold yawed_coos. cbn [map wavg]. cbn zeta. rewrite !Rmult_1_l, !Rplus_0_r. reflexivity. Qed.
Lemma theta_zero ct2a p : ygamma p = 0 -> theta ct2a p = 0.
Proof. intros H. unfold theta. rewrite H. unfold Rdiv. ring. Qed.
Lemma deflection_zero ct2a p x : ygamma p = 0 -> deflection ct2a p x = 0.
Proof. intros H. unfold deflection, delta_near, delta_far. rewrite (theta_zero ct2a p H). destruct (selected p x), (near ct2a p x); unfold Rdiv; ring. Qed.
Definition nvec (wd : R) : vec3 := (fst (wd2uv wd 1), snd (wd2uv wd 1), 0).
Lemma vec_eq (a b : vec3) : vx a = vx b -> vy a = vy b -> vz a = vz b -> a = b.
Proof. destruct a as ((a1, a2), a3), b as ((b1, b2), b3). cbn. intros -> -> ->. reflexivity. Qed.
Lemma nvec_unit wd : dot (nvec wd) (nvec wd) = 1.
Proof. unfold dot, nvec, vx, vy, vz. cbn [fst snd]. pose proof (n_unit wd). lra. Qed.
Lemma tangent_line rotor wd n x : (forall i, x i < x (S i)) -> (2 <= n)%nat -> forall j, (j < n)%nat -> tangent n (fun i => centreline_point rotor wd (x i)) j = nvec wd.
Proof.
  intros M Hn j Hj. set (q := fun i => centreline_point rotor wd (x i)).
  assert (D : forall i k, vsub (q k) (q i) = vscale (x k - x i) (nvec wd)).
  { intros i k. apply vec_eq; unfold vsub, q, centreline_point, vscale, nvec, vx, vy, vz; cbn [fst snd]; ring. }
  assert (U : forall l, 0 < l -> vscale (1 / vnorm (vscale l (nvec wd))) (vscale l (nvec wd)) = nvec wd).
  { intros l Hl. assert (E : vnorm (vscale l (nvec wd)) = l).
    { unfold vnorm. replace (dot (vscale l (nvec wd)) (vscale l (nvec wd))) with (l * l * dot (nvec wd) (nvec wd)) by (unfold dot, vscale, vx, vy, vz; cbn [fst snd]; ring).
      rewrite nvec_unit, Rmult_1_r. apply sqrt_square. lra. }
    rewrite E. apply vec_eq; unfold vscale, vx, vy, vz; cbn [fst snd]; field; lra. }
  clearbody q. unfold tangent. cbn zeta. destruct (j =? 0)%nat eqn:E0; [|destruct (j =? n - 1)%nat eqn:E1].
  - rewrite D. apply U. pose proof (M 0%nat). lra.
  - rewrite D. apply U. pose proof (M (n - 2)%nat). replace (S (n - 2)) with (n - 1)%nat in * by lia. lra.
  - rewrite !D. assert (F : vadd (vscale 0.5 (vscale (x j - x (j - 1)%nat) (nvec wd))) (vscale 0.5 (vscale (x (j + 1)%nat - x j) (nvec wd))) = vscale (0.5 * (x (j + 1)%nat - x (j - 1)%nat)) (nvec wd)).
    { apply vec_eq; unfold vadd, vscale, vx, vy, vz; cbn [fst snd]; lra. }
    rewrite F. apply U. apply Nat.eqb_neq in E0. pose proof (M j). pose proof (M (j - 1)%nat). replace (S (j - 1)) with j in * by lia. replace (j + 1)%nat with (S j) by lia. lra.
Qed.
Lemma coos_offset rotor wd x y : wake_coos rotor wd (vadd (centreline_point rotor wd x) (vscale y (side (nvec wd)))) = (x, y, 0).
Proof.
  unfold wake_coos. cbn zeta. pose proof (n_unit wd) as U. set (a := fst (wd2uv wd 1)) in *. set (b := snd (wd2uv wd 1)) in *.
  apply vec_eq; unfold vadd, vscale, side, nvec, centreline_point, dot, vsub, vx, vy, vz; cbn [fst snd]; fold a b.
  - transitivity (x * (a * a + b * b)); [ring|rewrite U; ring].
  - transitivity (y * (a * a + b * b)); [ring|rewrite U; ring].
  - ring.
Qed.
Lemma centreline_coos ydef rotor wd n x j : (forall i, x i < x (S i)) -> (2 <= n)%nat -> (j < n)%nat ->
  yawed_coos ydef rotor wd [1] [yawed_centreline ydef rotor wd n x j] = [(x j, - 2 * ydef (x j), 0)].
Proof.
  intros M Hn Hj. rewrite yawed_single. cbn zeta. unfold yawed_centreline. cbn zeta. rewrite (tangent_line rotor wd n x M Hn j Hj), coos_offset.
  unfold vx, vy, vz. cbn [fst snd]. replace (0 - ydef (x j) - ydef (x j)) with (- 2 * ydef (x j)) by ring. reflexivity.
Qed.

(** --- cache --- *)
Section C.
Context {K P D : Type} (Keq : K -> K -> bool) (calc : P -> K -> D).
Hypothesis Keq_ok : forall a b, Keq a b = true -> a = b.
Lemma uses_same q : forall l c, (forall k d, c = Some (k, d) -> d = calc q k) -> (forall k q', In (k, q') l -> q' = q) ->
  uses Keq calc c l = map (fun kq => calc (snd kq) (fst kq)) l.
Proof.
  induction l as [|(k, q') l IH]; intros c Hc Hl; [reflexivity|]. cbn [uses map fst snd]. assert (q' = q) by (apply (Hl k); now left). subst q'.
  assert (IH' : forall c', (forall k d, c' = Some (k, d) -> d = calc q k) -> uses Keq calc c' l = map (fun kq => calc (snd kq) (fst kq)) l).
  { intros c' H'. apply IH; [exact H'|]. intros k0 q0 H0. apply (Hl k0). now right. }
  unfold use. destruct c as [(k', d)|].
  - destruct (Keq k' k) eqn:E.
    + apply Keq_ok in E. subst k'. rewrite (Hc k d eq_refl). f_equal. apply IH'. intros k0 d0 H0. now injection H0 as <- <-.
    + f_equal. apply IH'. intros k0 d0 H0. now injection H0 as <- <-.
  - f_equal. apply IH'. intros k0 d0 H0. now injection H0 as <- <-.
Qed.
End C.
