(** Proofs about induction and analytical deficits. *)
From Verif Require Import RBase Induction_Model Induction_Spec.
Local Open Scope R_scope.

Lemma betz_lt_half cm ct : cm < 1 -> betz cm ct < 1 / 2.
Proof.
  intros H. unfold betz. pose proof (Rmin_r ct cm).
  assert (0 < sqrt (1 - Rmin ct cm)) by (apply sqrt_lt_R0; lra). lra.
Qed.
Lemma betz_mono cm c c' : c <= c' -> betz cm c <= betz cm c'.
Proof.
  intros H. unfold betz. assert (Rmin c cm <= Rmin c' cm) by (apply Rle_min_compat_r; exact H).
  assert (sqrt (1 - Rmin c' cm) <= sqrt (1 - Rmin c cm)) by (apply sqrt_le_1_alt; lra). lra.
Qed.
Lemma betz_0 cm : 0 <= cm -> betz cm 0 = 0.
Proof. intros H. unfold betz. rewrite Rmin_left by exact H. replace (1 - 0) with 1 by ring. rewrite sqrt_1. lra. Qed.
Lemma betz_nonneg cm ct : 0 <= cm -> 0 <= ct -> 0 <= betz cm ct.
Proof. intros H Hc. rewrite <- (betz_0 cm H). now apply betz_mono. Qed.
Lemma betz_inverts cm ct : cm <= 1 -> 4 * betz cm ct * (1 - betz cm ct) = Rmin ct cm.
Proof.
  intros H. unfold betz. pose proof (Rmin_r ct cm). set (m := Rmin ct cm) in *.
  pose proof (sqrt_sqrt (1 - m) ltac:(lra)) as S. set (s := sqrt (1 - m)) in *.
  transitivity (1 - s * s); [lra|]. lra.
Qed.
Lemma betz_physical cm top : 0 <= cm < 1 -> physical (betz cm) top.
Proof.
  intros H. split; [|split].
  - intros ct Hc. apply betz_nonneg; lra.
  - intros c c' (Hc & Hcc). now apply betz_mono.
  - intros ct _. apply betz_lt_half. lra.
Qed.
Lemma madsen_physical top : top <= 1 -> physical madsen top.
Proof.
  intros H. unfold physical, madsen. split; [|split].
  - intros ct Hc. assert (0 <= ct * ct) by nra. assert (0 <= ct * ct * ct) by nra. lra.
  - intros c c' (Hc & Hcc). assert (c * c <= c' * c') by nra. assert (c * c * c <= c' * c' * c') by (apply Rmult_le_compat; nra). lra.
  - intros ct Hc. assert (0 <= ct * ct <= 1) by nra. assert (ct * ct * ct <= 1) by nra. lra.
Qed.

(** Jensen *)
Lemma sq_frac R0 w : 0 < R0 -> R0 <= w -> 0 < R0 / w <= 1.
Proof.
  intros H H'. split; [apply Rdiv_lt_0_compat; lra|]. apply Rmult_le_reg_r with w; [lra|]. unfold Rdiv. rewrite Rmult_assoc, Rinv_l by lra. lra.
Qed.
Lemma jensen_bounds ct2a D k ct x r : physical ct2a ct -> 0 < D -> 0 <= k -> -1 <= jensen_deficit ct2a D k ct x r <= 0.
Proof.
  intros (P1 & P2 & P3) HD Hk. unfold jensen_deficit. cbn zeta.
  destruct (Rltb 1e-8 x) eqn:Ex; [apply Rltb_true in Ex|cbn; lra]. destruct (Rltb 1e-8 ct) eqn:Ec; [apply Rltb_true in Ec|cbn; lra].
  destruct (Rltb r (jensen_radius D k x)); cbn; [|lra]. unfold jensen_centreline, jensen_radius.
  pose proof (P1 ct ltac:(lra)). pose proof (P3 ct ltac:(lra)). assert (0 <= k * x) by nra.
  pose proof (sq_frac (D / 2) (D / 2 + k * x) ltac:(lra) ltac:(lra)) as F. set (q := D / 2 / (D / 2 + k * x)) in *. nra.
Qed.
Lemma jensen_zero ct2a D k ct x r : x <= 1e-8 \/ ct <= 1e-8 \/ jensen_radius D k x <= r -> jensen_deficit ct2a D k ct x r = 0.
Proof. intros H. unfold jensen_deficit. cbn zeta. destruct H as [H|[H|H]]; apply Rltb_false in H; rewrite H; rewrite ?andb_false_r; reflexivity. Qed.
Lemma jensen_recovers ct2a D k ct x x' : physical ct2a ct -> 0 < D -> 0 <= k -> 1e-8 < ct -> 1e-8 < x <= x' ->
  Rabs (jensen_deficit ct2a D k ct x' 0) <= Rabs (jensen_deficit ct2a D k ct x 0).
Proof.
  intros (P1 & P2 & P3) HD Hk Hc Hx. unfold jensen_deficit. cbn zeta.
  assert (W : forall y, 1e-8 < y -> Rltb 1e-8 y && Rltb 1e-8 ct && Rltb 0 (jensen_radius D k y) = true).
  { intros y Hy. rewrite (proj2 (Rltb_true 1e-8 y) Hy), (proj2 (Rltb_true 1e-8 ct) Hc). cbn. apply Rltb_true. unfold jensen_radius. nra. }
  rewrite !W by lra. unfold jensen_centreline, jensen_radius. pose proof (P1 ct ltac:(lra)) as Pa. set (a := ct2a ct) in *.
  assert (0 <= k * x <= k * x') by nra.
  pose proof (sq_frac (D / 2) (D / 2 + k * x) ltac:(lra) ltac:(lra)) as F. pose proof (sq_frac (D / 2) (D / 2 + k * x') ltac:(lra) ltac:(lra)) as F'.
  assert (Q : D / 2 / (D / 2 + k * x') <= D / 2 / (D / 2 + k * x)).
  { unfold Rdiv at 1 3. apply Rmult_le_compat_l; [lra|]. apply Rinv_le_contravar; lra. }
  set (q := D / 2 / (D / 2 + k * x)) in *. set (q' := D / 2 / (D / 2 + k * x')) in *.
  assert (0 <= q' * q' <= q * q) by nra. assert (0 <= q' * q' * a <= q * q * a) by nra.
  rewrite !Rabs_left1 by lra. lra.
Qed.

(** Gauss *)
Lemma beta_ge_1 a : 0 <= a < 1 / 2 -> 1 <= (1 - a) / (1 - 2 * a).
Proof.
  intros H. apply Rmult_le_reg_r with (1 - 2 * a); [lra|]. unfold Rdiv. rewrite Rmult_assoc, Rinv_l by lra. lra.
Qed.
Lemma gauss_sigma_pos ct2a sbeta D k ct x : physical ct2a ct -> 0 < D -> 0 <= k -> 0 < sbeta -> 0 <= ct -> 0 <= x ->
  sbeta * D <= gauss_sigma ct2a sbeta D k ct x.
Proof.
  intros (P1 & P2 & P3) HD Hk Hs Hc Hx. unfold gauss_sigma. cbn zeta.
  pose proof (beta_ge_1 (ct2a ct) (conj (P1 ct Hc) (P3 ct ltac:(lra)))) as B.
  pose proof (sqrt_le_1_alt 1 _ B) as S. rewrite sqrt_1 in S. set (q := sqrt _) in *.
  assert (0 <= k * x) by nra. assert (0 < sbeta * D) by nra. assert (0 <= (sbeta * D) * (q - 1)) by (apply Rmult_le_pos; lra). lra.
Qed.
Lemma gauss_ampl_bounds ct2a D ct sigma : (forall c, 0 <= c -> 0 <= ct2a c) -> 0 < D -> 0 <= ct -> 0 < sigma -> -1 <= gauss_ampl ct2a D ct sigma <= 0.
Proof.
  intros P HD Hc Hs. unfold gauss_ampl. cbn zeta.
  assert (0 < sigma / D) by (apply Rdiv_lt_0_compat; lra).
  assert (0 <= ct / (8 * (sigma / D * (sigma / D)))). { apply Rmult_le_pos; [lra|]. apply Rlt_le, Rinv_0_lt_compat. nra. }
  split; [apply Rmax_r|]. apply Rmax_lub; [|lra]. specialize (P _ H0). lra.
Qed.
Lemma exp_gauss_bounds z : 0 <= z -> 0 < exp (- 0.5 * z) <= 1.
Proof.
  intros H. split; [apply exp_pos|]. rewrite <- exp_0. destruct (Req_dec z 0) as [E|E]; [subst; right; f_equal; lra|].
  left. apply exp_increasing. lra.
Qed.
Lemma gauss_bounds ct2a sbeta D k ct x r : physical ct2a ct -> 0 < D -> 0 <= k -> 0 < sbeta -> -1 <= gauss_deficit ct2a sbeta D k ct x r <= 0.
Proof.
  intros P HD Hk Hs. unfold gauss_deficit. destruct (Rltb 1e-8 x) eqn:Ex; [apply Rltb_true in Ex|cbn; lra].
  destruct (Rltb 1e-8 ct) eqn:Ec; [apply Rltb_true in Ec|cbn; lra]. cbn [andb]. cbn zeta.
  pose proof (gauss_sigma_pos ct2a sbeta D k ct x P HD Hk Hs ltac:(lra) ltac:(lra)) as S. set (sg := gauss_sigma ct2a sbeta D k ct x) in *.
  assert (Hsg : 0 < sg) by nra. pose proof (gauss_ampl_bounds ct2a D ct sg (proj1 P) HD ltac:(lra) Hsg) as A.
  pose proof (exp_gauss_bounds (r / sg * (r / sg)) ltac:(nra)) as E. nra.
Qed.
Lemma gauss_radial ct2a sbeta D k ct x r r' : physical ct2a ct -> 0 < D -> 0 <= k -> 0 < sbeta -> 0 <= r <= r' ->
  gauss_deficit ct2a sbeta D k ct x r <= gauss_deficit ct2a sbeta D k ct x r'.
Proof.
  intros P HD Hk Hs Hr. unfold gauss_deficit. destruct (Rltb 1e-8 x) eqn:Ex; [apply Rltb_true in Ex|cbn; lra].
  destruct (Rltb 1e-8 ct) eqn:Ec; [apply Rltb_true in Ec|cbn; lra]. cbn [andb]. cbn zeta.
  pose proof (gauss_sigma_pos ct2a sbeta D k ct x P HD Hk Hs ltac:(lra) ltac:(lra)) as S. set (sg := gauss_sigma ct2a sbeta D k ct x) in *.
  assert (Hsg : 0 < sg) by nra. pose proof (gauss_ampl_bounds ct2a D ct sg (proj1 P) HD ltac:(lra) Hsg) as A.
  assert (Q : 0 <= r / sg <= r' / sg). { unfold Rdiv. pose proof (Rinv_0_lt_compat sg Hsg). nra. }
  assert (E : exp (- 0.5 * (r' / sg * (r' / sg))) <= exp (- 0.5 * (r / sg * (r / sg)))).
  { destruct (Req_dec (r / sg) (r' / sg)) as [E|E]; [rewrite E; lra|]. left. apply exp_increasing. nra. }
  nra.
Qed.
Lemma gauss_recovers ct2a sbeta D k ct x x' : physical ct2a ct -> 0 < D -> 0 <= k -> 0 < sbeta -> 1e-8 < ct -> 1e-8 < x <= x' ->
  gauss_deficit ct2a sbeta D k ct x 0 <= gauss_deficit ct2a sbeta D k ct x' 0.
Proof.
  intros P HD Hk Hs Hc Hx. unfold gauss_deficit.
  assert (W : forall y, 1e-8 < y -> Rltb 1e-8 y && Rltb 1e-8 ct = true).
  { intros y Hy. rewrite (proj2 (Rltb_true 1e-8 y) Hy), (proj2 (Rltb_true 1e-8 ct) Hc). reflexivity. }
  rewrite !W by lra. cbn zeta.
  pose proof (gauss_sigma_pos ct2a sbeta D k ct x P HD Hk Hs ltac:(lra) ltac:(lra)) as S.
  assert (SS : gauss_sigma ct2a sbeta D k ct x <= gauss_sigma ct2a sbeta D k ct x') by (unfold gauss_sigma; cbn zeta; nra).
  set (sg := gauss_sigma ct2a sbeta D k ct x) in *. set (sg' := gauss_sigma ct2a sbeta D k ct x') in *. assert (Hsg : 0 < sg) by nra.
  assert (Z : forall s, 0 / s * (0 / s) = 0) by (intros; unfold Rdiv; ring). rewrite !Z, Rmult_0_r, exp_0, !Rmult_1_r.
  unfold gauss_ampl. cbn zeta. apply Rle_max_compat_r. destruct P as (P1 & P2 & P3).
  assert (Q : 0 < sg / D <= sg' / D). { split; [apply Rdiv_lt_0_compat; lra|]. unfold Rdiv. pose proof (Rinv_0_lt_compat D HD). nra. }
  assert (ct2a (ct / (8 * (sg' / D * (sg' / D)))) <= ct2a (ct / (8 * (sg / D * (sg / D))))); [|lra].
  apply P2. split.
  - apply Rmult_le_pos; [lra|]. apply Rlt_le, Rinv_0_lt_compat. nra.
  - unfold Rdiv at 1 4. apply Rmult_le_compat_l; [lra|]. apply Rinv_le_contravar; nra.
Qed.
Lemma gauss_zero ct2a sbeta D k ct x r : x <= 1e-8 \/ ct <= 1e-8 -> gauss_deficit ct2a sbeta D k ct x r = 0.
Proof. intros [H|H]; apply Rltb_false in H; unfold gauss_deficit; rewrite H, ?andb_false_r; reflexivity. Qed.
Lemma jensen_formula ct2a D k ct x r : 1e-8 < x -> 1e-8 < ct -> r < D / 2 + k * x ->
  jensen_deficit ct2a D k ct x r = - 2 * ct2a ct * ((D / 2) / (D / 2 + k * x) * ((D / 2) / (D / 2 + k * x))).
Proof.
  intros Hx Hc Hr. unfold jensen_deficit, jensen_centreline, jensen_radius. cbn zeta.
  rewrite (proj2 (Rltb_true _ _) Hx), (proj2 (Rltb_true _ _) Hc), (proj2 (Rltb_true _ _) Hr). cbn [andb]. ring.
Qed.
Lemma betz_pos cm ct : 0 < cm -> cm <= 1 -> 0 < ct -> 0 < betz cm ct.
Proof.
  intros H H1 Hc. unfold betz. assert (0 < Rmin ct cm) by (apply Rmin_glb_lt; assumption). pose proof (Rmin_r ct cm).
  assert (sqrt (1 - Rmin ct cm) < 1). { rewrite <- sqrt_1 at 2. apply sqrt_lt_1; lra. } lra.
Qed.
Lemma gauss_neg ct2a sbeta D k ct x r : physical ct2a ct -> (forall c, 0 < c -> 0 < ct2a c) ->
  0 < D -> 0 <= k -> 0 < sbeta -> 1e-8 < ct -> 1e-8 < x -> gauss_deficit ct2a sbeta D k ct x r < 0.
Proof.
  intros P Pp HD Hk Hs Hc Hx. unfold gauss_deficit. rewrite (proj2 (Rltb_true _ _) Hx), (proj2 (Rltb_true _ _) Hc). cbn [andb]. cbn zeta.
  pose proof (gauss_sigma_pos ct2a sbeta D k ct x P HD Hk Hs ltac:(lra) ltac:(lra)) as S. set (sg := gauss_sigma ct2a sbeta D k ct x) in *.
  assert (Hsg : 0 < sg) by nra. pose proof (exp_pos (- 0.5 * (r / sg * (r / sg)))) as E. set (e := exp _) in *.
  assert (A : gauss_ampl ct2a D ct sg < 0).
  { unfold gauss_ampl. cbn zeta. assert (0 < sg / D) by (apply Rdiv_lt_0_compat; lra).
    assert (0 < ct / (8 * (sg / D * (sg / D)))) by (apply Rdiv_lt_0_compat; nra). specialize (Pp _ H0). apply Rmax_lub_lt; lra. }
  nra.
Qed.
