(** Proofs for Blockage_Model. *)
From Coq Require Import Rpower Reals.
From Flocq Require Import Core.
From Verif Require Import RBase Blockage_Model.
Local Open Scope R_scope.

(* ---- rounding ---- *)
Definition e12 : R := 1000000000000.
Lemma round12_le x y : x <= y -> round12 x <= round12 y.
Proof. intros H. unfold round12. apply Rmult_le_compat_r; [lra|]. apply IZR_le. apply (@Zrnd_le ZnearestE (valid_rnd_N _)). lra. Qed.
Lemma round12_0 : round12 0 = 0.
Proof. unfold round12. rewrite Rmult_0_l. replace (ZnearestE 0) with 0%Z; [lra|]. symmetry. exact (@Zrnd_IZR ZnearestE (valid_rnd_N _) 0). Qed.
Lemma round12_nonpos x : x <= 0 -> round12 x <= 0.
Proof. intros H. rewrite <- round12_0. now apply round12_le. Qed.
Lemma round12_opp x : round12 (- x) = - round12 x.
Proof.
  unfold round12. replace (- x * 1000000000000) with (- (x * 1000000000000)) by ring. rewrite Znearest_opp.
  rewrite opp_IZR. replace (Znearest (fun t => negb (negb (Z.even (- (t + 1))))) (x * 1000000000000)) with (ZnearestE (x * 1000000000000)); [lra|].
  unfold Znearest. destruct (Rcompare _ _); try reflexivity. rewrite negb_involutive, Z.even_opp, Z.add_1_r, Z.even_succ, <- Z.negb_even. reflexivity.
Qed.
Lemma round12_err x : Rabs (x - round12 x) <= 5e-13.
Proof.
  unfold round12. pose proof (Znearest_half (fun t => negb (Z.even t)) (x * 1000000000000)) as H.
  set (z := IZR (ZnearestE (x * 1000000000000))) in *. apply Rabs_le_inv in H. apply Rabs_le. lra.
Qed.
Lemma round12_int (n : Z) : round12 (IZR n) = IZR n.
Proof.
  unfold round12. replace (IZR n * 1000000000000) with (IZR (n * 1000000000000)) by (rewrite mult_IZR; reflexivity).
  rewrite (@Zrnd_IZR ZnearestE (valid_rnd_N _)). rewrite mult_IZR. field.
Qed.

(* ---- block_delta ---- *)
Lemma bd_front pre ct x s f b : 1e-8 < ct -> x <= 0 -> block_delta pre ct x s f b = - f.
Proof. intros A B. unfold block_delta. rewrite (proj2 (Rltb_true _ _) A), (proj2 (Rleb_true _ _) B). reflexivity. Qed.
Lemma bd_back ct x f b : 1e-8 < ct -> 0 < x -> block_delta false ct x true f b = b.
Proof. intros A B. unfold block_delta. rewrite (proj2 (Rltb_true _ _) A), (proj2 (Rleb_false _ _) B), (proj2 (Rltb_true _ _) B). reflexivity. Qed.
Lemma bd_zero pre ct x s f b : ct <= 1e-8 \/ (0 < x /\ (s = false \/ pre = true)) -> block_delta pre ct x s f b = 0.
Proof.
  unfold block_delta. intros [A|[A B]].
  - rewrite (proj2 (Rltb_false _ _) A). cbn. now rewrite andb_false_r.
  - rewrite (proj2 (Rleb_false _ _) A), andb_false_r. destruct B as [->| ->]; rewrite ?andb_false_r; reflexivity.
Qed.
(** the three cases *)
Lemma bd_cases pre ct x s f b (P : R -> Prop) : P 0 -> (1e-8 < ct -> x <= 0 -> P (- f)) -> (1e-8 < ct -> 0 < x -> pre = false -> s = true -> P b) ->
  P (block_delta pre ct x s f b).
Proof.
  intros H0 H1 H2. destruct (Rlt_le_dec 1e-8 ct) as [A|A]; [|rewrite bd_zero by auto; exact H0].
  destruct (Rle_lt_dec x 0) as [B|B]; [rewrite bd_front by assumption; auto|].
  destruct pre; [rewrite bd_zero by (right; auto); exact H0|]. destruct s; [|rewrite bd_zero by (right; auto); exact H0].
  rewrite bd_back by assumption. auto.
Qed.

(* ---- vortex sheet ---- *)
Lemma frac_sqrt_bounds q : 0 <= q -> 0 <= q / sqrt (1 + q * q) < 1.
Proof.
  intros H. assert (S : q < sqrt (1 + q * q)). { rewrite <- (sqrt_square q) at 1 by exact H. apply sqrt_lt_1; nra. }
  assert (P : 0 < sqrt (1 + q * q)) by lra. split.
  - apply Rmult_le_pos; [exact H|]. left. now apply Rinv_0_lt_compat.
  - apply (Rmult_lt_reg_r (sqrt (1 + q * q))); [exact P|]. unfold Rdiv. rewrite Rmult_assoc, Rinv_l by lra. lra.
Qed.
Lemma frac_sqrt_mono q q' : 0 <= q <= q' -> q / sqrt (1 + q * q) <= q' / sqrt (1 + q' * q').
Proof.
  intros H. assert (A : forall z, 0 <= z -> 0 < sqrt (1 + z * z)) by (intros; apply sqrt_lt_R0; nra).
  pose proof (A q ltac:(lra)) as P. pose proof (A q' ltac:(lra)) as P'.
  apply (Rmult_le_reg_r (sqrt (1 + q * q) * sqrt (1 + q' * q'))); [now apply Rmult_lt_0_compat|].
  replace (q / sqrt (1 + q * q) * (sqrt (1 + q * q) * sqrt (1 + q' * q'))) with (q * sqrt (1 + q' * q')) by (field; lra).
  replace (q' / sqrt (1 + q' * q') * (sqrt (1 + q * q) * sqrt (1 + q' * q'))) with (q' * sqrt (1 + q * q)) by (field; lra).
  apply Rle_trans with (sqrt (q * q * (1 + q' * q'))); [right; rewrite sqrt_mult by nra; rewrite sqrt_square by lra; reflexivity|].
  apply Rle_trans with (sqrt (q' * q' * (1 + q * q))); [|right; rewrite sqrt_mult by nra; rewrite sqrt_square by lra; reflexivity].
  apply sqrt_le_1; nra.
Qed.
Lemma vs_block_eq a q : vs_block a q = a * (1 - q / sqrt (1 + q * q)).
Proof. unfold vs_block. unfold Rdiv. ring. Qed.
Lemma vs_block_bounds a q : 0 <= a -> 0 <= q -> 0 <= vs_block a q <= a.
Proof. intros Ha Hq. rewrite vs_block_eq. pose proof (frac_sqrt_bounds q Hq). nra. Qed.
Lemma vs_block_mono a q q' : 0 <= a -> 0 <= q <= q' -> vs_block a q' <= vs_block a q.
Proof. intros Ha Hq. rewrite !vs_block_eq. pose proof (frac_sqrt_mono q q' Hq). nra. Qed.
Lemma vs_block_decay a q : 0 <= a -> 0 < q -> vs_block a q <= a / (2 * (q * q)).
Proof.
  intros Ha Hq. rewrite vs_block_eq. assert (P : 0 < sqrt (1 + q * q)) by (apply sqrt_lt_R0; nra).
  assert (S : sqrt (1 + q * q) <= q + 1 / (2 * q)).
  { rewrite <- (sqrt_square (q + 1 / (2 * q))) by (assert (0 < 1 / (2 * q)) by (apply Rdiv_lt_0_compat; lra); lra). apply sqrt_le_1_alt.
    replace ((q + 1 / (2 * q)) * (q + 1 / (2 * q))) with (1 + q * q + 1 / (2 * q) * (1 / (2 * q))) by (field; lra). nra. }
  assert (G : q < sqrt (1 + q * q)). { pose proof (frac_sqrt_bounds q ltac:(lra)) as [_ B]. apply (Rmult_lt_compat_r _ _ _ P) in B. unfold Rdiv in B. rewrite Rmult_assoc, Rinv_l in B by lra. lra. }
  assert (Q : 1 - q / sqrt (1 + q * q) <= 1 / (2 * (q * q))).
  { replace (1 - q / sqrt (1 + q * q)) with ((sqrt (1 + q * q) - q) / sqrt (1 + q * q)) by (field; lra).
    apply Rle_trans with ((1 / (2 * q)) / q); [|right; field; lra]. unfold Rdiv at 1 2.
    apply Rmult_le_compat; [lra|left; now apply Rinv_0_lt_compat|lra|]. apply Rinv_le_contravar; lra. }
  replace (a / (2 * (q * q))) with (a * (1 / (2 * (q * q)))) by (field; lra). now apply Rmult_le_compat_l.
Qed.
Lemma div_nonneg a b : 0 <= a -> 0 < b -> 0 <= a / b.
Proof. intros. apply Rmult_le_pos; [assumption|]. left. now apply Rinv_0_lt_compat. Qed.
Lemma vs_bounds ct2a pre D ct wx wy wz : (forall c, 0 <= c -> 0 <= ct2a c) -> 0 < D -> 0 <= ct -> Rabs (vortex_sheet ct2a pre D ct wx wy wz) <= ct2a ct.
Proof.
  intros Ha HD Hc. unfold vortex_sheet. cbn zeta. set (q := _ / (D / 2)).
  assert (Hq : 0 <= q) by (apply div_nonneg; [apply sqrt_pos|lra]). pose proof (vs_block_bounds (ct2a ct) q (Ha ct Hc) Hq) as B.
  apply bd_cases; intros; apply Rabs_le; lra.
Qed.
Lemma vs_sign_front ct2a pre D ct wx wy wz : (forall c, 0 <= c -> 0 <= ct2a c) -> 0 < D -> 0 <= ct -> wx <= 0 -> vortex_sheet ct2a pre D ct wx wy wz <= 0.
Proof.
  intros Ha HD Hc Hx. unfold vortex_sheet. cbn zeta. set (q := _ / (D / 2)).
  assert (Hq : 0 <= q) by (apply div_nonneg; [apply sqrt_pos|lra]). pose proof (vs_block_bounds (ct2a ct) q (Ha ct Hc) Hq) as B.
  pose proof (round12_nonpos wx Hx). apply bd_cases; intros; lra.
Qed.
Lemma sph_mono r x x' : round12 x <= round12 x' <= 0 -> sqrt (r * r + round12 x' * round12 x') <= sqrt (r * r + round12 x * round12 x).
Proof. intros H. apply sqrt_le_1_alt. nra. Qed.
Lemma vs_grows ct2a pre D ct wx wx' wy wz : (forall c, 0 <= c -> 0 <= ct2a c) -> 0 < D -> 0 <= ct -> wx <= wx' <= 0 ->
  vortex_sheet ct2a pre D ct wx' wy wz <= vortex_sheet ct2a pre D ct wx wy wz.
Proof.
  intros Ha HD Hc Hx. pose proof (round12_nonpos wx' ltac:(lra)) as N. pose proof (round12_le wx wx' ltac:(lra)) as L. unfold vortex_sheet. cbn zeta.
  destruct (Rlt_le_dec 1e-8 ct) as [A|A]; [|rewrite !bd_zero by auto; lra]. rewrite !bd_front by (assumption || lra). apply Ropp_le_contravar.
  apply vs_block_mono; [auto|]. split; [apply div_nonneg; [apply sqrt_pos|lra]|]. apply Rmult_le_compat_r; [left; apply Rinv_0_lt_compat; lra|].
  apply sph_mono. lra.
Qed.
Lemma vs_mirror ct2a D ct wx wy wz : 0 < round12 wx -> D / 2 < sqrt (wy * wy + wz * wz) ->
  vortex_sheet ct2a false D ct wx wy wz = - vortex_sheet ct2a false D ct (- wx) wy wz.
Proof.
  intros Hx Hr. unfold vortex_sheet. cbn zeta. rewrite !round12_opp. rewrite (proj2 (Rltb_true _ _) Hr).
  destruct (Rlt_le_dec 1e-8 ct) as [A|A]; [|rewrite !bd_zero by auto; lra]. rewrite bd_back, bd_front by (assumption || lra).
  rewrite Ropp_involutive. f_equal. f_equal. f_equal. ring.
Qed.
Lemma vs_behind ct2a pre D ct wx wy wz : 0 < round12 wx -> sqrt (wy * wy + wz * wz) <= D / 2 \/ pre = true -> vortex_sheet ct2a pre D ct wx wy wz = 0.
Proof. intros Hx H. unfold vortex_sheet. cbn zeta. apply bd_zero. right. split; [exact Hx|]. destruct H as [H|H]; [left; now apply Rltb_false|now right]. Qed.
Lemma vs_centre ct2a pre D ct : 1e-8 < ct -> vortex_sheet ct2a pre D ct 0 0 0 = - ct2a ct.
Proof.
  intros Hc. unfold vortex_sheet. cbn zeta. rewrite round12_0. rewrite bd_front by lra. f_equal. rewrite vs_block_eq.
  replace (0 * 0 + 0 * 0) with 0 by ring. rewrite sqrt_0. replace (0 * 0 + 0 * 0) with 0 by ring. rewrite sqrt_0. unfold Rdiv. ring.
Qed.
Lemma vs_far ct2a pre D ct wx wy wz : (forall c, 0 <= c -> 0 <= ct2a c) -> 0 < D -> 0 <= ct ->
  let rho := sqrt (wy * wy + wz * wz + round12 wx * round12 wx) in
  0 < rho -> Rabs (vortex_sheet ct2a pre D ct wx wy wz) <= ct2a ct * ((D / 2 / rho) * (D / 2 / rho)) / 2.
Proof.
  intros Ha HD Hc rho Hr. unfold vortex_sheet. cbn zeta. rewrite sqrt_sqrt by nra. fold rho. set (q := rho / (D / 2)).
  assert (Hq : 0 < q) by (apply Rdiv_lt_0_compat; lra). pose proof (vs_block_bounds (ct2a ct) q (Ha ct Hc) ltac:(lra)) as B.
  pose proof (vs_block_decay (ct2a ct) q (Ha ct Hc) Hq) as E. replace (ct2a ct / (2 * (q * q))) with (ct2a ct * (D / 2 / rho * (D / 2 / rho)) / 2) in E by (unfold q; field; lra).
  apply bd_cases; intros; apply Rabs_le; lra.
Qed.

(* ---- self similar ---- *)
Lemma mu_bounds x : x <= 0 -> 0 < ss_mu x <= 1.
Proof.
  intros H. unfold ss_mu. pose proof (frac_sqrt_bounds (- x) ltac:(lra)) as B. replace (- x * - x) with (x * x) in B by ring.
  unfold Rdiv in *. rewrite Ropp_mult_distr_l_reverse in B. lra.
Qed.
Lemma mu_mono x x' : x <= x' <= 0 -> ss_mu x <= ss_mu x'.
Proof.
  intros H. unfold ss_mu. pose proof (frac_sqrt_mono (- x') (- x) ltac:(lra)) as B. replace (- x * - x) with (x * x) in B by ring. replace (- x' * - x') with (x' * x') in B by ring.
  unfold Rdiv in *. rewrite !Ropp_mult_distr_l_reverse in B. lra.
Qed.
Lemma cosh_ge_1 z : 1 <= cosh z.
Proof.
  unfold cosh. rewrite exp_Ropp. pose proof (exp_pos z) as P. set (e := exp z) in *.
  assert (2 <= e + / e); [|lra]. apply (Rmult_le_reg_r e); [exact P|]. rewrite Rmult_plus_distr_r, Rinv_l by lra. pose proof (Rle_0_sqr (e - 1)) as Q. unfold Rsqr in Q. lra.
Qed.
Lemma cosh_mono z z' : 0 <= z <= z' -> cosh z <= cosh z'.
Proof.
  intros H. unfold cosh. rewrite !exp_Ropp. assert (E0 : 1 <= exp z). { rewrite <- exp_0. destruct (Req_dec z 0) as [->|]; [lra|]. left. apply exp_increasing. lra. }
  assert (E : exp z <= exp z'). { destruct (Req_dec z z') as [->|]; [lra|]. left. apply exp_increasing. lra. }
  set (a := exp z) in *. set (b := exp z') in *.
  apply (Rmult_le_reg_r (a * b * 2)); [nra|].
  replace ((a + / a) / 2 * (a * b * 2)) with (a * a * b + b) by (field; lra). replace ((b + / b) / 2 * (a * b * 2)) with (b * b * a + a) by (field; lra).
  replace (b * b * a + a) with (a * a * b + b + (b - a) * (a * b - 1)) by ring. assert (0 <= (b - a) * (a * b - 1)) by (apply Rmult_le_pos; nra). lra.
Qed.
Lemma rpow_le_base a b e : 0 < a <= b -> 0 < e -> Rpower a e <= Rpower b e.
Proof. intros H He. destruct (Req_dec a b) as [->|]; [lra|]. unfold Rpower. left. apply exp_increasing. pose proof (ln_increasing a b ltac:(lra) ltac:(lra)). nra. Qed.
Lemma rpow_one e : Rpower 1 e = 1.
Proof. unfold Rpower. rewrite ln_1, Rmult_0_r. apply exp_0. Qed.
Lemma rad_bounds h q : 0 < ss_rad h q <= 1.
Proof.
  unfold ss_rad. split; [unfold Rpower; apply exp_pos|]. pose proof (cosh_ge_1 (sqrt 2 * q / h)) as C.
  rewrite <- (rpow_one (8 / 9)) at 2. apply rpow_le_base; [|lra]. split; [apply Rdiv_lt_0_compat; lra|].
  apply (Rmult_le_reg_r (cosh (sqrt 2 * q / h))); [lra|]. unfold Rdiv. rewrite Rmult_assoc, Rinv_l by lra. lra.
Qed.
Lemma rad_mono h q q' : 0 < h -> 0 <= q <= q' -> ss_rad h q' <= ss_rad h q.
Proof.
  intros Hh Hq. unfold ss_rad. apply rpow_le_base; [|lra]. pose proof (cosh_ge_1 (sqrt 2 * q / h)) as C. pose proof (cosh_ge_1 (sqrt 2 * q' / h)) as C'.
  split; [apply Rdiv_lt_0_compat; lra|]. apply Rmult_le_compat_l; [lra|]. apply Rinv_le_contravar; [lra|]. apply cosh_mono.
  assert (0 < sqrt 2) by (apply sqrt_lt_R0; lra). split; [apply div_nonneg; [nra|exact Hh]|]. apply Rmult_le_compat_r; [left; now apply Rinv_0_lt_compat|nra].
Qed.
Lemma rad_axis h : ss_rad h 0 = 1.
Proof. unfold ss_rad. replace (sqrt 2 * 0 / h) with 0 by (unfold Rdiv; ring). rewrite cosh_0. replace (1 / 1) with 1 by field. apply rpow_one. Qed.
Lemma r_half_pos x : 0 < ss_r_half x.
Proof. unfold ss_r_half. apply sqrt_lt_R0. nra. Qed.
Lemma r_half20_pos x : x <= 0 -> 0 < ss20_r_half x.
Proof. intros H. unfold ss20_r_half. lra. Qed.
(** a generic product amplitude * mu * radial *)
Lemma prod_bounds a m g : 0 <= a -> 0 < m <= 1 -> 0 < g <= 1 -> 0 <= a * m * g <= a.
Proof.
  intros Ha Hm Hg. split; [apply Rmult_le_pos; [apply Rmult_le_pos|]; lra|]. assert (a * m <= a) by nra. assert (0 <= a * m) by nra. nra.
Qed.
Lemma ss_block_bounds ct2a gamma ct x q : (forall c, 0 <= c -> 0 <= ct2a c) -> 0 <= gamma * ct -> x <= 0 -> 0 <= ss_block ct2a gamma ct x q <= ct2a (gamma * ct).
Proof. intros Ha Hg Hx. apply prod_bounds; [now apply Ha|now apply mu_bounds|apply rad_bounds]. Qed.
Lemma ss_bounds ct2a gamma pre R0 ct wx wy wz : (forall c, 0 <= c -> 0 <= ct2a c) -> 0 <= gamma * ct ->
  Rabs (self_similar ct2a gamma pre R0 ct wx wy wz) <= ct2a (gamma * ct).
Proof.
  intros Ha Hg. unfold self_similar. cbn zeta. set (x := round12 (wx / R0)). set (q := sqrt _ / R0).
  pose proof (Ha _ Hg). apply bd_cases; intros; apply Rabs_le; [lra| |].
  - pose proof (ss_block_bounds ct2a gamma ct x q Ha Hg ltac:(lra)). lra.
  - pose proof (ss_block_bounds ct2a gamma ct (- x) q Ha Hg ltac:(lra)). lra.
Qed.
Lemma mirror_gen (blk : R -> R -> R) R0 ct wx wy wz : 0 < round12 (wx / R0) -> 1 < sqrt (wy * wy + wz * wz) / R0 ->
  let f w := let x_R := round12 (w / R0) in let r_R := sqrt (wy * wy + wz * wz) / R0 in block_delta false ct x_R (Rltb 1 r_R) (blk x_R r_R) (blk (- x_R) r_R) in
  f wx = - f (- wx).
Proof.
  intros Hx Hr f. unfold f. cbn zeta. replace (- wx / R0) with (- (wx / R0)) by (unfold Rdiv; ring). rewrite round12_opp. rewrite (proj2 (Rltb_true _ _) Hr).
  destruct (Rlt_le_dec 1e-8 ct) as [A|A]; [|rewrite !bd_zero by auto; lra]. rewrite bd_back, bd_front by (assumption || lra). ring.
Qed.
Lemma ss_mirror ct2a gamma R0 ct wx wy wz : 0 < round12 (wx / R0) -> 1 < sqrt (wy * wy + wz * wz) / R0 ->
  self_similar ct2a gamma false R0 ct wx wy wz = - self_similar ct2a gamma false R0 ct (- wx) wy wz.
Proof. exact (mirror_gen (ss_block ct2a gamma ct) R0 ct wx wy wz). Qed.
Lemma ss20_mirror ct2a R0 ct wx wy wz : 0 < round12 (wx / R0) -> 1 < sqrt (wy * wy + wz * wz) / R0 ->
  self_similar2020 ct2a false R0 ct wx wy wz = - self_similar2020 ct2a false R0 ct (- wx) wy wz.
Proof. exact (mirror_gen (ss20_block ct2a ct) R0 ct wx wy wz). Qed.
Lemma rath_mirror ct2a R0 ct wx wy wz : 0 < round12 (wx / R0) -> 1 < sqrt (wy * wy + wz * wz) / R0 ->
  rathmann ct2a false R0 ct wx wy wz = - rathmann ct2a false R0 ct (- wx) wy wz.
Proof. exact (mirror_gen (rath_block ct2a ct) R0 ct wx wy wz). Qed.
Lemma ss_behind ct2a gamma pre R0 ct wx wy wz : 0 < round12 (wx / R0) -> sqrt (wy * wy + wz * wz) / R0 <= 1 \/ pre = true -> self_similar ct2a gamma pre R0 ct wx wy wz = 0.
Proof. intros Hx H. unfold self_similar. cbn zeta. apply bd_zero. right. split; [exact Hx|]. destruct H as [H|H]; [left; now apply Rltb_false|now right]. Qed.
Lemma ss20_behind ct2a pre R0 ct wx wy wz : 0 < round12 (wx / R0) -> sqrt (wy * wy + wz * wz) / R0 <= 1 \/ pre = true -> self_similar2020 ct2a pre R0 ct wx wy wz = 0.
Proof. intros Hx H. unfold self_similar2020. cbn zeta. apply bd_zero. right. split; [exact Hx|]. destruct H as [H|H]; [left; now apply Rltb_false|now right]. Qed.
Lemma div_mono a b c : 0 < c -> a <= b -> a / c <= b / c.
Proof. intros Hc H. apply Rmult_le_compat_r; [left; now apply Rinv_0_lt_compat|exact H]. Qed.
Lemma div_nonpos a c : 0 < c -> a <= 0 -> a / c <= 0.
Proof. intros Hc H. replace 0 with (0 / c) by (unfold Rdiv; ring). now apply div_mono. Qed.
Lemma axis_r R0 : sqrt (0 * 0 + 0 * 0) / R0 = 0.
Proof. replace (0 * 0 + 0 * 0) with 0 by ring. rewrite sqrt_0. unfold Rdiv. ring. Qed.
Lemma ss_axis_grows ct2a gamma pre R0 ct wx wx' : (forall c, 0 <= c -> 0 <= ct2a c) -> 0 < R0 -> 0 <= gamma * ct -> wx <= wx' <= 0 ->
  self_similar ct2a gamma pre R0 ct wx' 0 0 <= self_similar ct2a gamma pre R0 ct wx 0 0.
Proof.
  intros Ha HR Hg Hx. pose proof (round12_nonpos (wx' / R0) (div_nonpos wx' R0 HR (proj2 Hx))) as N.
  pose proof (round12_le (wx / R0) (wx' / R0) (div_mono wx wx' R0 HR (proj1 Hx))) as L. unfold self_similar. cbn zeta. rewrite !axis_r.
  destruct (Rlt_le_dec 1e-8 ct) as [A|A]; [|rewrite !bd_zero by auto; lra]. rewrite !bd_front by (assumption || lra). apply Ropp_le_contravar.
  unfold ss_block. rewrite !rad_axis, !Rmult_1_r. apply Rmult_le_compat_l; [now apply Ha|]. apply mu_mono. lra.
Qed.
Lemma norm_mono wy wz wy' wz' R0 : 0 < R0 -> wy * wy + wz * wz <= wy' * wy' + wz' * wz' -> 0 <= sqrt (wy * wy + wz * wz) / R0 <= sqrt (wy' * wy' + wz' * wz') / R0.
Proof. intros HR H. split; [apply div_nonneg; [apply sqrt_pos|exact HR]|]. apply div_mono; [exact HR|]. now apply sqrt_le_1_alt. Qed.
Lemma ss_radial ct2a gamma pre R0 ct wx wy wz wy' wz' : (forall c, 0 <= c -> 0 <= ct2a c) -> 0 < R0 -> 0 <= gamma * ct -> wx <= 0 -> wy * wy + wz * wz <= wy' * wy' + wz' * wz' ->
  self_similar ct2a gamma pre R0 ct wx wy wz <= self_similar ct2a gamma pre R0 ct wx wy' wz' <= 0.
Proof.
  intros Ha HR Hg Hx Hr. pose proof (round12_nonpos (wx / R0) (div_nonpos _ _ HR Hx)) as N. unfold self_similar. cbn zeta.
  destruct (Rlt_le_dec 1e-8 ct) as [A|A]; [|rewrite !bd_zero by auto; lra]. rewrite !bd_front by (assumption || lra).
  set (x := round12 (wx / R0)) in *. pose proof (norm_mono wy wz wy' wz' R0 HR Hr) as Q. split.
  - apply Ropp_le_contravar. unfold ss_block. apply Rmult_le_compat_l.
    + apply Rmult_le_pos; [now apply Ha|]. pose proof (mu_bounds x N). lra.
    + apply rad_mono; [apply r_half_pos|exact Q].
  - pose proof (ss_block_bounds ct2a gamma ct x (sqrt (wy' * wy' + wz' * wz') / R0) Ha Hg N). lra.
Qed.
Lemma mu_0 : ss_mu 0 = 1.
Proof. unfold ss_mu, Rdiv. ring. Qed.
Lemma ss_centre ct2a gamma pre R0 ct : 1e-8 < ct -> self_similar ct2a gamma pre R0 ct 0 0 0 = - ct2a (gamma * ct).
Proof.
  intros Hc. unfold self_similar. cbn zeta. replace (0 / R0) with 0 by (unfold Rdiv; ring). rewrite round12_0, axis_r, bd_front by lra.
  unfold ss_block. rewrite mu_0, rad_axis. ring.
Qed.

(* ---- self similar 2020 ---- *)
Lemma mu_lt x x' : x < x' <= 0 -> ss_mu x < ss_mu x'.
Proof.
  intros H. pose proof (mu_mono x x' ltac:(lra)) as M. destruct (Req_dec (ss_mu x) (ss_mu x')) as [E|E]; [|lra]. exfalso.
  unfold ss_mu in E. assert (Q : x / sqrt (1 + x * x) = x' / sqrt (1 + x' * x')) by lra.
  assert (A : forall z, 0 < sqrt (1 + z * z)) by (intros; apply sqrt_lt_R0; nra). pose proof (A x) as P. pose proof (A x') as P'.
  assert (Q2 : x * sqrt (1 + x' * x') = x' * sqrt (1 + x * x)).
  { transitivity (x / sqrt (1 + x * x) * (sqrt (1 + x * x) * sqrt (1 + x' * x'))); [field; lra|]. rewrite Q. field. lra. }
  assert (Q3 : (x * sqrt (1 + x' * x')) * (x * sqrt (1 + x' * x')) = (x' * sqrt (1 + x * x)) * (x' * sqrt (1 + x * x))) by (rewrite Q2; reflexivity).
  replace ((x * sqrt (1 + x' * x')) * (x * sqrt (1 + x' * x'))) with (x * x * (sqrt (1 + x' * x') * sqrt (1 + x' * x'))) in Q3 by ring.
  replace ((x' * sqrt (1 + x * x)) * (x' * sqrt (1 + x * x))) with (x' * x' * (sqrt (1 + x * x) * sqrt (1 + x * x))) in Q3 by ring.
  rewrite !sqrt_sqrt in Q3 by nra. nra.
Qed.
Lemma ss20_gamma_bounds ct x : 0 <= ct <= 1 -> 1 <= ss20_gamma ct x <= 1.4.
Proof.
  intros Hc. unfold ss20_gamma. cbn zeta. set (xn := Rmin (Rmax (-1 * Rabs x) (-6)) (-1)).
  assert (X : -6 <= xn <= -1). { unfold xn. split; [apply Rmin_glb; [apply Rmax_r|lra]|apply Rmin_r]. }
  pose proof (mu_lt (-6) (-1) ltac:(lra)) as M. pose proof (mu_mono (-6) xn ltac:(lra)) as M1. pose proof (mu_mono xn (-1) ltac:(lra)) as M2.
  set (c := (ss_mu xn - ss_mu (-1)) / (ss_mu (-6) - ss_mu (-1))).
  assert (C : 0 <= c <= 1).
  { unfold c. replace ((ss_mu xn - ss_mu (-1)) / (ss_mu (-6) - ss_mu (-1))) with ((ss_mu (-1) - ss_mu xn) / (ss_mu (-1) - ss_mu (-6))) by (field; lra).
    split; [apply div_nonneg; lra|]. apply (Rmult_le_reg_r (ss_mu (-1) - ss_mu (-6))); [lra|]. unfold Rdiv. rewrite Rmult_assoc, Rinv_l by lra. lra. }
  pose proof (SIN_bound ((ct - 0.4911) / 0.1577)) as S. set (s := sin ((ct - 0.4911) / 0.1577)) in *.
  set (fg := -0.06489 * s + 1.116). assert (F : 1 <= fg <= 1.4) by (unfold fg; lra).
  set (ng := -1.381 * (ct * ct * ct) + 2.627 * (ct * ct) + -1.524 * ct + 1.336).
  assert (G : 1 <= ng <= 1.4).
  { unfold ng. split.
    - assert (Q : 0 <= (ct - 0.447) * (ct - 0.447) * (1.3924 - 1.381 * ct)) by (apply Rmult_le_pos; [apply Rle_0_sqr|lra]). assert (ct * ct <= 1) by nra. lra.
    - assert (0 <= ct * (1 - ct)) by nra. assert (0 <= ct * (1 - ct) * ct) by nra. nra. }
  nra.
Qed.
Lemma ss20_block_bounds ct2a ct x q : (forall c, 0 <= c -> 0 <= ct2a c < 1 / 2) -> 0 <= ct <= 1 -> x <= 0 -> 0 <= ss20_block ct2a ct x q < 1 / 2.
Proof.
  intros Ha Hc Hx. pose proof (ss20_gamma_bounds ct x Hc) as G. destruct (Ha (ss20_gamma ct x * ct) ltac:(nra)) as [A1 A2].
  pose proof (prod_bounds _ _ _ A1 (mu_bounds x Hx) (rad_bounds (ss20_r_half x) q)). unfold ss20_block. lra.
Qed.
Lemma ss20_bounds ct2a pre R0 ct wx wy wz : (forall c, 0 <= c -> 0 <= ct2a c < 1 / 2) -> 0 <= ct <= 1 -> Rabs (self_similar2020 ct2a pre R0 ct wx wy wz) < 1 / 2.
Proof.
  intros Ha Hc. unfold self_similar2020. cbn zeta. set (x := round12 (wx / R0)). set (q := sqrt _ / R0). apply bd_cases; intros.
  - rewrite Rabs_R0. lra.
  - pose proof (ss20_block_bounds ct2a ct x q Ha Hc ltac:(lra)). apply Rabs_def1; lra.
  - pose proof (ss20_block_bounds ct2a ct (- x) q Ha Hc ltac:(lra)). apply Rabs_def1; lra.
Qed.
Lemma ss20_radial ct2a pre R0 ct wx wy wz wy' wz' : (forall c, 0 <= c -> 0 <= ct2a c < 1 / 2) -> 0 < R0 -> 0 <= ct <= 1 -> wx <= 0 -> wy * wy + wz * wz <= wy' * wy' + wz' * wz' ->
  self_similar2020 ct2a pre R0 ct wx wy wz <= self_similar2020 ct2a pre R0 ct wx wy' wz' <= 0.
Proof.
  intros Ha HR Hg Hx Hr. pose proof (round12_nonpos (wx / R0) (div_nonpos _ _ HR Hx)) as N. unfold self_similar2020. cbn zeta.
  destruct (Rlt_le_dec 1e-8 ct) as [A|A]; [|rewrite !bd_zero by auto; lra]. rewrite !bd_front by (assumption || lra).
  set (x := round12 (wx / R0)) in *. pose proof (norm_mono wy wz wy' wz' R0 HR Hr) as Q. split.
  - apply Ropp_le_contravar. unfold ss20_block. apply Rmult_le_compat_l.
    + apply Rmult_le_pos; [apply Ha; pose proof (ss20_gamma_bounds ct x Hg); nra|]. pose proof (mu_bounds x N). lra.
    + apply rad_mono; [now apply r_half20_pos|exact Q].
  - pose proof (ss20_block_bounds ct2a ct x (sqrt (wy' * wy' + wz' * wz') / R0) Ha Hg N). lra.
Qed.

(* ---- Rathmann ---- *)
Definition rath_P (x r : R) : R := (x * x + (r - 1) * (r - 1)) * (x * x + (r + 1) * (r + 1)).
Lemma rath_P_eq x r : rath_P x r = (x * x + r * r - 1) * (x * x + r * r - 1) + 4 * (x * x).
Proof. unfold rath_P. ring. Qed.
Lemma rath_P_pos x r : x <> 0 \/ (r <> 1 /\ 0 <= r) -> 0 < rath_P x r.
Proof.
  intros H. unfold rath_P. assert (S : forall z, z <> 0 -> 0 < z * z) by (intros; nra).
  pose proof (Rle_0_sqr x) as A. pose proof (Rle_0_sqr (r - 1)) as B. pose proof (Rle_0_sqr (r + 1)) as C. unfold Rsqr in *.
  destruct H as [H|[H H']].
  - pose proof (S x H). apply Rmult_lt_0_compat; lra.
  - pose proof (S (r - 1) ltac:(lra)). pose proof (S (r + 1) ltac:(lra)). apply Rmult_lt_0_compat; lra.
Qed.
Lemma rath_cos x r : 0 < rath_P x r ->
  sqrt (1 - (2 * x / sqrt (rath_P x r)) * (2 * x / sqrt (rath_P x r))) = Rabs (x * x + r * r - 1) / sqrt (rath_P x r).
Proof.
  intros H. pose proof (sqrt_lt_R0 _ H) as S. pose proof (sqrt_sqrt (rath_P x r) ltac:(lra)) as SS.
  replace (1 - 2 * x / sqrt (rath_P x r) * (2 * x / sqrt (rath_P x r))) with (((x * x + r * r - 1) / sqrt (rath_P x r)) * ((x * x + r * r - 1) / sqrt (rath_P x r))).
  - fold (Rsqr ((x * x + r * r - 1) / sqrt (rath_P x r))). rewrite sqrt_Rsqr_abs. unfold Rdiv. rewrite Rabs_mult. f_equal. apply Rabs_right. apply Rle_ge. left. now apply Rinv_0_lt_compat.
  - pose proof (rath_P_eq x r) as E. set (s := sqrt (rath_P x r)) in *. apply (Rmult_eq_reg_r (s * s)); [|nra].
    field_simplify; [|lra|lra]. replace (s ^ 2) with (rath_P x r) by (rewrite <- SS; ring). rewrite E. ring.
Qed.
Lemma rath_G_eq x r : 0 < rath_P x r ->
  rath_G x r = sqrt (0.5 * (1 - Rabs (x * x + r * r - 1) / sqrt (rath_P x r))) * (1 / sqrt (x * x + r * r + 1)) * (1 + x * x).
Proof. intros H. unfold rath_G. cbn zeta. fold (rath_P x r). rewrite rath_cos by exact H. reflexivity. Qed.
Lemma rath_frac x r : 0 < rath_P x r -> 0 <= Rabs (x * x + r * r - 1) / sqrt (rath_P x r) <= 1.
Proof.
  intros H. pose proof (sqrt_lt_R0 _ H) as S. split; [apply div_nonneg; [apply Rabs_pos|exact S]|].
  apply (Rmult_le_reg_r (sqrt (rath_P x r))); [exact S|]. unfold Rdiv. rewrite Rmult_assoc, Rinv_l, Rmult_1_r, Rmult_1_l by lra.
  rewrite <- (sqrt_Rsqr_abs (x * x + r * r - 1)). apply sqrt_le_1_alt. rewrite rath_P_eq. unfold Rsqr. nra.
Qed.
Lemma rath_block_bounds ct2a ct x r : 0 <= ct2a ct -> x <= 0 -> 0 < rath_P x r -> 0 <= rath_block ct2a ct x r <= ct2a ct / sqrt 2.
Proof.
  intros Ha Hx H. unfold rath_block. rewrite rath_G_eq by exact H. pose proof (rath_frac x r H) as F. set (q := Rabs (x * x + r * r - 1) / sqrt (rath_P x r)) in *.
  set (sa := sqrt (0.5 * (1 - q))). assert (SA : 0 <= sa <= 1 / sqrt 2).
  { unfold sa. split; [apply sqrt_pos|]. replace (1 / sqrt 2) with (sqrt (1 / 2)); [apply sqrt_le_1_alt; lra|].
    rewrite sqrt_div_alt by lra. now rewrite sqrt_1. }
  set (w := sqrt (1 + x * x)). assert (W : 0 < w) by (apply sqrt_lt_R0; nra). assert (WW : w * w = 1 + x * x) by (apply sqrt_sqrt; nra).
  assert (SB : 0 < 1 / sqrt (x * x + r * r + 1) <= 1 / w).
  { assert (0 < sqrt (x * x + r * r + 1)) by (apply sqrt_lt_R0; nra). split; [apply Rdiv_lt_0_compat; lra|].
    apply Rmult_le_compat_l; [lra|]. apply Rinv_le_contravar; [exact W|]. apply sqrt_le_1_alt. nra. }
  set (sb := 1 / sqrt (x * x + r * r + 1)) in *.
  assert (M : ss_mu x * (1 + x * x) * (1 / w) <= 1).
  { unfold ss_mu. fold w. rewrite <- WW. replace ((1 + x / w) * (w * w) * (1 / w)) with (w + x) by (field; lra).
    assert (w <= 1 - x). { rewrite <- (sqrt_square (1 - x)) by lra. apply sqrt_le_1_alt. nra. } lra. }
  pose proof (mu_bounds x Hx) as MB. assert (X : 0 < 1 + x * x) by nra. assert (K : 0 <= ss_mu x * (1 + x * x)) by nra. set (kk := ss_mu x * (1 + x * x)) in *.
  replace (ct2a ct * ss_mu x * (sa * sb * (1 + x * x))) with (ct2a ct * (sa * (kk * sb))) by (unfold kk; ring).
  assert (K1 : 0 <= kk * sb <= 1). { split; [nra|]. apply Rle_trans with (kk * (1 / w)); [|exact M]. apply Rmult_le_compat_l; lra. }
  assert (S2 : 0 < / sqrt 2) by (apply Rinv_0_lt_compat, sqrt_lt_R0; lra). unfold Rdiv in *. rewrite Rmult_1_l in SA. split.
  - apply Rmult_le_pos; [exact Ha|]. apply Rmult_le_pos; lra.
  - apply Rmult_le_compat_l; [exact Ha|]. rewrite <- (Rmult_1_r (/ sqrt 2)). apply Rmult_le_compat; lra.
Qed.
Lemma rath_G_axis x : rath_G x 0 = Rmin 1 (Rabs x).
Proof.
  assert (P : 0 < rath_P x 0) by (apply rath_P_pos; right; lra). rewrite rath_G_eq by exact P.
  assert (E : rath_P x 0 = (1 + x * x) * (1 + x * x)) by (unfold rath_P; ring). rewrite E. rewrite sqrt_square by nra.
  replace (x * x + 0 * 0 - 1) with (x * x - 1) by ring. replace (x * x + 0 * 0 + 1) with (1 + x * x) by ring.
  set (w := sqrt (1 + x * x)). assert (W : 0 < w) by (apply sqrt_lt_R0; nra). assert (WW : w * w = 1 + x * x) by (apply sqrt_sqrt; nra).
  assert (AX : Rabs x * Rabs x = x * x) by (rewrite <- Rabs_mult; apply Rabs_right; nra). pose proof (Rabs_pos x) as AP. set (b := Rabs x) in *.
  destruct (Rle_lt_dec 1 b) as [B|B].
  - rewrite Rmin_left by exact B. rewrite Rabs_right by nra.
    replace (0.5 * (1 - (x * x - 1) / (1 + x * x))) with (1 / w * (1 / w)).
    + rewrite sqrt_square by (apply div_nonneg; lra). rewrite <- WW. field. lra.
    + rewrite <- WW. apply (Rmult_eq_reg_r (w * w)); [|nra]. replace (x * x - 1) with (w * w - 2) by lra. field_simplify; [|lra|lra]. lra.
  - rewrite Rmin_right by lra. rewrite Rabs_left1 by nra.
    replace (0.5 * (1 - - (x * x - 1) / (1 + x * x))) with (b / w * (b / w)).
    + rewrite sqrt_square by (apply div_nonneg; lra). rewrite <- WW. field. lra.
    + rewrite <- WW. apply (Rmult_eq_reg_r (w * w)); [|nra]. replace (x * x - 1) with (w * w - 2) by lra.
      replace (b / w * (b / w) * (w * w)) with (w * w - 1) by (replace (w * w - 1) with (b * b) by lra; field; lra). field_simplify; [|lra]. lra.
Qed.
Lemma rath_axis ct2a pre R0 ct wx : 1e-8 < ct -> 0 < R0 -> wx <= 0 ->
  rathmann ct2a pre R0 ct wx 0 0 = - (ct2a ct * ss_mu (round12 (wx / R0)) * Rmin 1 (Rabs (round12 (wx / R0)))).
Proof.
  intros Hc HR Hx. unfold rathmann. cbn zeta. rewrite axis_r. rewrite bd_front by (try exact Hc; apply round12_nonpos; now apply div_nonpos).
  unfold rath_block. now rewrite rath_G_axis.
Qed.
Lemma rath_bounds ct2a pre R0 ct wx wy wz : (forall c, 0 <= c -> 0 <= ct2a c) -> 0 <= ct -> 0 < R0 ->
  round12 (wx / R0) <> 0 \/ sqrt (wy * wy + wz * wz) <> R0 -> Rabs (rathmann ct2a pre R0 ct wx wy wz) <= ct2a ct / sqrt 2.
Proof.
  intros Ha Hc HR H. unfold rathmann. cbn zeta. set (x := round12 (wx / R0)) in *. set (q := sqrt (wy * wy + wz * wz) / R0).
  assert (Hq : 0 <= q) by (apply div_nonneg; [apply sqrt_pos|exact HR]). pose proof (Ha ct Hc) as A0.
  assert (P : 0 < rath_P x q). { apply rath_P_pos. destruct H as [H|H]; [now left|]. right. split; [|exact Hq]. intros E. apply H. unfold q in E.
    apply (Rmult_eq_compat_r R0) in E. unfold Rdiv in E. rewrite Rmult_assoc, Rinv_l in E by lra. lra. }
  assert (P' : 0 < rath_P (- x) q) by (replace (rath_P (- x) q) with (rath_P x q) by (unfold rath_P; ring); exact P).
  apply bd_cases; intros; apply Rabs_le.
  - pose proof (div_nonneg (ct2a ct) (sqrt 2) A0 ltac:(apply sqrt_lt_R0; lra)). lra.
  - pose proof (rath_block_bounds ct2a ct x q A0 ltac:(lra) P). lra.
  - pose proof (rath_block_bounds ct2a ct (- x) q A0 ltac:(lra) P'). lra.
Qed.

(* ---- Rankine half body ---- *)
Lemma rhb_outside m ws x r : 0 < m -> 0 < ws -> 0 <= r -> rhb_shape m ws x r < -1 -> 0 < r * r + x * x /\ m / (4 * (r * r + x * x)) < ws.
Proof.
  intros Hm Hw Hr H. unfold rhb_shape in H. cbn zeta in H. set (s2 := r * r + x * x) in *. assert (S0 : 0 <= s2) by (unfold s2; nra).
  destruct (Reqb (sqrt s2) 0) eqn:E.
  - replace (sqrt s2 * 0 * (sqrt s2 * 0)) with 0 in H by ring. exfalso. lra.
  - apply Reqb_false in E. assert (S : 0 < sqrt s2) by (pose proof (sqrt_pos s2); lra). pose proof (sqrt_sqrt s2 S0) as SS. set (s := sqrt s2) in *.
    assert (P2 : 0 < s2) by (rewrite <- SS; nra). split; [exact P2|].
    replace (s * (r / s) * (s * (r / s))) with (r * r) in H by (field; lra). set (c := x / s) in *.
    assert (XC : x = c * s) by (unfold c; field; lra). assert (RR : r * r = s2 * (1 - c) * (1 + c)).
    { unfold s2 in SS |- *. replace (r * r) with (s * s - x * x) at 1 by lra. rewrite XC at 1 2. replace (r * r + x * x) with (s * s) by lra. ring. }
    assert (C : -1 <= c <= 1). { assert (c * c <= 1); [|nra]. assert (0 <= s2 * (1 - c * c)); [|nra]. replace (s2 * (1 - c * c)) with (r * r) by (rewrite RR; ring). nra. }
    assert (ME : 0 < m + 1e-15) by lra. set (k := 2 / (m + 1e-15) * ws) in *. assert (K : 0 < k) by (unfold k; apply Rmult_lt_0_compat; [apply Rdiv_lt_0_compat; lra|exact Hw]).
    rewrite RR in H. assert (G : (1 + c) * (1 - k * s2 * (1 - c)) < 0) by lra.
    assert (G1 : 1 < k * s2 * (1 - c)). { destruct (Rlt_le_dec 1 (k * s2 * (1 - c))) as [G1|G1]; [exact G1|]. exfalso. assert (0 <= (1 + c) * (1 - k * s2 * (1 - c))) by (apply Rmult_le_pos; lra). lra. }
    assert (KS : 0 < k * s2) by (now apply Rmult_lt_0_compat). assert (G2 : 1 < k * s2 * 2) by nra.
    assert (KM : k * (m + 1e-15) = 2 * ws) by (unfold k; field; lra).
    apply (Rmult_lt_reg_r (4 * s2)); [lra|]. replace (m / (4 * s2) * (4 * s2)) with m by (field; lra).
    assert (G3 : m + 1e-15 < k * s2 * 2 * (m + 1e-15)). { rewrite <- (Rmult_1_l (m + 1e-15)) at 1. now apply Rmult_lt_compat_r. }
    replace (k * s2 * 2 * (m + 1e-15)) with (k * (m + 1e-15) * s2 * 2) in G3 by ring. rewrite KM in G3. lra.
Qed.
Lemma rhb_xs_sq m ws : 0 < m -> 0 < ws -> rhb_xs m ws < 0 /\ m / (4 * (rhb_xs m ws * rhb_xs m ws)) = ws + 2.5e-16.
Proof.
  intros Hm Hw. assert (Q : 0 < 4 * ws + 1e-15) by lra. unfold rhb_xs. assert (P : 0 < m / (4 * ws + 1e-15)) by (now apply Rdiv_lt_0_compat).
  pose proof (sqrt_lt_R0 _ P). split; [lra|]. replace (- sqrt (m / (4 * ws + 1e-15)) * - sqrt (m / (4 * ws + 1e-15))) with (sqrt (m / (4 * ws + 1e-15)) * sqrt (m / (4 * ws + 1e-15))) by ring.
  rewrite sqrt_sqrt by lra. assert (G : forall q, 0 < q -> m / (4 * (m / q)) = q / 4) by (intros; field; lra). rewrite G by exact Q. lra.
Qed.
Lemma cube_frac m s z : 0 < s -> m / (4 * (s * s * s)) * z = m / (4 * (s * s)) * (z / s).
Proof. intros. field. lra. Qed.
Lemma sqrt_neg_sq xs : xs < 0 -> sqrt (xs * xs + 0 * 0 + 0 * 0) = - xs.
Proof. intros H. replace (xs * xs + 0 * 0 + 0 * 0) with (- xs * - xs) by ring. apply sqrt_square. lra. Qed.
Lemma rankine_speed ct2a ws D ct wx wy wz : 0 < ws -> 0 < D -> 0 < ct2a ct -> round12 wx = wx ->
  let uv := rankine ct2a ws D ct wx wy wz in fst uv * fst uv + snd uv * snd uv <= (ws + 2.5e-16) * (ws + 2.5e-16).
Proof.
  intros Hw HD Ha Hx uv. unfold uv, rankine. cbn zeta. rewrite Hx. set (m := rhb_m ct2a ws D ct).
  assert (Hm : 0 < m) by (unfold m, rhb_m; repeat apply Rmult_lt_0_compat; lra). pose proof (rhb_xs_sq m ws Hm Hw) as [X0 X1]. set (xs := rhb_xs m ws) in *.
  assert (N : 0 <= wy * wy + wz * wz) by nra. pose proof (sqrt_pos (wy * wy + wz * wz)) as R0. pose proof (sqrt_sqrt _ N) as RR. set (r := sqrt (wy * wy + wz * wz)) in *.
  destruct (Rltb 1e-8 ct && (Rltb (rhb_shape m ws wx r) (-1) || Rltb wx xs)) eqn:E.
  - cbn [fst snd]. assert (B : 0 < r * r + wx * wx /\ m / (4 * (r * r + wx * wx)) <= ws + 2.5e-16).
    { apply andb_prop in E. destruct E as [_ E]. apply orb_prop in E. destruct E as [E|E]; apply Rltb_true in E.
      - destruct (rhb_outside m ws wx r Hm Hw R0 E) as [A B]. split; [exact A|]. lra.
      - assert (Q : xs * xs < wx * wx) by nra. assert (0 < xs * xs) by nra. split; [nra|]. rewrite <- X1. apply Rmult_le_compat_l; [lra|]. apply Rinv_le_contravar; nra. }
    destruct B as [B1 B2]. replace (wx * wx + wy * wy + wz * wz) with (r * r + wx * wx) by (rewrite RR; ring).
    pose proof (sqrt_lt_R0 _ B1) as S. pose proof (sqrt_sqrt (r * r + wx * wx) ltac:(lra)) as SS. set (s := sqrt (r * r + wx * wx)) in *.
    rewrite !cube_frac by exact S. rewrite SS. set (g := m / (4 * (r * r + wx * wx))) in *. assert (G : 0 < g) by (unfold g; apply Rdiv_lt_0_compat; lra).
    replace (g * (wx / s) * (g * (wx / s)) + g * (wy / s) * (g * (wy / s))) with (g * g * ((wx * wx + wy * wy) / (s * s))) by (field; lra).
    rewrite SS. assert (F : 0 <= (wx * wx + wy * wy) / (r * r + wx * wx) <= 1).
    { split; [apply div_nonneg; [nra|exact B1]|]. apply (Rmult_le_reg_r (r * r + wx * wx)); [exact B1|]. unfold Rdiv. rewrite Rmult_assoc, Rinv_l by lra. rewrite RR. nra. }
    assert (GG : g * g <= (ws + 2.5e-16) * (ws + 2.5e-16)) by (apply Rmult_le_compat; lra). assert (0 < g * g) by nra. nra.
  - destruct (Rltb 1e-8 ct && Rleb (-1) (rhb_shape m ws wx r) && Rleb xs wx && Rleb wx 0); cbn [fst snd]; [|nra].
    rewrite (sqrt_neg_sq xs X0). rewrite !cube_frac by lra. replace (- xs * - xs) with (xs * xs) by ring. rewrite X1. replace (xs / - xs) with (-1) by (field; lra). lra.
Qed.
Lemma rankine_no_reverse ct2a ws D ct wx wy wz : 0 < ws -> 0 < D -> 0 < ct2a ct -> round12 wx = wx -> - (ws + 2.5e-16) <= fst (rankine ct2a ws D ct wx wy wz).
Proof.
  intros Hw HD Ha Hx. pose proof (rankine_speed ct2a ws D ct wx wy wz Hw HD Ha Hx) as H. cbn zeta in H. set (u := fst _) in *. set (v := snd _) in *.
  pose proof (Rle_0_sqr v) as V. unfold Rsqr in V. destruct (Rle_lt_dec (- (ws + 2.5e-16)) u); [assumption|]. exfalso. nra.
Qed.
Lemma rankine_rotor ct2a ws D ct : 0 < ws -> 0 < D -> 0 < ct2a ct -> 1e-8 < ct -> rankine ct2a ws D ct 0 0 0 = (- (ws + 2.5e-16), 0).
Proof.
  intros Hw HD Ha Hc. unfold rankine. cbn zeta. rewrite round12_0. set (m := rhb_m ct2a ws D ct).
  assert (Hm : 0 < m) by (unfold m, rhb_m; repeat apply Rmult_lt_0_compat; lra). pose proof (rhb_xs_sq m ws Hm Hw) as [X0 X1]. set (xs := rhb_xs m ws) in *.
  replace (sqrt (0 * 0 + 0 * 0)) with 0 by (replace (0 * 0 + 0 * 0) with 0 by ring; now rewrite sqrt_0).
  assert (SH : rhb_shape m ws 0 0 = 1).
  { unfold rhb_shape. cbn zeta. replace (0 * 0 + 0 * 0) with 0 by ring. rewrite sqrt_0. rewrite Reqb_refl. ring. }
  rewrite SH. rewrite (proj2 (Rltb_true _ _) Hc), (proj2 (Rltb_false 1 (-1)) ltac:(lra)), (proj2 (Rltb_false 0 xs) ltac:(lra)).
  rewrite (proj2 (Rleb_true (-1) 1) ltac:(lra)), (proj2 (Rleb_true xs 0) ltac:(lra)), (proj2 (Rleb_true 0 0) ltac:(lra)).
  cbn [andb orb]. f_equal. rewrite (sqrt_neg_sq xs X0). rewrite cube_frac by lra. replace (- xs * - xs) with (xs * xs) by ring. rewrite X1. replace (xs / - xs) with (-1) by (field; lra). lra.
Qed.
(** direction of the along-wind contribution: decelerating in front of the rotor plane, accelerating behind it *)
Lemma rankine_sign ct2a ws D ct wx wy wz : 0 < ws -> 0 < D -> 0 < ct2a ct ->
  (wx <= 0 -> fst (rankine ct2a ws D ct wx wy wz) <= 0) /\ (0 < round12 wx -> 0 <= wx -> 0 <= fst (rankine ct2a ws D ct wx wy wz)).
Proof.
  intros Hw HD Ha. unfold rankine. cbn zeta. set (m := rhb_m ct2a ws D ct).
  assert (Hm : 0 < m) by (unfold m, rhb_m; repeat apply Rmult_lt_0_compat; lra). pose proof (rhb_xs_sq m ws Hm Hw) as [X0 X1]. set (xs := rhb_xs m ws) in *.
  set (r := sqrt (wy * wy + wz * wz)). set (sh := rhb_shape m ws (round12 wx) r).
  assert (F : forall s, 0 <= s -> 0 <= m / (4 * (s * s * s)) \/ s = 0).
  { intros s Hs. destruct (Req_dec s 0); [now right|]. left. apply div_nonneg; [lra|]. repeat apply Rmult_lt_0_compat; lra. }
  set (s := sqrt (wx * wx + wy * wy + wz * wz)). assert (S0 : s = 0 -> wx = 0).
  { intros E. unfold s in E. apply sqrt_eq_0 in E; [|nra]. nra. }
  split; intros H; [|intros H1].
  - destruct (Rltb 1e-8 ct && (Rltb sh (-1) || Rltb (round12 wx) xs)); cbn [fst].
    + destruct (F s ltac:(apply sqrt_pos)) as [G|G]; [nra|]. rewrite (S0 G). lra.
    + destruct (_ && Rleb (round12 wx) 0); cbn [fst]; [|lra]. destruct (F (sqrt (xs * xs + 0 * 0 + 0 * 0)) ltac:(apply sqrt_pos)) as [G|G]; [nra|].
      exfalso. apply sqrt_eq_0 in G; [|nra]. nra.
  - destruct (Rltb 1e-8 ct && (Rltb sh (-1) || Rltb (round12 wx) xs)); cbn [fst].
    + destruct (F s ltac:(apply sqrt_pos)) as [G|G]; [nra|]. rewrite (S0 G). lra.
    + rewrite (proj2 (Rleb_false _ _) H), andb_false_r. cbn. lra.
Qed.

(** the strength of the source: on the axis, at least a rotor radius upstream *)
Lemma rankine_axis ct2a ws D ct wx : 0 < ws -> 1 <= D -> 0 < ct2a ct <= 1 -> 1e-8 < ct -> wx < - (D / 2) ->
  rankine ct2a ws D ct wx 0 0 = (- ws * ct2a ct / 2 * ((D / 2) * (D / 2) / (wx * wx)), 0).
Proof.
  intros Hw HD Ha Hc Hu. unfold rankine. cbn zeta. set (m := rhb_m ct2a ws D ct).
  assert (Hm : 0 < m) by (unfold m, rhb_m; repeat apply Rmult_lt_0_compat; lra). pose proof (rhb_xs_sq m ws Hm Hw) as [X0 X1]. set (xs := rhb_xs m ws) in *.
  assert (XX : xs * xs = m / (4 * (ws + 2.5e-16))). { rewrite <- X1. field. split; lra. }
  assert (L : round12 wx < xs).
  { pose proof (round12_err wx) as RE. assert (RX : round12 wx <= - (0.49 * D)) by (unfold Rabs in RE; destruct (Rcase_abs _); lra).
    destruct (Rlt_le_dec (round12 wx) xs) as [L|L]; [exact L|exfalso].
    assert (B : (0.49 * D) * (0.49 * D) <= xs * xs) by nra. rewrite XX in B. unfold m, rhb_m in B.
    apply (Rmult_le_compat_r (4 * (ws + 2.5e-16))) in B; [|lra].
    replace (2 * ws * ct2a ct * (D / 2 * (D / 2)) / (4 * (ws + 2.5e-16)) * (4 * (ws + 2.5e-16))) with (2 * ws * ct2a ct * (D / 2 * (D / 2))) in B by (field; lra).
    assert (Q : 0 < D * D) by nra. replace (0.49 * D * (0.49 * D)) with (0.2401 * (D * D)) in B by lra. replace (D / 2 * (D / 2)) with (D * D / 4) in B by field.
    set (q := D * D) in *. assert (0 <= ws * q * (1 - ct2a ct)) by (apply Rmult_le_pos; [apply Rmult_le_pos; lra|lra]). assert (0 < ws * q) by nra. nra. }
  rewrite (proj2 (Rltb_true _ _) Hc), (proj2 (Rltb_true _ _) L), orb_true_r. cbn [andb].
  replace (wx * wx + 0 * 0 + 0 * 0) with ((- wx) * (- wx)) by ring. rewrite sqrt_square by lra.
  f_equal; [unfold m, rhb_m; field; lra|ring].
Qed.

(** all positions: the rounding of the downwind coordinate to 12 decimals changes the distance by at most 5e-13 *)
Lemma sph_lipschitz r a b : sqrt (r * r + a * a) <= sqrt (r * r + b * b) + Rabs (a - b).
Proof.
  pose proof (sqrt_pos (r * r + b * b)) as P. pose proof (sqrt_sqrt (r * r + b * b) ltac:(nra)) as Q. pose proof (Rabs_pos (a - b)) as A.
  assert (AA : Rabs (a - b) * Rabs (a - b) = (a - b) * (a - b)) by (rewrite <- Rabs_mult; apply Rabs_right, Rle_ge; exact (Rle_0_sqr (a - b))).
  set (s := sqrt (r * r + b * b)) in *. set (e := Rabs (a - b)) in *. apply Rsqr_incr_0_var; [|lra]. unfold Rsqr. rewrite sqrt_sqrt by nra.
  assert (B : Rabs b <= s) by (unfold s; rewrite <- sqrt_Rsqr_abs; apply sqrt_le_1_alt; unfold Rsqr; nra).
  assert (C : b * (a - b) <= s * e).
  { apply Rle_trans with (Rabs (b * (a - b))); [apply Rle_abs|]. rewrite Rabs_mult. fold e. apply Rmult_le_compat_r; assumption. }
  nra.
Qed.
Lemma rankine_speed_all ct2a ws D ct wx wy wz : 1e-15 <= ws -> 1 <= D -> (1e-8 < ct -> 2.4e-9 <= ct2a ct) ->
  let uv := rankine ct2a ws D ct wx wy wz in let b := (ws + 2.5e-16) * (1 + 1e-7) in fst uv * fst uv + snd uv * snd uv <= b * b.
Proof.
  intros Hw HD Ha uv b. assert (Hb : ws + 2.5e-16 <= b) by (unfold b; nra). unfold uv, rankine. cbn zeta.
  destruct (Rltb 1e-8 ct) eqn:Hc; [|cbn; nra]. apply Rltb_true in Hc. specialize (Ha Hc). cbn [andb]. set (m := rhb_m ct2a ws D ct).
  assert (DD : 1 <= D * D) by nra. assert (AD : 2.4e-9 * 1 <= ct2a ct * (D * D)) by (apply Rmult_le_compat; lra).
  assert (Hm : 1e-9 * ws <= m). { replace m with (ws * (ct2a ct * (D * D)) / 2) by (unfold m, rhb_m; field). assert (ws * (2.4e-9 * 1) <= ws * (ct2a ct * (D * D))) by (apply Rmult_le_compat_l; lra). lra. }
  assert (Hm0 : 0 < m) by nra. assert (Hw0 : 0 < ws) by lra. pose proof (rhb_xs_sq m ws Hm0 Hw0) as [X0 X1]. set (xs := rhb_xs m ws) in *.
  assert (N : 0 <= wy * wy + wz * wz) by nra. pose proof (sqrt_pos (wy * wy + wz * wz)) as R0. pose proof (sqrt_sqrt _ N) as RR. set (r := sqrt (wy * wy + wz * wz)) in *.
  pose proof (round12_err wx) as RE. set (x := round12 wx) in *.
  destruct (Rltb (rhb_shape m ws x r) (-1) || Rltb x xs) eqn:E.
  - cbn [fst snd]. assert (B : 0 < r * r + x * x /\ m / (4 * (r * r + x * x)) <= ws + 2.5e-16).
    { apply orb_prop in E. destruct E as [E|E]; apply Rltb_true in E.
      - destruct (rhb_outside m ws x r Hm0 Hw0 R0 E) as [A B]. split; [exact A|]. lra.
      - assert (Q : xs * xs < x * x) by nra. assert (0 < xs * xs) by nra. split; [nra|]. rewrite <- X1. apply Rmult_le_compat_l; [lra|]. apply Rinv_le_contravar; nra. }
    destruct B as [B1 B2]. pose proof (sph_lipschitz r x wx) as LP. rewrite Rabs_minus_sym in LP.
    pose proof (sqrt_lt_R0 _ B1) as S1. pose proof (sqrt_sqrt (r * r + x * x) ltac:(lra)) as SS1. set (s1 := sqrt (r * r + x * x)) in *.
    assert (M4 : m <= (ws + 2.5e-16) * (4 * (s1 * s1))).
    { rewrite SS1. apply (Rmult_le_compat_r (4 * (r * r + x * x))) in B2; [|lra]. unfold Rdiv in B2. rewrite Rmult_assoc, Rinv_l in B2 by lra. lra. }
    assert (S1b : 1.2e-5 <= s1).
    { destruct (Rle_lt_dec 1.2e-5 s1); [assumption|exfalso]. assert (s1 * s1 < 1.44e-10) by nra. nra. }
    replace (wx * wx + wy * wy + wz * wz) with (r * r + wx * wx) by (rewrite RR; ring).
    assert (S2b : s1 - 5e-13 <= sqrt (r * r + wx * wx)) by lra. assert (P2 : 0 <= r * r + wx * wx) by nra. pose proof (sqrt_sqrt _ P2) as SS2. set (s := sqrt (r * r + wx * wx)) in *.
    assert (S : 0 < s) by lra. rewrite !cube_frac by exact S. set (g := m / (4 * (s * s))).
    assert (G0 : 0 < g) by (unfold g; apply Rdiv_lt_0_compat; nra).
    assert (G : g <= b).
    { unfold g. apply (Rmult_le_reg_r (4 * (s * s))); [nra|]. unfold Rdiv. rewrite Rmult_assoc, Rinv_l by nra. rewrite Rmult_1_r.
      apply Rle_trans with ((ws + 2.5e-16) * (4 * (s1 * s1))); [exact M4|]. unfold b. rewrite Rmult_assoc. apply Rmult_le_compat_l; [lra|].
      assert (K : s1 * s1 <= (1 + 1e-7) * ((s1 - 5e-13) * (s1 - 5e-13))) by nra. assert (K2 : (s1 - 5e-13) * (s1 - 5e-13) <= s * s) by (apply Rmult_le_compat; lra). nra. }
    replace (g * (wx / s) * (g * (wx / s)) + g * (wy / s) * (g * (wy / s))) with (g * g * ((wx * wx + wy * wy) / (s * s))) by (field; lra).
    rewrite SS2. assert (P3 : 0 < r * r + wx * wx) by (rewrite <- SS2; nra). assert (F : 0 <= (wx * wx + wy * wy) / (r * r + wx * wx) <= 1).
    { split; [apply div_nonneg; [nra|exact P3]|]. apply (Rmult_le_reg_r (r * r + wx * wx)); [exact P3|]. unfold Rdiv. rewrite Rmult_assoc, Rinv_l by lra. rewrite RR. nra. }
    assert (GG : g * g <= b * b) by (apply Rmult_le_compat; lra). assert (0 < g * g) by nra. nra.
  - destruct (Rleb (-1) (rhb_shape m ws x r) && Rleb xs x && Rleb x 0); cbn [fst snd]; [|nra].
    rewrite (sqrt_neg_sq xs X0). rewrite !cube_frac by lra. replace (- xs * - xs) with (xs * xs) by ring. rewrite X1. replace (xs / - xs) with (-1) by (field; lra). nra.
Qed.
Lemma rankine_no_reverse_all ct2a ws D ct wx wy wz : 1e-15 <= ws -> 1 <= D -> (1e-8 < ct -> 2.4e-9 <= ct2a ct) -> - ((ws + 2.5e-16) * (1 + 1e-7)) <= fst (rankine ct2a ws D ct wx wy wz).
Proof.
  intros Hw HD Ha. pose proof (rankine_speed_all ct2a ws D ct wx wy wz Hw HD Ha) as H. cbn zeta in H. set (u := fst _) in *. set (v := snd _) in *. set (b := (ws + 2.5e-16) * (1 + 1e-7)) in *.
  assert (0 < b) by (unfold b; nra). pose proof (Rle_0_sqr v) as V. unfold Rsqr in V. destruct (Rle_lt_dec (- b) u); [assumption|]. exfalso. nra.
Qed.
