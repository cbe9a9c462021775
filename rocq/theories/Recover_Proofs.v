(** Proofs for C255. *)
From Verif Require Import RBase Superp_Model Superp_Spec Superp_Proofs Curves_Model Curves_Spec Induction_Model Induction_Proofs Symm_Model Whole_Model Whole_Spec Whole_Proofs Flow_Model Flow_Spec Flow_Proofs.
Local Open Scope R_scope.

(** ** small contributions have a small combination *)
Definition small (d : R) (l : list R) : Prop := Forall (fun x => Rabs x <= d) l.
Lemma small_sum d l : small d l -> Rabs (rsum l) <= INR (length l) * d.
Proof.
  induction 1 as [|x l H F IH]; [cbn; rewrite Rabs_R0; lra|]. cbn [rsum fold_right length]. change (fold_right Rplus 0 l) with (rsum l). rewrite S_INR. pose proof (Rabs_triang x (rsum l)). lra.
Qed.
Lemma small_sumsq d l : small d l -> sumsq l <= INR (length l) * (d * d).
Proof.
  unfold sumsq. induction 1 as [|x l H F IH]; [cbn; lra|]. cbn [map length]. change (rsum (x * x :: map (fun x0 => x0 * x0) l)) with (x * x + rsum (map (fun x0 => x0 * x0) l)). rewrite S_INR.
  assert (x * x <= d * d). { pose proof (Rabs_pos x). replace (x * x) with (Rabs x * Rabs x) by (rewrite <- Rabs_mult; apply Rabs_right; nra). nra. } lra.
Qed.
Lemma small_largest d l : 0 <= d -> small d l -> largest (map Rabs l) <= d.
Proof. intros Hd. induction 1 as [|x l H F IH]; [exact Hd|]. cbn [map largest]. now apply Rmax_lub. Qed.
Lemma small_sumpow p d l : 0 < p -> small d l -> sumpow p (map Rabs l) <= INR (length l) * npow d p.
Proof.
  intros Hp. unfold sumpow. induction 1 as [|x l H F IH]; [cbn; lra|]. cbn [map length]. set (t := map (fun x0 => npow x0 p) (map Rabs l)) in *. change (rsum (npow (Rabs x) p :: t)) with (npow (Rabs x) p + rsum t). rewrite S_INR.
  pose proof (npow_mono (Rabs x) d p Hp (conj (Rabs_pos x) H)). lra.
Qed.
Lemma sumpow_nonneg p l : 0 <= sumpow p (map Rabs l).
Proof. unfold sumpow. apply rsum_nonneg. intros y Hy. apply in_map_iff in Hy as (x & <- & Hx). apply in_map_iff in Hx as (z & <- & _). apply npow_nonneg, Rabs_pos. Qed.
Definition local_s (s : superp) : bool := match s with WSLinearLocal | WSQuadraticLocal | WSMaxLocal | WSPowLocal _ => true | _ => false end.
Lemma small_combination s N eps a : is_ws s = true -> pow_ok s -> 0 < eps -> 0 < a ->
  exists d, 0 < d /\ forall cs, (length cs <= N)%nat -> small d (if local_s s then local cs else absol cs) -> - eps <= combination s false a cs.
Proof.
  intros Hs Hp He Ha. assert (HN : forall k, (k <= N)%nat -> INR k <= INR N) by (intros; now apply le_INR). pose proof (pos_INR N) as PN. set (M := INR N + 1) in *. assert (HM : 0 < M) by (unfold M; lra).
  assert (LC : forall cs, (length (Superp_Spec.covering cs) <= length cs)%nat) by (induction cs as [|[q|] cs IH]; cbn; lia).
  assert (LL : forall cs, (length cs <= N)%nat -> INR (length (local cs)) <= M /\ INR (length (absol cs)) <= M). { intros cs L. unfold local, absol. rewrite !map_length. pose proof (HN _ (Nat.le_trans _ _ _ (LC cs) L)). unfold M. lra. }
  assert (He' : 0 < eps / a) by (apply Rdiv_lt_0_compat; assumption). assert (EA : a * (eps / a) = eps) by (field; lra).
  assert (G : forall e, 0 < e -> 0 < e / M /\ M * (e / M) = e). { intros e H. split; [now apply Rdiv_lt_0_compat|]. field. lra. }
  assert (SQ : forall e l, 0 < e -> INR (length l) <= M -> small (e / M) l -> sqrt (sumsq l) <= e).
  { intros e l H L S. destruct (G e H) as [G1 G2]. apply small_sumsq in S. rewrite <- (sqrt_square e) by lra. apply sqrt_le_1_alt. set (q := e / M) in *. assert (INR (length l) * (q * q) <= M * (q * q)) by nra.
    assert (M * (q * q) <= (M * q) * (M * q)) by (assert (1 <= M) by (unfold M; lra); assert (0 <= q * q) by nra; nra). rewrite G2 in *. lra. }
  assert (PW : forall p e, 0 < p -> 0 < e -> exists d, 0 < d /\ forall l, INR (length l) <= M -> small d l -> npow (sumpow p (map Rabs l)) (1 / p) <= e).
  { intros p e P H. assert (P' : 0 < 1 / p) by (apply Rdiv_lt_0_compat; lra). set (y := npow e p / M). assert (Ep : 0 < npow e p). { unfold npow. rewrite (proj2 (Reqb_false e 0)) by lra. apply exp_pos. } assert (Hy : 0 < y) by (now apply Rdiv_lt_0_compat).
    exists (npow y (1 / p)). split. { unfold npow. rewrite (proj2 (Reqb_false y 0)) by lra. apply exp_pos. } intros l L S. apply (small_sumpow p _ l P) in S.
    assert (I : npow (npow y (1 / p)) p = y). { replace p with (1 / (1 / p)) at 2 by (field; lra). apply npow_inv; lra. } rewrite I in S.
    assert (INR (length l) * y <= M * y) by nra. assert (M * y = npow e p) by (unfold y; field; lra). rewrite <- (npow_inv e p P) by lra. apply npow_mono; [exact P'|]. split; [apply sumpow_nonneg|lra]. }
  destruct s; try discriminate Hs; cbn [combination local_s pow_ok] in *.
  - destruct (G eps He) as [G1 G2]. exists (eps / M). split; [exact G1|]. intros cs L S. destruct (LL cs L) as [_ L']. apply small_sum in S. pose proof (Rle_abs (- rsum (absol cs))) as Q. rewrite Rabs_Ropp in Q. nra.
  - destruct (G _ He') as [G1 G2]. exists (eps / a / M). split; [exact G1|]. intros cs L S. destruct (LL cs L) as [L' _]. apply small_sum in S. pose proof (Rle_abs (- rsum (local cs))) as Q. rewrite Rabs_Ropp in Q.
    assert (- (eps / a) <= rsum (local cs)) by nra. nra.
  - exists (eps / M). split; [apply G, He|]. intros cs L S. destruct (LL cs L) as [_ L']. pose proof (SQ eps _ He L' S). lra.
  - exists (eps / a / M). split; [apply G, He'|]. intros cs L S. destruct (LL cs L) as [L' _]. pose proof (SQ _ _ He' L' S). nra.
  - exists eps. split; [exact He|]. intros cs L S. apply small_largest in S; lra.
  - exists (eps / a). split; [exact He'|]. intros cs L S. apply small_largest in S; [nra|lra].
  - destruct (PW p eps Hp He) as (d & D1 & D2). exists d. split; [exact D1|]. intros cs L S. destruct (LL cs L) as [_ L']. pose proof (D2 _ L' S). lra.
  - destruct (PW p _ Hp He') as (d & D1 & D2). exists d. split; [exact D1|]. intros cs L S. destruct (LL cs L) as [L' _]. pose proof (D2 _ L' S). nra.
Qed.
(** ** deficits get small *)
Lemma induction_half cm ct : cm < 1 -> 2 * induction cm ct <= 1.
Proof. intros H. rewrite <- betz_is. pose proof (betz_lt_half cm ct H). lra. Qed.
Lemma induction_lin cm y : 0 <= cm < 1 -> 0 <= y -> 2 * induction cm y <= y.
Proof.
  intros Hc Hy. unfold induction. set (m := Rmin y cm). assert (0 <= m) by (unfold m; apply Rmin_glb; lra). assert (m <= cm) by apply Rmin_r. assert (m <= y) by apply Rmin_l.
  assert (1 - m <= sqrt (1 - m)). { rewrite <- (sqrt_square (1 - m)) at 1 by lra. apply sqrt_le_1_alt. nra. } lra.
Qed.
Lemma formula_small c D k ct d : 0 <= c_ctmax c < 1 -> (match c_def c with Gauss sbeta => 0 < sbeta | Jensen => True end) -> 0 < D -> 0 < k -> 0 <= ct -> 0 < d -> exists X, 0 < X /\ forall x r, X <= x -> - d <= formula c D k ct x r.
Proof.
  intros Hc Hs HD Hk Ht Hd. unfold formula. destruct (c_def c) as [|sb].
  - set (e := Rmin d 1). assert (E1 : 0 < e) by (unfold e; apply Rmin_glb_lt; lra). assert (E2 : e <= d) by apply Rmin_l. assert (E3 : e <= 1) by apply Rmin_r. exists (D / (2 * k * e)). assert (P : 0 < 2 * k * e) by (apply Rmult_lt_0_compat; lra).
    split; [now apply Rdiv_lt_0_compat|]. intros x r Hx. assert (X0 : 0 < x) by (apply Rlt_le_trans with (2 := Hx); now apply Rdiv_lt_0_compat). destruct (Rlt_dec _ _); [|lra].
    assert (Q : 0 < D + 2 * k * x) by nra. set (q := D / (D + 2 * k * x)). assert (q0 : 0 < q) by (now apply Rdiv_lt_0_compat). assert (K : D <= x * (2 * k * e)). { apply (Rmult_le_compat_r (2 * k * e)) in Hx; [|lra]. unfold Rdiv in Hx. rewrite Rmult_assoc, Rinv_l, Rmult_1_r in Hx by lra. exact Hx. }
    assert (qe : q <= e). { unfold q. apply (Rmult_le_reg_r (D + 2 * k * x)); [exact Q|]. unfold Rdiv. rewrite Rmult_assoc, Rinv_l, Rmult_1_r by lra. nra. }
    pose proof (induction_half (c_ctmax c) ct ltac:(lra)). cbn [pow]. rewrite Rmult_1_r. assert (q * q <= e * e) by nra. assert (0 <= q * q) by nra. nra.
  - cbv zeta. set (b := sb * sqrt ((1 - induction (c_ctmax c) ct) / (1 - 2 * induction (c_ctmax c) ct)) * D). assert (B0 : 0 <= b). { unfold b. apply Rmult_le_pos; [|lra]. apply Rmult_le_pos; [lra|apply sqrt_pos]. }
    set (w := ct * (D * D) / (8 * d)). assert (W0 : 0 <= w). { unfold w. apply Rmult_le_pos; [nra|]. left. apply Rinv_0_lt_compat. lra. } exists ((1 + w) / k). split; [apply Rdiv_lt_0_compat; lra|]. intros x r Hx.
    assert (KX : 1 + w <= k * x). { apply (Rmult_le_compat_r k) in Hx; [|lra]. unfold Rdiv in Hx. rewrite Rmult_assoc, Rinv_l, Rmult_1_r in Hx by lra. lra. } set (sg := k * x + b). assert (SG : 1 + w <= sg) by (unfold sg; lra).
    set (y := ct / (8 * (sg / D) ^ 2)). assert (Y0 : 0 <= y). { unfold y. apply Rmult_le_pos; [exact Ht|]. left. apply Rinv_0_lt_compat. apply Rmult_lt_0_compat; [lra|]. apply pow_lt. apply Rdiv_lt_0_compat; lra. }
    assert (Yd : y <= d). { unfold y. assert (E : ct / (8 * (sg / D) ^ 2) = ct * (D * D) / (8 * (sg * sg))) by (field; lra). rewrite E. apply (Rmult_le_reg_r (8 * (sg * sg))); [nra|]. unfold Rdiv. rewrite Rmult_assoc, Rinv_l, Rmult_1_r by nra.
      assert (F : w * (8 * d) = ct * (D * D)) by (unfold w; field; lra). rewrite <- F. assert (w <= sg * sg) by nra. nra. }
    pose proof (induction_lin (c_ctmax c) y Hc Y0). pose proof (Rmax_l (-2 * induction (c_ctmax c) y) (-1)). set (A := Rmax (-2 * induction (c_ctmax c) y) (-1)) in *. set (z := - (r ^ 2 / (2 * sg ^ 2))).
    assert (Z1 : exp z <= 1). { rewrite <- exp_0. destruct (Req_dec z 0) as [->|Nz]; [lra|]. left. apply exp_increasing. assert (0 <= r ^ 2 / (2 * sg ^ 2)); [|unfold z in *; lra]. apply Rmult_le_pos; [apply pow2_ge_0|]. left. apply Rinv_0_lt_compat. apply Rmult_lt_0_compat; [lra|]. apply pow_lt. lra. }
    pose proof (exp_pos z). assert (- d <= A) by lra. destruct (Rle_dec 0 A); nra.
Qed.
Lemma common_bound (n : nat) (Q : nat -> R -> Prop) : (forall i, (i < n)%nat -> exists X, forall x, X <= x -> Q i x) -> exists X, forall i, (i < n)%nat -> forall x, X <= x -> Q i x.
Proof.
  induction n as [|n IH]; intros H; [exists 0; intros; lia|]. destruct IH as (X & HX); [intros; apply H; lia|]. destruct (H n ltac:(lia)) as (Y & HY). exists (Rmax X Y). intros i Hi x Hx. pose proof (Rmax_l X Y). pose proof (Rmax_r X Y).
  destruct (Nat.eq_dec i n) as [->|N]; [apply HY; lra|apply HX; [lia|lra]].
Qed.
Lemma limited_above low high a e w : 0 <= e -> (forall h, high = Some h -> a <= h) -> a - e <= w -> a - e <= limited low high w.
Proof.
  intros He Hh H. unfold limited. set (v := match low with Some l => Rmax w l | None => w end). assert (w <= v) by (unfold v; destruct low; [apply Rmax_l|lra]). destruct high as [h|]; cbn zeta; [|lra]. specialize (Hh h eq_refl). apply Rmin_glb; lra.
Qed.
Section Rec.
Variables (c : scene) (farm : list (turb ttype)) (res : list tres).
Hypothesis HS : good_scene c.
Hypothesis HF : good_farm farm.
Hypothesis HB : balanced c farm res.
Hypothesis HK : forall t, In t farm -> 0 < y_k (t_set t).
Let n := length farm.
Lemma recovers eps : 0 < eps -> exists X, forall p, (forall t, In t farm -> X <= behind (c_wd c) t (probe p)) -> c_wsp c - eps <= wind_at c farm res p.
Proof.
  intros He. assert (Hw : 0 < c_wsp c) by apply HS. assert (Hs : is_ws (c_s c) = true) by apply HS. assert (Hp : pow_ok (c_s c)) by apply HS.
  destruct (small_combination (c_s c) n eps (c_wsp c) Hs Hp He Hw) as (d & D0 & HD). set (e := Rmin d (d / c_wsp c)). assert (E0 : 0 < e) by (unfold e; apply Rmin_glb_lt; [lra|now apply Rdiv_lt_0_compat]). assert (E1 : e <= d) by apply Rmin_l.
  assert (E2 : c_wsp c * e <= d). { assert (e <= d / c_wsp c) by apply Rmin_r. replace d with (c_wsp c * (d / c_wsp c)) by (field; lra). nra. }
  destruct (common_bound n (fun i x => forall r, r_ct (nth i res no_res) > 1e-8 -> - e <= formula c (t_diam (nth i farm no_turb)) (y_k (t_set (nth i farm no_turb))) (r_ct (nth i res no_res)) x r)) as (X & HX).
  { intros i Hi. pose proof (nth_In farm no_turb Hi) as Hin. destruct (HF _ Hin) as [Y Dm]. destruct (Rle_dec 0 (r_ct (nth i res no_res))) as [T|T].
    - destruct HS as (_ & Hc & _ & _ & Hsb & _). destruct (formula_small c (t_diam (nth i farm no_turb)) (y_k (t_set (nth i farm no_turb))) (r_ct (nth i res no_res)) e Hc Hsb Dm (HK _ Hin) T E0) as (X & _ & HX). exists X. intros x Hx r _. now apply HX.
    - exists 0. intros x _ r Q. exfalso. apply T. set (q := 1e-8) in *. assert (0 < q) by (unfold q; lra). lra. }
  exists X. intros p H. cut (- eps <= combination (c_s c) false (c_wsp c) (peffects c farm res p)).
  { intros C. unfold wind_at. apply limited_above; [lra|apply HS|]. change (map (fun i => effect c (nth i farm no_turb) (nth i res no_res) (probe p)) (seq 0 (length farm))) with (peffects c farm res p). lra. }
  apply HD. { unfold peffects. rewrite map_length, seq_length. apply Nat.le_refl. }
  assert (K : Forall (fun q => - e <= snd q <= 0 /\ (local_s (c_s c) = true \/ 0 <= fst q <= c_wsp c)) (Superp_Spec.covering (peffects c farm res p))).
  { pose proof (peffects_fine c farm res HS HF HB p) as Fn. unfold peffects in *. fold n in Fn |- *. assert (B : forall i, In i (seq 0 n) -> (i < n)%nat) by (intros i J; apply in_seq in J; lia). revert B Fn. generalize (seq 0 n) as l. induction l as [|i l IH]; intros B Fn; [constructor|]. cbn [map] in Fn |- *.
    inversion Fn as [|? ? F1 F2]; subst. assert (IH' := IH (fun j J => B j (or_intror J)) F2). cbn [Superp_Spec.covering]. destruct (effect c (nth i farm no_turb) (nth i res no_res) (probe p)) as [[sc r]|] eqn:Ef; [|exact IH']. constructor; [|exact IH']. cbn [fst snd]. destruct F1 as [F1 F3].
    assert (Hi : (i < n)%nat) by (apply B; now left). pose proof (nth_In farm no_turb Hi) as Hin. destruct (HF _ Hin) as [Y Dm]. destruct (effect_neg c _ _ _ _ _ HS Y Dm Ef) as (_ & A2 & _). split.
    - split; [|exact F1]. unfold effect in Ef. destruct (Rlt_dec _ _) as [L1|]; [|discriminate]. destruct (Rlt_dec _ _) as [L2|]; [|discriminate]. injection Ef as _ <-. apply HX; [exact Hi|now apply H|exact L2].
    - destruct F3 as [F3|F3]; [left; now destruct (c_s c)|]. right. split; [exact F3|]. destruct (result_bounds c farm HS HF res (res_eq c farm res HS HF HB) i Hi) as [U _]. destruct A2 as [-> | ->]; lra. }
  clear HD HX H. unfold small, local, absol. destruct (local_s (c_s c)) eqn:Lo; apply Forall_map; (eapply Forall_impl; [|exact K]); intros [sc r]; cbn [fst snd]; intros [[A1 A2] A3].
  - rewrite Rabs_left1; lra.
  - destruct A3 as [A3|A3]; [discriminate|]. rewrite Rabs_left1 by nra. assert (sc * - r <= c_wsp c * e) by (apply Rmult_le_compat; lra). lra.
Qed.
End Rec.
