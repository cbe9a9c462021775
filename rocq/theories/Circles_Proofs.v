(** Proofs about circle intersections. *)
From Coquelicot Require Import Coquelicot.
From Verif Require Import RBase Circles_Model Circles_Spec.
Local Open Scope R_scope.

Lemma c_pt (f : R -> R) x : continuous f x <-> continuity_pt f x.
Proof. symmetry. apply continuity_pt_filterlim. Qed.
Lemma c_mult (f g : R -> R) x : continuous f x -> continuous g x -> continuous (fun y => f y * g y) x.
Proof. rewrite !c_pt. apply continuity_pt_mult. Qed.
Lemma c_plus (f g : R -> R) x : continuous f x -> continuous g x -> continuous (fun y => f y + g y) x.
Proof. rewrite !c_pt. apply continuity_pt_plus. Qed.
Lemma c_minus (f g : R -> R) x : continuous f x -> continuous g x -> continuous (fun y => f y - g y) x.
Proof. rewrite !c_pt. apply continuity_pt_minus. Qed.
Lemma c_opp (f : R -> R) x : continuous f x -> continuous (fun y => - f y) x.
Proof. rewrite !c_pt. apply continuity_pt_opp. Qed.
Lemma c_const (c x : R) : continuous (fun _ : R => c : R) x.
Proof. apply continuous_const. Qed.
Lemma c_id (x : R) : continuous (fun y : R => y) x.
Proof. apply continuous_id. Qed.
Lemma hc_nonneg r x : 0 <= hc r x.
Proof. apply sqrt_pos. Qed.
Lemma hc_even r x : hc r (- x) = hc r x.
Proof. unfold hc. now replace (- x * - x) with (x * x) by ring. Qed.
Lemma hc_zero r x : 0 <= r -> r <= Rabs x -> hc r x = 0.
Proof.
  intros H0 H. unfold hc. rewrite Rmax_right; [apply sqrt_0|].
  assert (r * r <= Rabs x * Rabs x) by nra. rewrite <- Rabs_mult in H1. rewrite (Rabs_right (x * x)) in H1 by nra. lra.
Qed.
Lemma cont_max_0 x : continuous (fun y => Rmax y 0) x.
Proof.
  apply continuity_pt_filterlim. intros eps He. exists eps. split; [exact He|]. intros y (_ & Hy). unfold dist in *. cbn in *.
  unfold R_dist in *. unfold Rmax. destruct (Rle_dec y 0), (Rle_dec x 0); unfold Rabs in *; repeat destruct (Rcase_abs _); lra.
Qed.
Lemma hc_cont r x : continuous (hc r) x.
Proof.
  unfold hc. apply (continuous_comp (fun x => Rmax (r * r - x * x) 0) sqrt).
  - apply (continuous_comp (fun x => r * r - x * x) (fun y => Rmax y 0)); [|apply cont_max_0].
    apply c_minus; [apply c_const|].
    apply c_mult; apply c_id.
  - apply continuity_pt_filterlim. apply continuity_pt_sqrt. apply Rmax_r.
Qed.
Lemma cont_min (f g : R -> R) x : continuous f x -> continuous g x -> continuous (fun y => Rmin (f y) (g y)) x.
Proof.
  intros Hf Hg. apply continuous_ext with (fun y => (f y + g y - Rabs (f y - g y)) / 2).
  - intros y. unfold Rmin, Rabs. destruct (Rle_dec _ _), (Rcase_abs _); lra.
  - unfold Rdiv. apply c_mult; [|apply c_const].
    apply c_minus.
    + apply c_plus; assumption.
    + apply (continuous_comp (fun y => f y - g y) Rabs); [apply c_minus; assumption|]. apply continuous_Rabs.
Qed.
Definition slice (r1 r2 d x : R) : R := 2 * Rmin (hc r1 x) (hc r2 (x - d)).
Lemma hc_shift_cont r d x : continuous (fun x => hc r (x - d)) x.
Proof.
  apply (continuous_comp (fun x => x - d) (hc r)); [|apply hc_cont].
  apply c_minus; [apply c_id|apply c_const].
Qed.
Lemma two_cont (f : R -> R) x : continuous f x -> continuous (fun y => 2 * f y) x.
Proof. intros H. apply c_mult; [apply c_const|exact H]. Qed.
Lemma slice_cont r1 r2 d x : continuous (slice r1 r2 d) x.
Proof. unfold slice. apply two_cont. apply cont_min; [apply hc_cont|apply hc_shift_cont]. Qed.
Lemma slice_ex r1 r2 d a b : ex_RInt (slice r1 r2 d) a b.
Proof. apply @ex_RInt_continuous. intros; apply slice_cont. Qed.
Lemma hc2_ex r a b : ex_RInt (fun x => 2 * hc r x) a b.
Proof. apply @ex_RInt_continuous. intros; apply two_cont, hc_cont. Qed.

(** ** the segment integral *)
Definition seg (r t : R) : R := r * r * acos (t / r) - t * sqrt (r * r - t * t).
Lemma hc_cos r th : 0 < r -> 0 <= th <= PI -> hc r (r * cos th) = r * sin th.
Proof.
  intros Hr Ht. unfold hc. pose proof (sin2_cos2 th) as T. unfold Rsqr in T. pose proof (sin_ge_0 th (proj1 Ht) (proj2 Ht)) as S.
  replace (r * r - r * cos th * (r * cos th)) with ((r * sin th) * (r * sin th)) by nra.
  rewrite Rmax_left by nra. apply sqrt_square. nra.
Qed.
Lemma seg_int r t : 0 < r -> - r <= t <= r -> RInt (fun x => 2 * hc r x) t r = seg r t.
Proof.
  intros Hr Ht. pose proof PI_RGT_0 as Pi.
  assert (Hq : -1 <= t / r <= 1).
  { split; apply Rmult_le_reg_r with r; try lra; unfold Rdiv; rewrite Rmult_assoc, Rinv_l by lra; lra. }
  set (al := acos (t / r)). pose proof (acos_bound (t / r)) as Hb. fold al in Hb.
  assert (Hc : r * cos al = t) by (unfold al; rewrite cos_acos by exact Hq; field; lra).
  (* substitute x = r cos th *)
  assert (H1 : RInt (fun y => scal (- (r * sin y)) (2 * hc r (r * cos y))) al 0 = RInt (fun x => 2 * hc r x) (r * cos al) (r * cos 0)).
  { apply (RInt_comp (fun x => 2 * hc r x) (fun y => r * cos y) (fun y => - (r * sin y)) al 0).
    - intros x _. apply two_cont, hc_cont.
    - intros x _. split.
      + auto_derive; [exact I|ring].
      + apply c_opp. apply c_mult; [apply c_const|apply continuous_sin]. }
  rewrite Hc, cos_0, Rmult_1_r in H1. rewrite <- H1.
  assert (H2 : is_RInt (fun y => - (2 * (r * r) * (sin y * sin y))) al 0 (minus (- (r * r * (0 - sin 0 * cos 0))) (- (r * r * (al - sin al * cos al))))).
  { apply (is_RInt_derive (fun y => - (r * r * (y - sin y * cos y))) (fun y => - (2 * (r * r) * (sin y * sin y)))).
    - intros x _. auto_derive; [exact I|]. pose proof (sin2_cos2 x) as T. unfold Rsqr in T. replace (cos x * cos x) with (1 - sin x * sin x) by lra.
      replace (1 * cos x * cos x) with (1 - sin x * sin x) by lra. ring_simplify. nra.
    - intros x _. apply c_opp.
      apply c_mult; [apply c_const|].
      apply c_mult; apply continuous_sin. }
  rewrite (RInt_ext _ (fun y => - (2 * (r * r) * (sin y * sin y)))).
  - rewrite (is_RInt_unique _ _ _ _ H2). unfold minus, plus, opp; cbn. rewrite sin_0.
    unfold seg. fold al. assert (Hs : sqrt (r * r - t * t) = r * sin al).
    { rewrite <- Hc. rewrite <- hc_cos by lra. unfold hc. rewrite Rmax_left; [reflexivity|]. rewrite Hc. nra. }
    rewrite Hs, <- Hc. ring.
  - intros x. rewrite Rmin_right, Rmax_left by lra. intros Hx. unfold scal; cbn; unfold mult; cbn. rewrite hc_cos by lra. ring.
Qed.
Lemma hc2_zero_int r a b : 0 <= r -> (r <= a /\ r <= b \/ a <= - r /\ b <= - r) -> RInt (fun x => 2 * hc r x) a b = 0.
Proof.
  intros H0 H. rewrite (RInt_ext _ (fun _ => 0)).
  - rewrite RInt_const. unfold scal; cbn; unfold mult; cbn. ring.
  - intros x Hx. rewrite hc_zero; [apply Rmult_0_r|exact H0|]. unfold Rmin, Rmax in Hx. unfold Rabs. destruct (Rle_dec a b), (Rcase_abs x); lra.
Qed.
Lemma seg_int_ext r t T : 0 < r -> - r <= t <= r -> r <= T -> RInt (fun x => 2 * hc r x) t T = seg r t.
Proof.
  intros Hr Ht HT. rewrite <- (RInt_Chasles _ t r T) by apply hc2_ex. rewrite seg_int by lra.
  rewrite (hc2_zero_int r r T) by lra. unfold plus; cbn. ring.
Qed.
Lemma seg_full r : 0 < r -> seg r (- r) = PI * (r * r).
Proof.
  intros H. unfold seg. replace (- r / r) with (- (1)) by (field; lra). rewrite acos_opp, acos_1.
  replace (r * r - - r * - r) with 0 by ring. rewrite sqrt_0. ring.
Qed.
Lemma disc_area r a b : 0 < r -> a <= - r -> r <= b -> RInt (fun x => 2 * hc r x) a b = PI * (r * r).
Proof.
  intros Hr Ha Hb. rewrite <- (RInt_Chasles _ a (- r) b) by apply hc2_ex. rewrite (hc2_zero_int r a (- r)) by lra.
  rewrite seg_int_ext by lra. rewrite seg_full by exact Hr. unfold plus; cbn. ring.
Qed.
(** reflected and shifted: y = d - x *)
Lemma hc2_shift r d a b : RInt (fun x => 2 * hc r (x - d)) a b = RInt (fun x => 2 * hc r x) (d - b) (d - a).
Proof.
  pose proof (RInt_comp_lin (fun x => 2 * hc r x) (-1) d b a) as L.
  assert (E : ex_RInt (fun x => 2 * hc r x) (-1 * b + d) (-1 * a + d)) by apply hc2_ex. specialize (L E).
  replace (-1 * b + d) with (d - b) in L by ring. replace (-1 * a + d) with (d - a) in L by ring. rewrite <- L.
  rewrite <- (opp_RInt_swap (fun y => scal (-1) (2 * hc r (-1 * y + d)))).
  2:{ apply @ex_RInt_continuous. intros z _. apply (continuous_scal_r (-1) (fun y => 2 * hc r (-1 * y + d))). apply two_cont.
      apply (continuous_comp (fun y => -1 * y + d) (hc r)); [|apply hc_cont].
      apply c_plus; [|apply c_const]. apply c_mult; [apply c_const|apply c_id]. }
  rewrite <- (RInt_opp (fun y => scal (-1) (2 * hc r (-1 * y + d)))).
  2:{ apply @ex_RInt_continuous. intros z _. apply (continuous_scal_r (-1) (fun y => 2 * hc r (-1 * y + d))). apply two_cont.
      apply (continuous_comp (fun y => -1 * y + d) (hc r)); [|apply hc_cont].
      apply c_plus; [|apply c_const]. apply c_mult; [apply c_const|apply c_id]. }
  apply RInt_ext. intros x _. unfold opp, scal; cbn; unfold mult; cbn. replace (-1 * x + d) with (- (x - d)) by ring. rewrite hc_even. ring.
Qed.

(** ** the three configurations *)
Lemma hc_le r1 r2 x d : r2 * r2 - (x - d) * (x - d) <= r1 * r1 - x * x -> hc r2 (x - d) <= hc r1 x.
Proof. intros H. unfold hc. apply sqrt_le_1_alt. apply Rle_max_compat_r. exact H. Qed.
Lemma hc_ge r1 r2 x d : r1 * r1 - x * x <= r2 * r2 - (x - d) * (x - d) -> hc r1 x <= hc r2 (x - d).
Proof. intros H. unfold hc. apply sqrt_le_1_alt. apply Rle_max_compat_r. exact H. Qed.

Lemma overlap_disjoint r1 r2 d : 0 <= r1 -> 0 <= r2 -> r1 + r2 <= d -> overlap_area r1 r2 d = 0.
Proof.
  intros H1 H2 H. unfold overlap_area. rewrite (RInt_ext _ (fun _ => 0)).
  - rewrite RInt_const. unfold scal; cbn; unfold mult; cbn. ring.
  - rewrite Rmin_left, Rmax_right by lra. intros x Hx. rewrite (hc_zero r2 (x - d)); [|exact H2|].
    + rewrite Rmin_right by apply hc_nonneg. apply Rmult_0_r.
    + rewrite Rabs_left1 by lra. lra.
Qed.
Lemma overlap_contained r1 r2 d : 0 < r2 -> 0 <= d -> d <= r1 - r2 -> overlap_area r1 r2 d = PI * (r2 * r2).
Proof.
  intros H2 Hd H. unfold overlap_area. rewrite (RInt_ext _ (fun x => 2 * hc r2 (x - d))).
  - rewrite hc2_shift. apply disc_area; lra.
  - rewrite Rmin_left, Rmax_right by lra. intros x Hx. rewrite Rmin_right; [reflexivity|].
    destruct (Rle_lt_dec r2 (Rabs (x - d))) as [E|E]; [rewrite (hc_zero r2) by lra; apply hc_nonneg|].
    apply hc_le. apply Rabs_def2 in E. nra.
Qed.
Lemma overlap_lens r1 r2 d : 0 < r2 <= r1 -> r1 - r2 < d < r1 + r2 ->
  overlap_area r1 r2 d = seg r1 ((r1 * r1 - r2 * r2 + d * d) / (2 * d)) + seg r2 (d - (r1 * r1 - r2 * r2 + d * d) / (2 * d)).
Proof.
  intros (H2 & H12) (Ha & Hb). assert (Hd : 0 < d) by lra. set (d1 := (r1 * r1 - r2 * r2 + d * d) / (2 * d)).
  assert (E1 : 2 * d * d1 = r1 * r1 - r2 * r2 + d * d) by (unfold d1; field; lra).
  assert (B1 : - r1 < d1 < r1). { split; apply Rmult_lt_reg_l with (2 * d); nra. }
  assert (B2 : - r2 < d - d1 < r2). { split; apply Rmult_lt_reg_l with (2 * d); nra. }
  unfold overlap_area. rewrite <- (RInt_Chasles _ (- r1) d1 r1) by apply (slice_ex r1 r2 d).
  rewrite (RInt_ext _ (fun x => 2 * hc r2 (x - d)) (- r1) d1).
  - rewrite (RInt_ext _ (fun x => 2 * hc r1 x) d1 r1).
    + rewrite hc2_shift, seg_int by lra. rewrite seg_int_ext by lra. unfold plus; cbn. ring.
    + rewrite Rmin_left, Rmax_right by lra. intros x Hx. rewrite Rmin_left; [reflexivity|]. apply hc_ge. nra.
  - rewrite Rmin_left, Rmax_right by lra. intros x Hx. rewrite Rmin_right; [reflexivity|]. apply hc_le. nra.
Qed.

(** symmetry of the overlap area *)
Lemma slice_zero_out r1 r2 d a b : 0 <= r1 -> 0 <= r2 -> (r1 <= a /\ r1 <= b \/ a <= - r1 /\ b <= - r1) -> RInt (slice r1 r2 d) a b = 0.
Proof.
  intros H1 H2 H. rewrite (RInt_ext _ (fun _ => 0)).
  - rewrite RInt_const. unfold scal; cbn; unfold mult; cbn. ring.
  - intros x Hx. unfold slice. rewrite (hc_zero r1 x); [|exact H1|].
    + rewrite Rmin_left by apply hc_nonneg. apply Rmult_0_r.
    + unfold Rmin, Rmax in Hx. unfold Rabs. destruct (Rle_dec a b), (Rcase_abs x); lra.
Qed.
Lemma overlap_wide r1 r2 d a b : 0 <= r1 -> 0 <= r2 -> a <= - r1 -> r1 <= b -> RInt (slice r1 r2 d) a b = overlap_area r1 r2 d.
Proof.
  intros H1 H2 Ha Hb. change (overlap_area r1 r2 d) with (RInt (slice r1 r2 d) (- r1) r1).
  rewrite <- (RInt_Chasles _ a (- r1) b) by apply slice_ex. rewrite <- (RInt_Chasles _ (- r1) r1 b) by apply slice_ex.
  rewrite (slice_zero_out r1 r2 d a (- r1)), (slice_zero_out r1 r2 d r1 b) by lra. unfold plus; cbn. ring.
Qed.
Lemma slice_swap r1 r2 d x : slice r1 r2 d (d - x) = slice r2 r1 d x.
Proof.
  unfold slice. replace (d - x - d) with (- x) by ring. rewrite hc_even. replace (d - x) with (- (x - d)) by ring. rewrite hc_even.
  now rewrite Rmin_comm.
Qed.
Lemma overlap_sym r1 r2 d : 0 <= r1 -> 0 <= r2 -> 0 <= d -> overlap_area r1 r2 d = overlap_area r2 r1 d.
Proof.
  intros H1 H2 Hd. set (L := r1 + r2 + d).
  rewrite <- (overlap_wide r1 r2 d (d - L) (d + L)) by (unfold L; lra).
  rewrite <- (overlap_wide r2 r1 d (- L) L) by (unfold L; lra).
  pose proof (RInt_comp_lin (slice r1 r2 d) (-1) d L (- L) ltac:(apply slice_ex)) as E.
  replace (-1 * L + d) with (d - L) in E by ring. replace (-1 * - L + d) with (d + L) in E by ring. rewrite <- E.
  rewrite (RInt_ext _ (fun y => opp (slice r2 r1 d y))).
  - rewrite (RInt_opp (slice r2 r1 d)) by apply slice_ex. rewrite <- (opp_RInt_swap (slice r2 r1 d)) by apply slice_ex.
    rewrite opp_opp. reflexivity.
  - intros x _. unfold scal, opp; cbn; unfold mult; cbn. replace (-1 * x + d) with (d - x) by ring. rewrite slice_swap. ring.
Qed.

(** ** the code *)
Lemma area_part_seg r t : 0 < r -> - r <= t <= r -> area_part r t = seg r t.
Proof.
  intros Hr Ht. unfold area_part, seg.
  assert (Hq : -1 <= t / r <= 1).
  { split; apply Rmult_le_reg_r with r; try lra; unfold Rdiv; rewrite Rmult_assoc, Rinv_l by lra; lra. }
  rewrite (Rmin_left (t / r) 1) by lra. rewrite (Rmax_left (t / r) (-1)) by lra. rewrite (Rmax_left (r * r - t * t) 0) by nra. reflexivity.
Qed.
Lemma area_overlap r1 r2 d : 0 < r2 <= r1 -> r1 - r2 < d < r1 + r2 -> area r1 r2 d = overlap_area r1 r2 d.
Proof.
  intros H H'. rewrite overlap_lens by assumption. unfold area. cbn zeta. assert (Hd : 0 < d) by lra.
  set (d1 := (r1 * r1 - r2 * r2 + d * d) / (2 * d)).
  assert (E1 : 2 * d * d1 = r1 * r1 - r2 * r2 + d * d) by (unfold d1; field; lra).
  assert (B1 : - r1 < d1 < r1). { split; apply Rmult_lt_reg_l with (2 * d); nra. }
  assert (B2 : - r2 < d - d1 < r2). { split; apply Rmult_lt_reg_l with (2 * d); nra. }
  rewrite !area_part_seg by lra. reflexivity.
Qed.
Lemma calc_area_overlap r1 r2 d : 0 < r1 -> 0 < r2 -> 0 <= d -> calc_area r1 r2 d = overlap_area r1 r2 d.
Proof.
  intros H1 H2 Hd. unfold calc_area. rdec.
  - symmetry. now apply overlap_contained.
  - apply area_overlap; lra.
  - rewrite overlap_sym by lra. symmetry. apply overlap_contained; lra.
  - rewrite overlap_sym by lra. apply area_overlap; lra.
  - symmetry. apply overlap_disjoint; lra.
Qed.
Lemma overlap_bounds r1 r2 d : 0 < r1 -> 0 < r2 -> 0 <= d -> 0 <= overlap_area r1 r2 d <= PI * (Rmin r1 r2 * Rmin r1 r2).
Proof.
  intros H1 H2 Hd.
  assert (G : forall r1 r2, 0 < r1 -> 0 < r2 -> 0 <= overlap_area r1 r2 d <= PI * (r1 * r1)).
  { clear - Hd. intros r1 r2 H1 H2. unfold overlap_area. split.
    - apply RInt_ge_0; [lra|apply (slice_ex r1 r2 d)|]. intros x _.
      assert (0 <= Rmin (hc r1 x) (hc r2 (x - d))) by (apply Rmin_glb; apply hc_nonneg). lra.
    - rewrite <- (disc_area r1 (- r1) r1) by lra. apply RInt_le; [lra|apply (slice_ex r1 r2 d)|apply hc2_ex|].
      intros x _. pose proof (Rmin_l (hc r1 x) (hc r2 (x - d))). lra. }
  unfold Rmin. destruct (Rle_dec r1 r2); [now apply G|]. rewrite overlap_sym by lra. now apply G.
Qed.
(** smaller distance, larger radius: more overlap *)
Lemma overlap_mono_radius r1 r2 r2' d : 0 < r1 -> 0 < r2 <= r2' -> 0 <= d -> overlap_area r1 r2 d <= overlap_area r1 r2' d.
Proof.
  intros H1 H2 Hd. unfold overlap_area. apply RInt_le; [lra|apply (slice_ex r1 r2 d)|apply (slice_ex r1 r2' d)|].
  intros x _. apply Rmult_le_compat_l; [lra|]. apply Rle_min_compat_l. unfold hc. apply sqrt_le_1_alt, Rle_max_compat_r. nra.
Qed.

Lemma calc_area_extremes r1 r2 d : 0 < r1 -> 0 < r2 -> 0 <= d ->
  (r1 + r2 <= d -> calc_area r1 r2 d = 0) /\ (d <= Rabs (r1 - r2) -> calc_area r1 r2 d = PI * (Rmin r1 r2 * Rmin r1 r2)).
Proof.
  intros H1 H2 Hd. unfold calc_area, Rmin, Rabs. split; intros H.
  - rdec; try lra.
  - destruct (Rcase_abs (r1 - r2)); destruct (Rle_dec r1 r2); rdec; try lra; replace r2 with r1 by lra; reflexivity.
Qed.
Lemma weight_area D wr dist : 0 < D -> 0 < wr -> 0 <= dist -> top_hat_weight D wr dist = overlap_area (D / 2) wr dist / (PI * ((D / 2) * (D / 2))).
Proof.
  intros HD Hw Hd. unfold top_hat_weight. rewrite <- calc_area_overlap by lra. rdec; [reflexivity|].
  rewrite (proj1 (calc_area_extremes (D / 2) wr dist ltac:(lra) Hw Hd)) by lra. unfold Rdiv. ring.
Qed.
Lemma weight_unit D wr dist : 0 < D -> 0 < wr -> 0 <= dist -> 0 <= top_hat_weight D wr dist <= 1.
Proof.
  intros HD Hw Hd. rewrite weight_area by assumption. pose proof PI_RGT_0 as Pi.
  assert (Hp : 0 < PI * (D / 2 * (D / 2))) by (apply Rmult_lt_0_compat; [lra|nra]).
  pose proof (overlap_bounds (D / 2) wr dist ltac:(lra) Hw Hd) as (A & B). split.
  - apply Rmult_le_pos; [exact A|apply Rlt_le, Rinv_0_lt_compat; exact Hp].
  - apply (Rdiv_le_1 _ _ Hp).
    pose proof (Rmin_l (D / 2) wr). assert (0 < Rmin (D / 2) wr) by (apply Rmin_glb_lt; lra).
    apply Rle_trans with (1 := B). apply Rmult_le_compat_l; [lra|]. apply Rmult_le_compat; lra.
Qed.
Lemma weight_in_out D wr dist : 0 < D -> 0 < wr -> 0 <= dist ->
  (dist + D / 2 <= wr -> top_hat_weight D wr dist = 1) /\ (wr + D / 2 <= dist -> top_hat_weight D wr dist = 0).
Proof.
  intros HD Hw Hd. pose proof PI_RGT_0 as Pi. split; intros H.
  - rewrite weight_area by assumption. rewrite <- calc_area_overlap by lra.
    rewrite (proj2 (calc_area_extremes (D / 2) wr dist ltac:(lra) Hw Hd)).
    + rewrite Rmin_left by lra. field. split; lra.
    + rewrite Rabs_left1; lra.
  - unfold top_hat_weight. rdec; [lra|reflexivity].
Qed.
