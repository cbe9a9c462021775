(** Proofs about wind profiles. *)
From Verif Require Import RBase Profiles_Model.
Local Open Scope R_scope.

Lemma kappa_pos : 0 < kappa. Proof. unfold kappa. lra. Qed.
Lemma logz_nonneg h z0 : 0 < z0 -> 0 <= logz h z0.
Proof.
  intros H. unfold logz. pose proof (Rmax_r h z0).
  assert (1 <= Rmax h z0 / z0). { apply Rmult_le_reg_r with z0; [exact H|]. unfold Rdiv. rewrite Rmult_assoc, Rinv_l by lra. lra. }
  destruct (Req_dec (Rmax h z0 / z0) 1) as [E|E]; [rewrite E, ln_1; lra|]. rewrite <- ln_1. left. apply ln_increasing; lra.
Qed.
Lemma logz_pos h z0 : 0 < z0 < h -> 0 < logz h z0.
Proof.
  intros H. unfold logz. rewrite Rmax_left by lra. rewrite <- ln_1. apply ln_increasing; [lra|].
  apply Rmult_lt_reg_r with z0; [lra|]. unfold Rdiv. rewrite Rmult_assoc, Rinv_l by lra. lra.
Qed.
Lemma logz_mono h h' z0 : 0 < z0 -> h <= h' -> logz h z0 <= logz h' z0.
Proof.
  intros H Hh. unfold logz. assert (M : Rmax h z0 <= Rmax h' z0) by (apply Rle_max_compat_r; exact Hh). pose proof (Rmax_r h z0).
  assert (0 < / z0) by (apply Rinv_0_lt_compat; lra).
  destruct (Req_dec (Rmax h z0) (Rmax h' z0)) as [E|E]; [rewrite E; lra|]. left. apply ln_increasing; unfold Rdiv; nra.
Qed.
Lemma logz_strict h h' z0 : 0 < z0 -> z0 <= h < h' -> logz h z0 < logz h' z0.
Proof.
  intros H Hh. unfold logz. rewrite !Rmax_left by lra. assert (0 < / z0) by (apply Rinv_0_lt_compat; lra). apply ln_increasing; unfold Rdiv; nra.
Qed.

Lemma ws_at_ref w f : f <> 0 -> w * kappa / f / kappa * f = w.
Proof. intros H. pose proof kappa_pos. field. split; lra. Qed.
Lemma neutral_ref w hr z0 : 0 < z0 < hr -> neutral_ws (Wind w hr) z0 hr = w.
Proof. intros H. unfold neutral_ws, calc_neutral, ustar_neutral. apply ws_at_ref. apply Rgt_not_eq. now apply logz_pos. Qed.
Lemma neg_psi_stable h mol : 0 < mol -> - psi_stable h mol = 5 * (Rmin h mol / mol).
Proof. intros H. unfold psi_stable. rewrite Rabs_pos_eq by lra. field. lra. Qed.
Lemma stable_f_mono h h' z0 mol : 0 < z0 -> 0 < mol -> h <= h' -> logz h z0 - psi_stable h mol <= logz h' z0 - psi_stable h' mol.
Proof.
  intros H Hm Hh. pose proof (logz_mono h h' z0 H Hh). pose proof (neg_psi_stable h mol Hm). pose proof (neg_psi_stable h' mol Hm).
  assert (Rmin h mol <= Rmin h' mol) by (apply Rle_min_compat_r; exact Hh). assert (0 < / mol) by now apply Rinv_0_lt_compat.
  assert (Rmin h mol / mol <= Rmin h' mol / mol) by (unfold Rdiv; nra). lra.
Qed.
Lemma stable_f_nonneg h z0 mol : 0 < z0 -> 0 < mol -> 0 <= h -> 0 <= logz h z0 - psi_stable h mol.
Proof.
  intros H Hm Hh. pose proof (logz_nonneg h z0 H). pose proof (neg_psi_stable h mol Hm). assert (0 < / mol) by now apply Rinv_0_lt_compat.
  assert (0 <= Rmin h mol / mol) by (apply Rmult_le_pos; [apply Rmin_glb|]; lra). lra.
Qed.
Lemma stable_f_pos h z0 mol : 0 < z0 -> 0 < mol -> 0 < h -> 0 < logz h z0 - psi_stable h mol.
Proof.
  intros H Hm Hh. pose proof (logz_nonneg h z0 H). pose proof (neg_psi_stable h mol Hm). assert (0 < / mol) by now apply Rinv_0_lt_compat.
  assert (0 < Rmin h mol / mol) by (apply Rmult_lt_0_compat; [apply Rmin_glb_lt|]; lra). lra.
Qed.
Lemma stable_ref w hr z0 mol : 0 < z0 -> 0 < mol -> 0 < hr -> stable_ws (Wind w hr) z0 mol hr = w.
Proof. intros H Hm Hh. unfold stable_ws, calc_psi, ustar_psi. apply ws_at_ref. apply Rgt_not_eq. now apply stable_f_pos. Qed.

(** which friction velocity the profile uses, and when it is not negative *)
Definition us_of_neutral i z0 := match i with Ustar us => us | Wind w hr => ustar_neutral w hr z0 end.
Lemma scale_pos us : 0 <= us -> 0 <= us / kappa.
Proof. intros H. pose proof kappa_pos. apply Rmult_le_pos; [exact H|]. apply Rlt_le, Rinv_0_lt_compat. exact kappa_pos. Qed.
Lemma us_nonneg w f : 0 <= w -> 0 < f -> 0 <= w * kappa / f.
Proof. intros H Hf. pose proof kappa_pos. apply Rmult_le_pos; [nra|apply Rlt_le, Rinv_0_lt_compat; exact Hf]. Qed.
Definition ref_ok (i : ref_input) (z0 : R) : Prop := match i with Ustar us => 0 <= us | Wind w hr => 0 <= w /\ z0 < hr end.
Lemma neutral_shape i z0 h h' : 0 < z0 -> ref_ok i z0 -> h <= h' -> 0 <= neutral_ws i z0 h <= neutral_ws i z0 h'.
Proof.
  intros H Ho Hh. assert (U : 0 <= match i with Ustar us => us | Wind w hr => ustar_neutral w hr z0 end).
  { destruct i as [us|w hr]; [exact Ho|]. cbn in Ho. apply us_nonneg; [tauto|]. apply logz_pos. lra. }
  apply scale_pos in U. unfold neutral_ws, calc_neutral. pose proof (logz_nonneg h z0 H). pose proof (logz_mono h h' z0 H Hh).
  set (k := _ / kappa) in *. nra.
Qed.
Lemma stable_shape i z0 mol h h' : 0 < z0 -> 0 < mol -> ref_ok i z0 -> 0 <= h <= h' -> 0 <= stable_ws i z0 mol h <= stable_ws i z0 mol h'.
Proof.
  intros H Hm Ho Hh. assert (U : 0 <= match i with Ustar us => us | Wind w hr => ustar_psi (psi_stable hr mol) w hr z0 end).
  { destruct i as [us|w hr]; [exact Ho|]. cbn in Ho. apply us_nonneg; [tauto|]. apply stable_f_pos; lra. }
  apply scale_pos in U. unfold stable_ws, calc_psi. pose proof (stable_f_nonneg h z0 mol H Hm ltac:(lra)). pose proof (stable_f_mono h h' z0 mol H Hm ltac:(lra)).
  set (k := _ / kappa) in *. nra.
Qed.

(** unstable *)
Lemma unst_arg h mol : 0 < h -> mol < 0 -> 1 < 1 - 16 * h / mol.
Proof.
  intros H Hm. assert (E : - (16 * h / mol) = 16 * h / - mol) by (field; lra). assert (0 < 16 * h / - mol) by (apply Rdiv_lt_0_compat; lra). lra.
Qed.
Lemma Rpower_gt_1 a p : 1 < a -> 0 < p -> 1 < Rpower a p.
Proof.
  intros H Hp. unfold Rpower. rewrite <- exp_0. apply exp_increasing. apply Rmult_lt_0_compat; [exact Hp|]. rewrite <- ln_1. apply ln_increasing; lra.
Qed.
Lemma unst_x_gt_1 h mol : 0 < h -> mol < 0 -> 1 < unst_x h mol.
Proof. intros H Hm. apply Rpower_gt_1; [now apply unst_arg|lra]. Qed.
Lemma unst_x_pow4 h mol : 0 < h -> mol < 0 -> unst_x h mol * unst_x h mol * (unst_x h mol * unst_x h mol) = 1 - 16 * h / mol.
Proof.
  intros H Hm. pose proof (unst_arg h mol H Hm). unfold unst_x. rewrite <- !Rpower_plus. replace (1 / 4 + 1 / 4 + (1 / 4 + 1 / 4)) with 1 by field. apply Rpower_1. lra.
Qed.
Lemma Rpower_lt_base a b p : 0 < a < b -> 0 < p -> Rpower a p < Rpower b p.
Proof. intros H Hp. unfold Rpower. apply exp_increasing. apply Rmult_lt_compat_l; [exact Hp|]. apply ln_increasing; lra. Qed.
Lemma unst_x_mono h h' mol : 0 < h < h' -> mol < 0 -> unst_x h mol < unst_x h' mol.
Proof.
  intros H Hm. unfold unst_x. apply Rpower_lt_base; [|lra]. pose proof (unst_arg h mol ltac:(lra) Hm). split; [lra|].
  assert (E : forall y, 1 - 16 * y / mol = 1 + 16 * y * / - mol) by (intros; field; lra). rewrite !E. assert (0 < / - mol) by (apply Rinv_0_lt_compat; lra). nra.
Qed.
Lemma ln_quot a b : 0 < a -> 0 < b -> ln (a / b) = ln a - ln b.
Proof. intros Ha Hb. unfold Rdiv. rewrite ln_mult by (try assumption; now apply Rinv_0_lt_compat). rewrite ln_Rinv by exact Hb. ring. Qed.
(** closed form: ln(h/z0) - psi = ln((x-1)/(x+1)) + 2 atan x + const *)
Lemma unstable_closed h z0 mol : 0 < z0 <= h -> mol < 0 -> let x := unst_x h mol in
  logz h z0 - psi_unstable h mol = ln ((x - 1) / (x + 1)) + 2 * atan x + (3 * ln 2 + ln (- mol / 16 / z0) - PI / 2).
Proof.
  intros H Hm. cbn zeta. pose proof (unst_x_gt_1 h mol ltac:(lra) Hm) as X1. pose proof (unst_x_pow4 h mol ltac:(lra) Hm) as X4.
  unfold psi_unstable, psi_x. set (x := unst_x h mol) in *.
  assert (Eh : h / z0 = (x - 1) * (x + 1) * (1 + x * x) * (- mol / 16 / z0)).
  { replace ((x - 1) * (x + 1) * (1 + x * x)) with (x * x * (x * x) - 1) by ring. rewrite X4. field. lra. }
  unfold logz. rewrite Rmax_left by lra. rewrite Eh.
  assert (P1 : 0 < x - 1) by lra. assert (P2 : 0 < x + 1) by lra. assert (P3 : 0 < 1 + x * x) by nra.
  assert (P4 : 0 < - mol / 16 / z0) by (apply Rdiv_lt_0_compat; lra).
  rewrite !ln_mult; try assumption; try (apply Rmult_lt_0_compat; assumption). 2:{ apply Rmult_lt_0_compat; [apply Rmult_lt_0_compat|]; assumption. }
  rewrite !ln_quot by lra. replace (1 + x) with (x + 1) by ring. lra.
Qed.
Lemma unstable_f_strict h h' z0 mol : 0 < z0 <= h -> h < h' -> mol < 0 -> logz h z0 - psi_unstable h mol < logz h' z0 - psi_unstable h' mol.
Proof.
  intros H Hh Hm. rewrite !unstable_closed by lra. cbn zeta. pose proof (unst_x_gt_1 h mol ltac:(lra) Hm). pose proof (unst_x_mono h h' mol ltac:(lra) Hm).
  set (x := unst_x h mol) in *. set (x' := unst_x h' mol) in *.
  assert (atan x < atan x') by now apply atan_increasing.
  assert (ln ((x - 1) / (x + 1)) < ln ((x' - 1) / (x' + 1))); [|lra].
  apply ln_increasing; [apply Rdiv_lt_0_compat; lra|].
  apply Rmult_lt_reg_r with ((x + 1) * (x' + 1)); [nra|].
  replace ((x - 1) / (x + 1) * ((x + 1) * (x' + 1))) with ((x - 1) * (x' + 1)) by (field; lra).
  replace ((x' - 1) / (x' + 1) * ((x + 1) * (x' + 1))) with ((x' - 1) * (x + 1)) by (field; lra). nra.
Qed.
Lemma unstable_ref w hr z0 mol : logz hr z0 - psi_unstable hr mol <> 0 -> unstable_ws (Wind w hr) z0 mol hr = w.
Proof. intros H. unfold unstable_ws, calc_psi, ustar_psi. now apply ws_at_ref. Qed.
Lemma unstable_mono i z0 mol h h' : 0 < z0 <= h -> h <= h' -> mol < 0 ->
  match i with Ustar us => 0 <= us | Wind w hr => 0 <= w /\ 0 < logz hr z0 - psi_unstable hr mol end ->
  unstable_ws i z0 mol h <= unstable_ws i z0 mol h'.
Proof.
  intros H Hh Hm Ho. assert (U : 0 <= match i with Ustar us => us | Wind w hr => ustar_psi (psi_unstable hr mol) w hr z0 end).
  { destruct i as [us|w hr]; [exact Ho|]. apply us_nonneg; tauto. }
  apply scale_pos in U. unfold unstable_ws, calc_psi. set (k := _ / kappa) in *.
  destruct (Req_dec h h') as [E|E]; [subst; lra|]. pose proof (unstable_f_strict h h' z0 mol H ltac:(lra) Hm). nra.
Qed.
(** psi > 0 for x > 1 *)
Lemma ln_lower y : 0 < y -> 1 - / y <= ln y.
Proof.
  intros H. pose proof (exp_ineq1_le (- ln y)) as E. rewrite exp_Ropp, exp_ln in E by exact H. lra.
Qed.
Lemma psi_x_pos x : 1 < x -> 0 < psi_x x.
Proof.
  intros H.
  assert (D : forall z, 0 < z -> derivable_pt_lim psi_x z (4 * (z * z) / ((1 + z) * (1 + z * z)))).
  { intros z Hz. unfold psi_x.
    assert (D1 : derivable_pt_lim (fun x => ln ((1 + x) / 2)) z (/ ((1 + z) / 2) * (1 / 2))).
    { apply (derivable_pt_lim_comp (fun x => (1 + x) / 2) ln z (1 / 2) (/ ((1 + z) / 2))).
      - replace (1 / 2) with ((0 + 1) * / 2 + (1 + z) * 0) by field.
        apply (derivable_pt_lim_mult (fun x => 1 + x) (fun _ => / 2)); [|apply derivable_pt_lim_const].
        apply (derivable_pt_lim_plus (fun _ => 1) id); [apply derivable_pt_lim_const|apply derivable_pt_lim_id].
      - apply derivable_pt_lim_ln. lra. }
    assert (D2 : derivable_pt_lim (fun x => ln ((1 + x * x) / 2)) z (/ ((1 + z * z) / 2) * z)).
    { apply (derivable_pt_lim_comp (fun x => (1 + x * x) / 2) ln z z (/ ((1 + z * z) / 2))).
      - assert (E : z = (0 + (1 * z + z * 1)) * / 2 + (1 + z * z) * 0) by field. rewrite E at 2.
        apply (derivable_pt_lim_mult (fun x => 1 + x * x) (fun _ => / 2)); [|apply derivable_pt_lim_const].
        apply (derivable_pt_lim_plus (fun _ => 1) (fun x => x * x)); [apply derivable_pt_lim_const|].
        apply (derivable_pt_lim_mult id id); apply derivable_pt_lim_id.
      - apply derivable_pt_lim_ln. nra. }
    assert (D3 : derivable_pt_lim (fun x => atan x) z (1 / (1 + z * z))).
    { pose proof (derivable_pt_lim_atan z) as A. unfold Rsqr in A. replace (1 / (1 + z * z)) with (/ (1 + z ^ 2)); [exact A|]. field. nra. }
    replace (4 * (z * z) / ((1 + z) * (1 + z * z))) with (2 * (/ ((1 + z) / 2) * (1 / 2)) + / ((1 + z * z) / 2) * z - 2 * (1 / (1 + z * z)) + 0) by (field; split; nra).
    apply (derivable_pt_lim_plus (fun x => 2 * ln ((1 + x) / 2) + ln ((1 + x * x) / 2) - 2 * atan x) (fun _ => PI / 2)); [|apply derivable_pt_lim_const].
    apply (derivable_pt_lim_minus (fun x => 2 * ln ((1 + x) / 2) + ln ((1 + x * x) / 2)) (fun x => 2 * atan x)).
    - apply (derivable_pt_lim_plus (fun x => 2 * ln ((1 + x) / 2)) (fun x => ln ((1 + x * x) / 2))); [|exact D2].
      apply (derivable_pt_lim_scal (fun x => ln ((1 + x) / 2))); exact D1.
    - apply (derivable_pt_lim_scal (fun x => atan x)); exact D3. }
  assert (P1 : psi_x 1 = 0).
  { unfold psi_x. replace ((1 + 1) / 2) with 1 by field. replace ((1 + 1 * 1) / 2) with 1 by field. rewrite ln_1, atan_1. field. }
  destruct (MVT_cor2 psi_x (fun z => 4 * (z * z) / ((1 + z) * (1 + z * z))) 1 x H) as (c & Ec & Hc).
  { intros c Hc. apply D. lra. }
  rewrite P1 in Ec. assert (0 < 4 * (c * c) / ((1 + c) * (1 + c * c))) by (apply Rdiv_lt_0_compat; nra).
  assert (0 < 4 * (c * c) / ((1 + c) * (1 + c * c)) * (x - 1)) by (apply Rmult_lt_0_compat; lra). lra.
Qed.
Lemma unstable_neg_at_z0 us z0 mol : 0 < us -> 0 < z0 -> mol < 0 -> unstable_ws (Ustar us) z0 mol z0 < 0.
Proof.
  intros Hu H Hm. unfold unstable_ws, calc_psi. assert (E : logz z0 z0 = 0) by (unfold logz; rewrite Rmax_left by lra; replace (z0 / z0) with 1 by (field; lra); apply ln_1).
  rewrite E. pose proof (psi_x_pos _ (unst_x_gt_1 z0 mol H Hm)) as P. fold (psi_unstable z0 mol) in P. pose proof kappa_pos.
  assert (0 < us / kappa) by (apply Rdiv_lt_0_compat; lra). nra.
Qed.

(** power law *)
Lemma sheared_ref ws0 h0 a : 0 < h0 -> sheared_ws ws0 h0 a h0 = ws0.
Proof.
  intros H. unfold sheared_ws. replace (h0 / h0) with 1 by (field; lra). unfold Rpower. rewrite ln_1, Rmult_0_r, exp_0. ring.
Qed.
Lemma sheared_shape ws0 h0 a h h' : 0 <= ws0 -> 0 < h0 -> 0 <= a -> 0 < h <= h' -> 0 <= sheared_ws ws0 h0 a h <= sheared_ws ws0 h0 a h'.
Proof.
  intros Hw H0 Ha Hh. unfold sheared_ws. assert (P : forall y, 0 < Rpower y a) by (intros; apply exp_pos). pose proof (P (h / h0)). split; [nra|].
  apply Rmult_le_compat_l; [exact Hw|]. apply Rle_Rpower_l; [exact Ha|]. assert (0 < / h0) by now apply Rinv_0_lt_compat.
  split; [apply Rdiv_lt_0_compat; lra|unfold Rdiv; nra].
Qed.
