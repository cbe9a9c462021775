(** Theorems about wind resource grids (WRGStates). *)
From Verif Require Import RBase Wrg_Model Wrg_Proofs Lookup_Proofs.
Local Open Scope R_scope.

(** C156: if the farm with its extra space is inside the grid, the selected coordinates are those up to the upper bound, and at most one grid cell below the
    lower bound *)
Theorem C156_window x0 res n a b g : 0 < res -> x0 <= a <= b -> b <= x0 + (INR n - 1) * res -> window x0 res n a b = Some g ->
  forall c, In c g <-> In c (grid x0 res n) /\ a - res < c <= b.
Proof.
  intros Hr Ha Hb H c. unfold window in H. destruct (Nat.ltb _ 2); [discriminate|]. injection H as <-. apply slice_in; lra.
Qed.
Print Assumptions C156_window.
(** ... so that all points that are further inside than one grid cell are inside the selected grid: all turbines, if the extra space is at least the resolution *)
Theorem C156_covered_partial x0 res n a b e X : 0 < res <= e -> x0 <= a -> b <= x0 + (INR n - 1) * res -> a + e <= X <= b - e ->
  exists g, window x0 res n a b = Some g /\ exists c1 c2, In c1 g /\ In c2 g /\ c1 <= X <= c2.
Proof.
  intros Hr Ha Hb HX. assert (Hab : a <= b) by lra.
  set (s := rfloor ((a - x0) / res)). set (t := (rfloor ((b - x0) / res) + 1)%Z).
  destruct (bounds_st x0 res a b n ltac:(lra) Ha Hab Hb) as ((S1 & S2) & S3). fold s in S1, S2. fold t in S2, S3.
  pose proof (rfloor_spec ((a - x0) / res)) as (A1 & A2). pose proof (rfloor_spec ((b - x0) / res)) as (B1 & B2). fold s in A1, A2.
  assert (Ua : (a - x0) / res * res = a - x0) by (field; lra). assert (Ub : (b - x0) / res * res = b - x0) by (field; lra).
  assert (T : IZR t = IZR (rfloor ((b - x0) / res)) + 1) by (unfold t; now rewrite plus_IZR).
  assert (St : (s + 1 < t)%Z).
  { apply lt_IZR. rewrite plus_IZR, T. assert ((b - x0) / res - (a - x0) / res >= 2); [|lra].
    replace ((b - x0) / res - (a - x0) / res) with ((b - a) / res) by (field; lra). apply Rle_ge, Rmult_le_reg_r with res; [lra|].
    replace ((b - a) / res * res) with (b - a) by (field; lra). lra. }
  unfold window. rewrite (slice_eq x0 res a b n) by lra. fold s. fold t. rewrite map_length, seq_length.
  destruct (Nat.ltb_spec (Z.to_nat (t - s)) 2); [lia|]. eexists. split; [reflexivity|].
  assert (E : forall z, (0 <= z)%Z -> INR (Z.to_nat z) = IZR z) by (intros z Hz; rewrite INR_IZR_INZ, Z2Nat.id; [reflexivity|exact Hz]).
  exists (x0 + INR (Z.to_nat s) * res), (x0 + INR (Z.to_nat (t - 1)) * res). split; [|split].
  - apply in_map_iff. exists (Z.to_nat s). split; [reflexivity|]. apply in_seq. lia.
  - apply in_map_iff. exists (Z.to_nat (t - 1)). split; [reflexivity|]. apply in_seq. lia.
  - rewrite !E by lia. rewrite minus_IZR, T. split; nra.
Qed.
Print Assumptions C156_covered_partial.
(** ... but points between the last grid line and the upper bound are outside: the slice ends one grid line too early *)
Theorem C156_upper_refuted x0 res n a b g X : 0 < res -> x0 <= a <= b -> b <= x0 + (INR n - 1) * res -> window x0 res n a b = Some g ->
  X <= b -> (forall i, X <= x0 + INR i * res -> b < x0 + INR i * res) -> forall c, In c g -> c < X.
Proof.
  intros Hr Ha Hb H HX Hi c Hc. pose proof (proj1 (C156_window x0 res n a b g Hr Ha Hb H c) Hc) as (G & B). apply grid_in in G. destruct G as (i & _ & ->).
  apply Rnot_le_lt. intros Q. specialize (Hi i Q). lra.
Qed.
Print Assumptions C156_upper_refuted.
(** ... and if the extra space reaches one grid cell or more beyond the data's lower bound, nothing is selected and there is an error, also if all turbines
    are well inside the data *)
Theorem C156_lower_refuted x0 res n a b : 0 < res -> a <= x0 - res -> x0 <= b -> b - a <= (INR n - 1) * res -> window x0 res n a b = None.
Proof.
  intros Hr Ha Hb Hab. unfold window.
  assert (Va : (x0 - a) / res * res = x0 - a) by (field; lra). assert (Vb : (b - x0) / res * res = b - x0) by (field; lra).
  assert (N : (a - x0) / res < 0). { replace ((a - x0) / res) with (- ((x0 - a) / res)) by (field; lra). nra. }
  assert (P : 0 <= (b - x0) / res) by (unfold Rdiv; apply Rmult_le_pos; [lra|left; now apply Rinv_0_lt_compat]).
  rewrite (trunc_neg _ N). destruct (trunc_nonneg _ P) as (-> & Pt). replace (- ((a - x0) / res)) with ((x0 - a) / res) by (field; lra).
  set (v := rfloor ((x0 - a) / res)). assert (Pt' : (0 <= rfloor ((b - x0) / res))%Z) by (destruct (trunc_nonneg _ P) as (<- & Q); exact Q). set (u := rfloor ((b - x0) / res)) in *.
  pose proof (rfloor_spec ((x0 - a) / res)) as (V1 & V2). pose proof (rfloor_spec ((b - x0) / res)) as (U1 & U2). fold v in V1, V2. fold u in U1, U2.
  assert (V : (1 <= v)%Z). { assert (IZR 0 < IZR v) by (cbn; nra). apply lt_IZR in H. lia. }
  assert (UV : (u + v + 1 <= Z.of_nat n)%Z). { apply le_IZR. rewrite !plus_IZR, <- INR_IZR_INZ. nra. }
  unfold pyslice, pybound. rewrite grid_len. destruct (Z.ltb_spec (- v) 0); [|lia]. destruct (Z.ltb_spec (u + 1) 0); [lia|].
  rewrite Z.max_r, Z.min_l by lia. replace (Z.to_nat (u + 1 - (- v + Z.of_nat n))) with O by lia. reflexivity.
Qed.
Print Assumptions C156_lower_refuted.
Example C156_nonvacuous : (exists g, window 0 100 50 1000 2050 = Some g /\ exists c1 c2, In c1 g /\ In c2 g /\ c1 <= 1900 <= c2) /\
  (exists g, window 0 100 50 1000 2050 = Some g /\ forall c, In c g -> c < 2020) /\ window 0 100 50 (-100) 2000 = None.
Proof.
  assert (B : 2050 <= 0 + (INR 50 - 1) * 100) by (replace (INR 50) with 50 by (cbn; lra); lra).
  split; [|split].
  - apply (C156_covered_partial 0 100 50 1000 2050 100 1900); lra.
  - destruct (C156_covered_partial 0 100 50 1000 2050 100 1900 ltac:(lra) ltac:(lra) B ltac:(lra)) as (g & H & _). exists g. split; [exact H|].
    apply (C156_upper_refuted 0 100 50 1000 2050); try lra; try exact H. intros i Hi. destruct (le_lt_dec 21 i) as [L|L].
    + apply le_INR in L. replace (INR 21) with 21 in L by (cbn; lra). lra.
    + assert (L' : (i <= 20)%nat) by lia. apply le_INR in L'. replace (INR 20) with 20 in L' by (cbn; lra). lra.
  - apply C156_lower_refuted; try lra. replace (INR 50) with 50 by (cbn; lra). lra.
Qed.

Lemma centres_len bins : length (centres bins) = (length bins - 1)%nat /\ length (widths bins) = (length bins - 1)%nat.
Proof. induction bins as [|a [|b r] IH]; [split; reflexivity|split; reflexivity|]. cbn [centres widths length] in *. lia. Qed.
(** C157: there is one state for each wind speed bin and each sector: state i ns + j has the centre of bin i and the direction of sector j *)
Theorem C157_states bins ns i j : (S i < length bins)%nat -> (j < ns)%nat -> let s := nth (i * ns + j) (wrg_states bins ns) ((0, 0), 0) in
  fst (fst s) = 1 / 2 * (nth i bins 0 + nth (S i) bins 0) /\ snd (fst s) = nth (S i) bins 0 - nth i bins 0 /\ snd s = INR j * (360 / INR ns) /\
  length (wrg_states bins ns) = ((length bins - 1) * ns)%nat.
Proof.
  intros Hi Hj s. destruct (centres_len bins) as (Lc & Lw).
  assert (C : forall bins i, (S i < length bins)%nat -> nth i (combine (centres bins) (widths bins)) (0, 0) = (1 / 2 * (nth i bins 0 + nth (S i) bins 0), nth (S i) bins 0 - nth i bins 0)).
  { clear. induction bins as [|a [|b r] IH]; intros i H; cbn [length] in H; [lia|lia|]. destruct i as [|i]; [reflexivity|].
    change (centres (a :: b :: r)) with (1 / 2 * (a + b) :: centres (b :: r)). change (widths (a :: b :: r)) with ((b - a) :: widths (b :: r)).
    change (nth i (combine (centres (b :: r)) (widths (b :: r))) (0, 0) = (1 / 2 * (nth i (b :: r) 0 + nth (S i) (b :: r) 0), nth (S i) (b :: r) 0 - nth i (b :: r) 0)).
    apply IH. cbn [length]. lia. }
  assert (G : forall (A B : Type) (lx : list A) (ly : list B) i j d1 d2, (i < length lx)%nat -> (j < length ly)%nat -> nth (i * length ly + j) (list_prod lx ly) (d1, d2) = (nth i lx d1, nth j ly d2)).
  { clear. intros A B lx ly i j d1 d2. revert i. induction lx as [|x lx IH]; intros i Hi Hj; cbn [length] in Hi; [lia|]. cbn [list_prod]. destruct i as [|i].
    - cbn [Nat.mul Nat.add]. rewrite app_nth1 by (rewrite map_length; exact Hj). rewrite (nth_indep _ _ (x, d2)) by (rewrite map_length; exact Hj).
      rewrite (map_nth (fun y => (x, y))). reflexivity.
    - rewrite app_nth2 by (rewrite map_length; cbn; lia). rewrite map_length. replace (S i * length ly + j - length ly)%nat with (i * length ly + j)%nat by (cbn; lia).
      cbn [nth]. apply IH; [lia|exact Hj]. }
  assert (Ls : length (sectors ns) = ns) by (unfold sectors; now rewrite map_length, seq_length).
  assert (Lp : length (combine (centres bins) (widths bins)) = (length bins - 1)%nat) by (rewrite combine_length; lia).
  assert (E : s = (nth i (combine (centres bins) (widths bins)) (0, 0), nth j (sectors ns) 0)).
  { unfold s, wrg_states. rewrite <- Ls at 1. apply G; lia. }
  rewrite E, C by exact Hi. cbn [fst snd]. repeat split.
  - unfold sectors. rewrite (nth_indep _ 0 (INR 0 * (360 / INR ns))) by (rewrite map_length, seq_length; exact Hj). rewrite (map_nth (fun j => INR j * (360 / INR ns))), seq_nth by exact Hj. reflexivity.
  - unfold wrg_states. rewrite prod_length, Ls, Lp. reflexivity.
Qed.
Print Assumptions C157_states.
(** ... the weights are not negative, and proportional to the sector's frequency *)
Theorem C157_nonneg A k f ws dws : 0 < A -> 0 < k -> 0 <= f -> 0 <= dws -> 0 <= weight A k f ws dws /\ forall q, weight A k (q * f) ws dws = q * weight A k f ws dws.
Proof.
  intros HA Hk Hf Hd. unfold weight, pdf. split; [|intros; ring]. apply Rmult_le_pos; [exact Hf|]. apply Rmult_le_pos; [exact Hd|].
  assert (0 < k / A) by (apply Rdiv_lt_0_compat; assumption). unfold Rpower. pose proof (exp_pos ((k - 1) * ln (ws / A))). pose proof (exp_pos (- exp (k * ln (ws / A)))).
  apply Rmult_le_pos; [apply Rmult_le_pos; lra|lra].
Qed.
Print Assumptions C157_nonneg.
(** ... the weight of a bin is the frequency, times the width, times the derivative of the Weibull distribution function at the centre *)
Theorem C157_density A k f ws dws : 0 < A -> 0 < ws -> exists p, derivable_pt_lim (fun x => 1 - exp (- Rpower (x / A) k)) ws p /\ weight A k f ws dws = f * (dws * p).
Proof.
  intros HA Hw. exists (pdf A k ws). split; [|reflexivity]. assert (Q : 0 < ws / A) by (apply Rdiv_lt_0_compat; assumption).
  assert (D1 : derivable_pt_lim (fun x => x / A) ws (1 / A)).
  { unfold Rdiv. replace (1 * / A) with (1 * / A + id ws * 0) by ring. apply (derivable_pt_lim_mult id (fun _ => / A)); [apply derivable_pt_lim_id|apply derivable_pt_lim_const]. }
  assert (D2 : derivable_pt_lim (comp (fun y => Rpower y k) (fun x => x / A)) ws (k * Rpower (ws / A) (k - 1) * (1 / A))).
  { apply derivable_pt_lim_comp; [exact D1|]. apply derivable_pt_lim_power. exact Q. }
  assert (D3 : derivable_pt_lim (comp exp (opp_fct (comp (fun y => Rpower y k) (fun x => x / A)))) ws (exp (- Rpower (ws / A) k) * - (k * Rpower (ws / A) (k - 1) * (1 / A)))).
  { apply derivable_pt_lim_comp; [now apply derivable_pt_lim_opp|]. apply derivable_pt_lim_exp. }
  unfold pdf. replace (k / A * Rpower (ws / A) (k - 1) * exp (- Rpower (ws / A) k)) with (0 - exp (- Rpower (ws / A) k) * - (k * Rpower (ws / A) (k - 1) * (1 / A))) by (field; lra).
  apply (derivable_pt_lim_minus (fun _ => 1) (comp exp (opp_fct (comp (fun y => Rpower y k) (fun x => x / A))))); [apply derivable_pt_lim_const|exact D3].
Qed.
Print Assumptions C157_density.
(** ... but frequencies are read as percent: with a file in the usual format, frequencies in units of 0.1 percent with sum 1000, the sum of all weights is 100
    times the mean (over the sectors) of the sums of probabilities *)
Theorem C157_percent_refuted bins file lo : rsum (map (fun r => fst (fst r)) file) = 1000 -> (forall r, In r file -> 0 <= fst (fst r)) ->
  (forall r, In r file -> lo <= sector_weight bins (1, snd (fst r) / 10, snd r / 100)) -> 100 * lo <= total_weight bins file.
Proof.
  intros H1 Hf Hl. unfold total_weight.
  assert (E : forall r : R * R * R, sector_weight bins (read_sector r) = fst (fst r) / 10 * sector_weight bins (1, snd (fst r) / 10, snd r / 100)).
  { intros [[f a] k]. unfold read_sector, sector_weight. cbn [fst snd]. rewrite <- rsum_map_scale. apply rsum_ext. intros s _. unfold weight. field. }
  apply Rle_trans with (rsum (map (fun r : R * R * R => lo / 10 * fst (fst r)) file)).
  - rewrite rsum_map_scale, H1. lra.
  - apply rsum_le. intros r I. rewrite E. specialize (Hf r I). specialize (Hl r I). nra.
Qed.
Print Assumptions C157_percent_refuted.
(** ... and the probability of a bin, F(b) - F(a) for the Weibull distribution F, is the width times the density somewhere in the bin, in general not in the centre *)
Theorem C157_bin_refuted : exists A k a b, 0 < A /\ 0 < k /\ 0 <= a < b /\
  weight A k 1 (1 / 2 * (a + b)) (b - a) < (1 - exp (- Rpower (b / A) k)) - (if Reqb a 0 then 0 else 1 - exp (- Rpower (a / A) k)).
Proof.
  exists 1, 1, 0, 2. repeat split; try lra. rewrite Reqb_refl. unfold weight, pdf. replace (1 / 2 * (0 + 2)) with 1 by field. replace (1 / 1) with 1 by field. replace (2 / 1) with 2 by field.
  replace (1 - 1) with 0 by ring. rewrite Rpower_O, Rpower_1, Rpower_1 by lra.
  assert (E : exp (- (2)) = exp (- (1)) * exp (- (1))) by (rewrite <- exp_plus; f_equal; ring). rewrite E. set (x := exp (- (1))).
  assert (0 < x) by apply exp_pos. assert (x < 4 / 10).
  { unfold x. rewrite exp_Ropp. assert (B : 25 / 10 < exp 1).
    { pose proof (exp_ineq1 (1 / 2) ltac:(lra)) as Q. replace (exp 1) with (exp (1 / 2) * exp (1 / 2)) by (rewrite <- exp_plus; f_equal; field).
      assert (Q4 : 1 + 1 / 4 < exp (1 / 4)) by (apply exp_ineq1; lra). assert (Q2 : exp (1 / 2) = exp (1 / 4) * exp (1 / 4)) by (rewrite <- exp_plus; f_equal; field).
      assert (Q8 : 1 + 1 / 8 < exp (1 / 8)) by (apply exp_ineq1; lra). assert (Q48 : exp (1 / 4) = exp (1 / 8) * exp (1 / 8)) by (rewrite <- exp_plus; f_equal; field).
      assert (81 / 64 < exp (1 / 4)) by nra. assert (16 / 10 < exp (1 / 2)) by nra. nra. }
    apply Rmult_lt_reg_r with (exp 1); [apply exp_pos|]. rewrite Rinv_l by (apply Rgt_not_eq, exp_pos). lra. }
  nra.
Qed.
Print Assumptions C157_bin_refuted.
Example C157_nonvacuous : exists lo, 1 / 4 < lo /\ 100 * lo <= total_weight [0; 20] [(1000, 100, 100)].
Proof.
  exists (1 / 3). split; [lra|]. apply C157_percent_refuted.
  - cbn. lra.
  - cbn. intros r [<-|[]]. cbn. lra.
  - intros r [<-|[]]. cbn [fst snd]. unfold sector_weight. cbn [centres widths combine map rsum fst snd]. unfold weight, pdf.
    replace (1 / 2 * (0 + 20)) with 10 by field. replace (100 / 10) with 10 by field. replace (10 / 10) with 1 by field. replace (100 / 100) with 1 by field. replace (1 - 1) with 0 by ring.
    rewrite Rpower_O, Rpower_1 by lra. assert (E : 1 / 3 <= exp (- (1))); [|lra].
    rewrite exp_Ropp. pose proof exp_le_3. apply Rmult_le_reg_r with (exp 1); [apply exp_pos|]. rewrite Rinv_l by (apply Rgt_not_eq, exp_pos). lra.
Qed.
