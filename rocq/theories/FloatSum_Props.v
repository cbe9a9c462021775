(** C244: the order in which wakes are superposed, in float arithmetic. *)
From Coq Require Import ZArith Reals Lra Lia List Permutation.
From Flocq Require Import Core.
From Verif Require Import RBase Superp_Model Float_Model Float_Proofs FloatSum_Model FloatSum_Spec FloatSum_Proofs.
Import ListNotations.
Local Open Scope R_scope.

Lemma not_max s : ~ takes_max s -> is_max s = false.
Proof. unfold takes_max. destruct s; cbn; tauto. Qed.
(** C244: in another order the sum of wake effects changes by at most 4 n 2^-53 times the sum of their absolute values; n wakes, all superpositions by sums *)
Theorem C244_sum_order fpow s cs cs' : ~ takes_max s -> (forall x p, is_float (fpow x p)) -> floats cs -> (Z.of_nat (length (terms fpow s cs)) <= 2 ^ 52)%Z -> Permutation cs cs' ->
  Rabs (f_wake_delta fpow s cs - f_wake_delta fpow s cs') <= 4 * INR (length (terms fpow s cs)) * / 2 ^ 53 * total (terms fpow s cs).
Proof.
  intros M Fp H L P. apply not_max in M. rewrite !delta_sum by exact M. replace (/ 2 ^ 53) with uu by (unfold uu; now rewrite (pow_IZR 2 53)). apply fsum_order; [now apply terms_float|exact L|now apply terms_perm].
Qed.
(** C244: in any order it differs from the exact sum by at most 2 n 2^-53 times the sum of absolute values *)
Theorem C244_accuracy fpow s cs : ~ takes_max s -> (forall x p, is_float (fpow x p)) -> floats cs -> (Z.of_nat (length (terms fpow s cs)) <= 2 ^ 52)%Z ->
  Rabs (f_wake_delta fpow s cs - rsum (terms fpow s cs)) <= 2 * INR (length (terms fpow s cs)) * / 2 ^ 53 * total (terms fpow s cs).
Proof.
  intros M Fp H L. apply not_max in M. rewrite !delta_sum by exact M. replace (/ 2 ^ 53) with uu by (unfold uu; now rewrite (pow_IZR 2 53)). apply fsum_bound; [now apply terms_float|exact L].
Qed.
(** C244: if all wakes are deficits (or all are added turbulence), these are relative errors of the exact sum *)
Theorem C244_one_sign l : (forall x, In x l -> x <= 0) \/ (forall x, In x l -> 0 <= x) -> total l = Rabs (rsum l).
Proof.
  unfold total. intros [H|H].
  - assert (E : rsum (map Rabs l) = - rsum l). { induction l as [|x l IH]; [cbn; lra|]. cbn [map rsum fold_right]. fold (rsum l). fold (rsum (map Rabs l)). rewrite IH by (intros; apply H; now right). rewrite Rabs_left1 by (apply H; now left). ring. }
    rewrite E. rewrite Rabs_left1; [reflexivity|]. clear E. induction l as [|x l IH]; [cbn; lra|]. cbn [rsum fold_right]. fold (rsum l). pose proof (H x (or_introl eq_refl)). assert (rsum l <= 0) by (apply IH; intros; apply H; now right). lra.
  - rewrite (Rabs_pos_eq (rsum l)) by now apply rsum_nonneg. f_equal. rewrite <- (map_id l) at 2. apply map_ext_in. intros x I. apply Rabs_pos_eq. now apply H.
Qed.
(** C244: maxima of wake effects are the same in any order, bit by bit *)
Theorem C244_max_order fpow s cs cs' : takes_max s -> Permutation cs cs' -> f_wake_delta fpow s cs = f_wake_delta fpow s cs'.
Proof. intros M. apply max_perm. destruct M as [-> | [-> | ->]]; reflexivity. Qed.
(** C244: turbines whose wake does not include the point have no influence, bit by bit *)
Theorem C244_outside fpow s cs : f_wake_delta fpow s cs = f_wake_delta fpow s (filter (fun c => match c with Some _ => true | None => false end) cs).
Proof. unfold f_wake_delta. generalize 0. induction cs as [|[[a r]|] cs IH]; intros x; [reflexivity|cbn; apply IH|cbn; apply IH]. Qed.
(** C244: up to two wakes give the same sum in both orders, bit by bit *)
Theorem C244_two fpow s a b : floats [a; b] -> (forall x p, is_float (fpow x p)) -> f_wake_delta fpow s [a; b] = f_wake_delta fpow s [b; a].
Proof.
  intros H Fp. destruct (is_max s) eqn:M; [apply max_perm; [exact M|constructor]|]. rewrite !delta_sum by exact M. pose proof (terms_float fpow s [a; b] Fp H) as T.
  destruct a as [[sa ra]|], b as [[sb rb]|]; try reflexivity. cbn [terms flat_map app] in *. inversion T as [|? ? T1 T2]; subst. inversion T2 as [|? ? T3 _]; subst. cbn [fsum fold_left].
  rewrite !fadd_0 by assumption. unfold fadd. now rewrite Rplus_comm.
Qed.
(** C244, refuted bit by bit: three wakes may give another sum in another order *)
Theorem C244_exact_refuted fpow : exists cs cs', floats cs /\ Permutation cs cs' /\ f_wake_delta fpow WSLinear cs = -1 /\ f_wake_delta fpow WSLinear cs' = -1 - / 2 ^ 52.
Proof.
  assert (B52 : bpow radix2 52 = 4503599627370496) by reflexivity. assert (B0 : bpow radix2 0 = 1) by reflexivity. assert (B1 : bpow radix2 1 = 2) by reflexivity.
  assert (Bm : bpow radix2 (-52) = / 2 ^ 52) by (rewrite (pow_IZR 2 52); reflexivity). assert (B53 : / 2 ^ 52 * 4503599627370496 = 1) by (rewrite (pow_IZR 2 52); change (2 ^ 52)%Z with 4503599627370496%Z; apply Rinv_l; apply not_0_IZR; lia).
  assert (B54 : bpow radix2 (-55) = / 2 ^ 52 / 8). { rewrite <- Bm. replace (-55)%Z with (-52 + -3)%Z by lia. rewrite bpow_plus. change (bpow radix2 (-3)) with (/ 8). unfold Rdiv. reflexivity. }
  set (h := / 2 ^ 52) in *. set (e := 3 * (h / 8)).
  assert (Fe : is_float (- e)) by (apply float_repr; exists (-3)%Z, (-55)%Z; split; [reflexivity|split; [lia|]]; rewrite B54; unfold e; lra).
  assert (Fee : is_float (- e + - e)) by (apply float_repr; exists (-6)%Z, (-55)%Z; split; [reflexivity|split; [lia|]]; rewrite B54; unfold e; lra).
  assert (F1 : is_float (-1)) by (apply (int_format (-1)); reflexivity).
  exists [Some (1, -1); Some (1, - e); Some (1, - e)], [Some (1, - e); Some (1, - e); Some (1, -1)].
  split. { intros sc r [E|[E|[E|[]]]]; injection E as <- <-; assumption. }
  split. { apply (Permutation_app_comm [Some (1, -1)]). }
  unfold f_wake_delta. cbn [fold_left f_add_wake is_max f_term]. unfold fmul. rewrite !Rmult_1_l. rewrite (rnd_id _ F1), (rnd_id _ Fe). rewrite !fadd_0 by assumption.
  assert (H0 : 0 < h) by lra.
  assert (S1 : fadd (-1) (- e) = -1).
  { unfold fadd. rewrite (rnd_by_exponent (-1 + - e) (-52) (- 2 ^ 52)).
    - rewrite Bm. change (- 2 ^ 52)%Z with (-4503599627370496)%Z. lra.
    - lia.
    - change (-52 + 52)%Z with 0%Z. change (-52 + 53)%Z with 1%Z. rewrite B0, B1. rewrite Rabs_left by (unfold e; lra). unfold e. lra.
    - change (- -52)%Z with 52%Z. rewrite B52. change (- 2 ^ 52)%Z with (-4503599627370496)%Z. apply Rabs_lt. unfold e. lra. }
  split; [now rewrite !S1|]. unfold fadd at 2. rewrite (rnd_id _ Fee). unfold fadd. rewrite (rnd_by_exponent (- e + - e + -1) (-52) (- (2 ^ 52 + 1))).
  - rewrite Bm. change (- (2 ^ 52 + 1))%Z with (-4503599627370497)%Z. lra.
  - lia.
  - change (-52 + 52)%Z with 0%Z. change (-52 + 53)%Z with 1%Z. rewrite B0, B1. rewrite Rabs_left by (unfold e; lra). unfold e. lra.
  - change (- -52)%Z with 52%Z. rewrite B52. change (- (2 ^ 52 + 1))%Z with (-4503599627370497)%Z. apply Rabs_lt. unfold e. lra.
Qed.
(** C244: limits do not enlarge the difference; the wind speed differs by at most the difference of the wake effects plus 2^-52 times the wind speed *)
Theorem C244_wind_speed lo hi amb w w' V : is_float amb -> is_float w -> is_float w' ->
  Rabs (amb + f_final_delta lo hi amb w) <= V -> Rabs (amb + f_final_delta lo hi amb w') <= V ->
  Rabs (f_final_ws lo hi amb w - f_final_ws lo hi amb w') <= Rabs (w - w') + / 2 ^ 52 * V.
Proof.
  intros A W W' H H'. assert (Fd : forall w, is_float w -> is_float (f_final_delta lo hi amb w)).
  { intros x X. unfold f_final_delta. assert (G : is_float (match lo with Some l => Rmax x (fsub l amb) | None => x end)).
    { destruct lo; [|exact X]. unfold Rmax. destruct (Rle_dec _ _); [apply rnd_float|exact X]. }
    destruct hi; [|exact G]. unfold Rmin. destruct (Rle_dec _ _); [exact G|apply rnd_float]. }
  pose proof (plus_err amb _ A (Fd w W)) as E. pose proof (plus_err amb _ A (Fd w' W')) as E'. fold (f_final_ws lo hi amb w) in E. fold (f_final_ws lo hi amb w') in E'.
  assert (L : Rabs (f_final_delta lo hi amb w - f_final_delta lo hi amb w') <= Rabs (w - w')).
  { unfold f_final_delta. assert (G : Rabs (match lo with Some l => Rmax w (fsub l amb) | None => w end - match lo with Some l => Rmax w' (fsub l amb) | None => w' end) <= Rabs (w - w')).
    { destruct lo; [|lra]. unfold Rmax, Rabs. repeat destruct (Rle_dec _ _); repeat destruct (Rcase_abs _); lra. }
    apply Rle_trans with (2 := G). destruct hi; [|lra]. unfold Rmin, Rabs. repeat destruct (Rle_dec _ _); repeat destruct (Rcase_abs _); lra. }
  assert (U : / 2 ^ 52 = 2 * uu) by (replace uu with (/ 2 ^ 53) by (unfold uu; now rewrite (pow_IZR 2 53)); field). rewrite U. pose proof uu_pos. set (d := f_final_delta lo hi amb w) in *. set (d' := f_final_delta lo hi amb w') in *.
  apply Rle_trans with (Rabs (d - d') + uu * V + uu * V); [|lra].
  replace (f_final_ws lo hi amb w - f_final_ws lo hi amb w') with ((d - d') + (f_final_ws lo hi amb w - (amb + d)) + - (f_final_ws lo hi amb w' - (amb + d'))) by ring.
  eapply Rle_trans; [apply Rabs_triang|]. rewrite Rabs_Ropp. apply Rplus_le_compat; [|nra]. eapply Rle_trans; [apply Rabs_triang|]. apply Rplus_le_compat; [lra|nra].
Qed.
(** C244: the quadratic superposition: in another order the final wake effect changes by at most 8 (n + 1) 2^-53 times the exact one *)
Theorem C244_quadratic fpow cs cs' : (forall x p, is_float (fpow x p)) -> floats cs -> let l := terms fpow WSQuadratic cs in (Z.of_nat (length l) <= 2 ^ 50)%Z -> Permutation cs cs' ->
  Rabs (f_minus_sqrt (f_wake_delta fpow WSQuadratic cs) - f_minus_sqrt (f_wake_delta fpow WSQuadratic cs')) <= 8 * (INR (length l) + 1) * / 2 ^ 53 * sqrt (rsum l).
Proof.
  intros Fp H l L P. replace (/ 2 ^ 53) with uu by (unfold uu; now rewrite (pow_IZR 2 53)). rewrite !delta_sum by reflexivity. fold l. set (l' := terms fpow WSQuadratic cs').
  assert (Pl : Permutation l l') by now apply terms_perm. assert (Fl : Forall is_float l) by now apply terms_float. assert (Fl' : Forall is_float l') by now apply (Permutation_Forall Pl).
  assert (N : forall x, In x l -> 0 <= x). { intros x I. unfold l, terms in I. apply in_flat_map in I. destruct I as ([[sc r]|] & _ & J); [|easy]. destruct J as [<-|[]]. cbn [f_term]. unfold fmul. apply rnd_ge_float; [apply (int_format 0); reflexivity|nra]. }
  assert (T : total l = rsum l) by (rewrite C244_one_sign by (right; exact N); apply Rabs_pos_eq, rsum_nonneg, N).
  pose proof (fsum_bound l Fl ltac:(lia)) as A. assert (B := fsum_bound l' Fl' ltac:(rewrite <- (Permutation_length Pl); lia)).
  rewrite <- (Permutation_length Pl), <- (total_perm _ _ Pl), <- (rsum_perm _ _ Pl) in B. rewrite T in A, B. set (S := rsum l) in *. set (n := INR (length l)) in *. set (a := fsum l 0) in *. set (b := fsum l' 0) in *.
  assert (S0 : 0 <= S) by now apply rsum_nonneg. assert (N0 : 0 <= n) by apply pos_INR. pose proof uu_pos as U. pose proof uu_val as V.
  assert (Nu : n * uu <= / 8). { assert (n <= 1125899906842624) by (unfold n; rewrite INR_IZR_INZ; apply IZR_le; lia). nra. }
  set (g := 2 * n * uu) in *. assert (G : 0 <= g <= / 4) by (unfold g; nra). apply Rabs_le_inv in A, B.
  assert (Fa : is_float a) by (apply fsum_float; apply (int_format 0); reflexivity). assert (Fb : is_float b) by (apply fsum_float; apply (int_format 0); reflexivity).
  assert (K : forall x, - (g * S) <= x - S <= g * S -> is_float x -> Rabs (rnd64 (sqrt x) - sqrt S) <= (g + 2 * uu) * sqrt S).
  { intros x X Fx. assert (X0 : 0 <= x) by nra. pose proof (sqrt_err x Fx X0) as E. apply Rabs_le_inv in E.
    assert (S1 : sqrt x <= (1 + g) * sqrt S). { rewrite <- (sqrt_Rsqr (1 + g)) by lra. rewrite <- sqrt_mult by (try apply Rle_0_sqr; lra). apply sqrt_le_1_alt. unfold Rsqr. nra. }
    assert (S2 : (1 - g) * sqrt S <= sqrt x). { rewrite <- (sqrt_Rsqr (1 - g)) by lra. rewrite <- sqrt_mult by (try apply Rle_0_sqr; lra). apply sqrt_le_1_alt. unfold Rsqr. nra. }
    pose proof (sqrt_pos S) as SS. assert (uu * sqrt x <= 2 * uu * sqrt S) by nra. apply Rabs_le. lra. }
  pose proof (K a A Fa) as Ka. pose proof (K b B Fb) as Kb. apply Rabs_le_inv in Ka, Kb. unfold f_minus_sqrt. pose proof (sqrt_pos S) as SS.
  apply Rabs_le. unfold g in *. set (q := sqrt S) in *. assert (0 <= n * uu * q) by (apply Rmult_le_pos; [nra|exact SS]). split; nra.
Qed.
Print Assumptions C244_sum_order.
Print Assumptions C244_accuracy.
Print Assumptions C244_one_sign.
Print Assumptions C244_max_order.
Print Assumptions C244_outside.
Print Assumptions C244_two.
Print Assumptions C244_exact_refuted.
Print Assumptions C244_wind_speed.
Print Assumptions C244_quadratic.
Example C244_witness : let cs := [Some (10, - / 4); None; Some (8, - / 8)] in floats cs /\ length (terms (fun _ _ => 0) WSLinear cs) = 2%nat /\ f_wake_delta (fun _ _ => 0) WSMaxLocal cs = / 4.
Proof.
  intros cs. assert (Q : forall m e, (Z.abs m < 2 ^ 53)%Z -> (-1074 <= e)%Z -> is_float (IZR m * bpow radix2 e)) by (intros m e A B; apply float_repr; exists m, e; auto).
  split; [|split; [reflexivity|]].
  - intros sc r [E|[E|[E|[]]]]; try discriminate; injection E as <- <-; [replace (- / 4) with (IZR (-1) * bpow radix2 (-2))|replace (- / 8) with (IZR (-1) * bpow radix2 (-3))]; try (apply Q; lia); cbn; lra.
  - unfold f_wake_delta, cs. cbn [fold_left f_add_wake is_max f_term]. rewrite !Rabs_left by lra. unfold Rmax. repeat destruct (Rle_dec _ _); lra.
Qed.
