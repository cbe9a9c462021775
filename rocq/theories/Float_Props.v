(** Theorems about float rounding: chunk sizes, directions modulo the circle, numbers of sectors and of integration steps. *)
From Coq Require Import ZArith Reals Lra Lia List.
From Flocq Require Import Core.
From Verif Require Import RBase Chunk_Model Float_Model Float_Proofs Float_Compute.
Import ListNotations.
Local Open Scope R_scope.

(** C01: python's int(a / b) in floats is the exact integer quotient, for operands with a + b below 2^53 *)
Theorem C01_float_division a b : (0 <= a)%Z -> (0 < b)%Z -> (a + b < 2 ^ 53)%Z -> py_int_div a b = (a / b)%Z.
Proof. apply int_div_exact. Qed.
(** ... so that the model's chunk sizes (Chunk_Model, over integers) are those of the float computation *)
Theorem C01_model_division a b : (0 <= a)%Z -> (0 <= b)%Z -> (a + b < 2 ^ 53)%Z -> py_intdiv a b = if (b =? 0)%Z then Err ZeroDivisionError else Ok (py_int_div a b).
Proof. intros Ha Hb Hs. unfold py_intdiv. destruct (Z.eqb_spec b 0); [reflexivity|]. rewrite int_div_exact by lia. reflexivity. Qed.
Print Assumptions C01_float_division.
Print Assumptions C01_model_division.
Example C01_division_witness : py_int_div 8760 7 = 1251%Z.
Proof. rewrite C01_float_division; [reflexivity|lia|lia|reflexivity]. Qed.

(** C232: a direction reduced modulo 360 lies between 0 and 360 *)
Theorem C232_range x : 0 <= np_mod x 360 <= 360.
Proof. apply np_mod_range; [apply int360|lra]. Qed.
(** C232: it differs from the exact remainder by at most 2^-45 degrees *)
Theorem C232_accuracy x : Rabs (np_mod x 360 - rmod x 360) <= / 2 ^ 45.
Proof. replace (/ 2 ^ 45) with b45; [apply np_mod_error|]. unfold b45. now rewrite (pow_IZR 2 45). Qed.
(** C232: for directions that are not negative it is exact, and below 360; for any positive period *)
Theorem C232_nonneg x p : 0 < p -> 0 <= x -> np_mod x p = rmod x p /\ 0 <= np_mod x p < p.
Proof. intros P X. rewrite (np_mod_exact x p P X). split; [reflexivity|now apply rmod_range]. Qed.
(** C232: any period: between 0 and the period; the remainder before the correction of the sign is exact *)
Theorem C232_period x p : is_float x -> is_float p -> 0 < p -> 0 <= np_mod x p <= p /\ is_float (fmod x p) /\ is_float (np_mod x p).
Proof.
  intros Fx Fp P. assert (Fm := fmod_float x p Fx Fp P). split; [now apply np_mod_range|]. split; [exact Fm|]. unfold np_mod. destruct (Rltb _ _); [apply rnd_float|exact Fm].
Qed.
(** C232, refuted for the half open interval: the result is 360 exactly for negative directions with a remainder of at most 2^-45 below a full turn *)
Theorem C232_full_turn_refuted x : np_mod x 360 = 360 <-> 0 < 360 - rmod x 360 <= / 2 ^ 45 /\ x < 0.
Proof.
  replace (/ 2 ^ 45) with b45 by (unfold b45; now rewrite (pow_IZR 2 45)). rewrite fmod_rmod by lra. unfold np_mod, fadd.
  destruct (Rltb (fmod x 360) 0) eqn:E; [apply Rltb_true in E|apply Rltb_false in E]; destruct (fmod_cases x 360 ltac:(lra)) as [(A & A1 & A2)|(A & A1 & A2)]; try lra.
  - rewrite rnd_near_360 by lra. split; intros; lra.
  - pose proof b45_val. split; intros; [lra|]. exfalso. lra.
Qed.
Print Assumptions C232_range.
Print Assumptions C232_accuracy.
Print Assumptions C232_nonneg.
Print Assumptions C232_period.
Print Assumptions C232_full_turn_refuted.
Example C232_witness : np_mod (- / 10 ^ 14) 360 = 360 /\ np_mod 725 360 = 5 /\ is_float 725.
Proof.
  split; [|split; [|apply (int_format 725); reflexivity]].
  - apply C232_full_turn_refuted. assert (R : rmod (- / 10 ^ 14) 360 = 360 - / 10 ^ 14); [|rewrite R; lra].
    unfold rmod. rewrite (rfloor_unique _ (-1)); [lra|lra].
  - destruct (C232_nonneg 725 360 ltac:(lra) ltac:(lra)) as [-> _]. unfold rmod. rewrite (rfloor_unique _ 2); lra.
Qed.

(** C233: the bounds of n sectors are n + 1 numbers, for any n up to 2^40 *)
Theorem C233_bounds n : (1 <= n <= 2 ^ 40)%Z -> Z.of_nat (length (wd_bins n)) = (n + 1)%Z.
Proof. intros H. unfold wd_bins. rewrite np_arange_length, (bins_len n H). lia. Qed.
(** C233: up to 160 sectors, and for any number whose width 360 / n is a float (all divisors of 360): n centres, and a data set *)
Theorem C233_sectors_partial n : (1 <= n <= 160)%Z \/ (1 <= n <= 2 ^ 40)%Z /\ is_float (360 / IZR n) ->
  Z.of_nat (length (wd_cents n)) = n /\ rose_data n = Ok (wd_cents n, wd_bins n) /\ sector_coords n (Z.to_nat n) = Ok (wd_cents n).
Proof.
  intros H. assert (Hn : (1 <= n <= 2 ^ 40)%Z) by (destruct H as [H|[H _]]; lia).
  assert (L : arange_len 0 360 (wd_delta n) = n) by (destruct H as [H|[H F]]; [now apply sectors_to_160|now apply cents_len_exact]).
  assert (C : length (wd_cents n) = Z.to_nat n) by (unfold wd_cents; now rewrite np_arange_length, L).
  pose proof (C233_bounds n Hn) as B. split; [rewrite C; lia|]. unfold rose_data, sector_coords. rewrite C, Nat.eqb_refl. split; [|reflexivity].
  replace (length (wd_bins n) - 1)%nat with (Z.to_nat n) by lia. now rewrite Nat.eqb_refl.
Qed.
(** C233: every centre is the multiple of the width up to 2^-42 degrees *)
Theorem C233_centres n k : (1 <= n <= 2 ^ 40)%Z -> (k < length (wd_cents n))%nat -> (k <= Z.to_nat n)%nat -> Rabs (nth k (wd_cents n) 0 - 360 * INR k / IZR n) <= / 2 ^ 42.
Proof.
  intros H K Kn. unfold wd_cents in *. rewrite nth_arange0 by (exact K || apply rnd_float). destruct (wd_delta_bounds n H) as (A & B & C). set (d := wd_delta n) in *.
  assert (Ki : INR k <= IZR n) by (rewrite INR_IZR_INZ; apply IZR_le; lia). pose proof (pos_INR k) as K0. pose proof uu_val. pose proof uu_pos.
  destruct (Nat.eq_dec k 0) as [->|K1]; [cbn [INR]; rewrite Rmult_0_l, rnd_0; replace (0 - 360 * 0 / IZR n) with 0 by (field; lra); rewrite Rabs_R0; lra|].
  assert (K2 : 1 <= INR k) by (apply (le_INR 1); lia).
  set (t := INR k / IZR n). assert (T : t * IZR n = INR k) by (unfold t; field; lra). assert (T1 : 0 <= t <= 1) by (clearbody t; split; nra).
  replace (360 * INR k / IZR n) with (360 * t) by (unfold t; field; lra).
  assert (E1 : INR k * d = t * (d * IZR n)) by (rewrite <- T; ring). assert (E2 : / IZR (2 ^ 100) <= INR k * d) by (change (2 ^ 100)%Z with 1267650600228229401496703205376%Z; nra).
  destruct (rel_pos _ E2) as [R1 R2]. rewrite E1 in *. set (s := d * IZR n) in *. clearbody s t. apply Rabs_le. nra.
Qed.
(** C233, refuted: there may be one centre too many, and there is for 161 sectors: wind roses, .tab files and wind resource grids with 161 sectors raise ValueError *)
Theorem C233_number_refuted : length (wd_cents 161) = 162%nat /\ rose_data 161 = Err ValueError /\ sector_coords 161 161 = Err ValueError /\
  forall n, (1 <= n <= 2 ^ 40)%Z -> Z.of_nat (length (wd_cents n)) = n \/ Z.of_nat (length (wd_cents n)) = (n + 1)%Z.
Proof.
  assert (C : length (wd_cents 161) = 162%nat) by (unfold wd_cents; now rewrite np_arange_length, sectors_161).
  pose proof (C233_bounds 161 ltac:(lia)) as B. split; [exact C|]. unfold rose_data, sector_coords. rewrite C. replace (length (wd_bins 161) - 1)%nat with 161%nat by lia. split; [reflexivity|]. split; [reflexivity|].
  intros n H. unfold wd_cents. rewrite np_arange_length. destruct (cents_len n H) as [-> | ->]; lia.
Qed.
Print Assumptions C233_bounds.
Print Assumptions C233_sectors_partial.
Print Assumptions C233_centres.
Print Assumptions C233_number_refuted.
Example C233_witness : is_float (360 / IZR 72) /\ exists c b, rose_data 72 = Ok (c, b) /\ length c = 72%nat /\ length b = 73%nat.
Proof.
  split; [replace (360 / IZR 72) with (IZR 5) by lra; apply int_format; reflexivity|]. destruct (C233_sectors_partial 72 ltac:(left; lia)) as (H & R & _). pose proof (C233_bounds 72 ltac:(lia)).
  exists (wd_cents 72), (wd_bins 72). repeat split; [exact R|lia|lia].
Qed.

(** C234: with a step of an integer number of metres the grid along the centreline is 0, dx, 2 dx, ..., exactly, and ends at the first node that is not below xmax *)
Theorem C234_grid xmax k : is_float xmax -> (1 <= k <= 2 ^ 50)%Z -> 0 <= xmax <= IZR (2 ^ 50) ->
  exists n, cl_grid xmax (IZR k) = Ok (map (fun i => INR i * IZR k) (seq 0 (S n))) /\ xmax <= INR n * IZR k /\ (n = O \/ INR n * IZR k - IZR k < xmax).
Proof. apply cl_grid_int. Qed.
(** C234, refuted for other steps: dx = 12.6 (m) and targets up to 1580 m: ValueError *)
Theorem C234_fraction_refuted : exists dx, dx = rnd64 (126 / 10) /\ is_float dx /\ is_float 1580 /\ cl_grid 1580 dx = Err ValueError.
Proof. exists d126. split; [symmetry; apply d126_nearest|]. split; [apply d126_float|]. split; [apply (int_format 1580); reflexivity|apply cl_grid_126]. Qed.
Print Assumptions C234_grid.
Print Assumptions C234_fraction_refuted.
Example C234_witness : exists n, cl_grid 1234 (IZR 50) = Ok (map (fun i => INR i * IZR 50) (seq 0 (S n))) /\ n = 25%nat.
Proof.
  destruct (C234_grid 1234 50) as (n & E & L & U); [apply (int_format 1234); reflexivity|lia|change (IZR (2 ^ 50)) with 1125899906842624; lra|]. exists n. split; [exact E|].
  destruct U as [->|U]; [cbn in L; lra|]. assert (A : INR 24 < INR n) by (cbn [INR]; lra). assert (B : INR n < INR 26) by (cbn [INR]; lra). apply INR_lt in A. apply INR_lt in B. lia.
Qed.

(** C235: the waked wind speed keeps to the lower limit up to a relative error of 2^-31, in particular it stays positive, whatever the wake delta; ambient wind speeds up to 2^20 times the limit *)
Theorem C235_lower lo amb w : / 10 ^ 9 <= lo -> 0 <= amb <= 2 ^ 20 * lo -> lo * (1 - / 2 ^ 31) <= f_final_ws (Some lo) None amb w /\ 0 < f_final_ws (Some lo) None amb w.
Proof.
  intros L A. assert (H : lo * (1 - / 2 ^ 31) <= f_final_ws (Some lo) None amb w); [|split; [exact H|nra]].
  pose proof (add_sub_err lo amb L A) as E. apply Rabs_le_inv in E. apply Rle_trans with (fadd amb (fsub lo amb)); [lra|]. apply rnd_le. apply Rplus_le_compat_l. apply Rmax_r.
Qed.
(** C235: the same for the upper limit, with or without a lower limit; and for both limits *)
Theorem C235_upper lo hi amb w : / 10 ^ 9 <= hi -> 0 <= amb <= 2 ^ 20 * hi -> f_final_ws lo (Some hi) amb w <= hi * (1 + / 2 ^ 31).
Proof.
  intros L A. pose proof (add_sub_err hi amb L A) as E. apply Rabs_le_inv in E. apply Rle_trans with (fadd amb (fsub hi amb)); [|lra]. apply rnd_le. apply Rplus_le_compat_l. apply Rmin_r.
Qed.
Theorem C235_both lo hi amb w : / 10 ^ 9 <= lo <= hi -> 0 <= amb <= 2 ^ 20 * lo -> lo * (1 - / 2 ^ 31) <= f_final_ws (Some lo) (Some hi) amb w <= hi * (1 + / 2 ^ 31).
Proof.
  intros L A. split; [|apply C235_upper; lra]. pose proof (add_sub_err lo amb ltac:(lra) A) as E. apply Rabs_le_inv in E.
  apply Rle_trans with (fadd amb (fsub lo amb)); [lra|]. apply rnd_le. apply Rplus_le_compat_l. cbn [f_final_delta]. apply Rmin_glb; [apply Rmax_r|]. apply rnd_le. lra.
Qed.
(** C235: without wakes the ambient wind speed is unchanged, bit by bit, if it respects the limits *)
Theorem C235_unwaked lo hi amb : is_float amb -> (forall l, lo = Some l -> l <= amb) -> (forall h, hi = Some h -> amb <= h) -> f_final_ws lo hi amb 0 = amb.
Proof.
  intros F L H. assert (D : f_final_delta lo hi amb 0 = 0).
  { unfold f_final_delta. assert (E : match lo with Some l => Rmax 0 (fsub l amb) | None => 0 end = 0).
    { destruct lo as [l|]; [|reflexivity]. apply Rmax_left. unfold fsub. rewrite <- rnd_0. apply rnd_le. specialize (L l eq_refl). lra. }
    rewrite E. destruct hi as [h|]; [|reflexivity]. apply Rmin_left. unfold fsub. rewrite <- rnd_0. apply rnd_le. specialize (H h eq_refl). lra. }
  unfold f_final_ws. rewrite D. unfold fadd. rewrite Rplus_0_r. now apply rnd_id.
Qed.
(** C235, refuted for the exact limit: lim_low = 1e-4 and an ambient wind speed of 8 m/s give a wind speed below the limit if the wake delta is below - 8 *)
Theorem C235_exact_limit_refuted : exists lo, lo = rnd64 (/ 10 ^ 4) /\ is_float 8 /\ forall w, w <= - 8 -> f_final_ws (Some lo) None 8 w < lo.
Proof.
  set (lo := 7378697629483821 * bpow radix2 (-66)). exists lo. assert (E : lo = rnd64 (/ 10 ^ 4)).
  { symmetry. unfold lo. apply rnd_by_exponent; [lia| |].
    - change (bpow radix2 (-66 + 52)) with (/ 16384). change (bpow radix2 (-66 + 53)) with (/ 8192). rewrite Rabs_pos_eq; lra.
    - change (bpow radix2 (- -66)) with 73786976294838206464. apply Rabs_def1; lra. }
  split; [exact E|]. split; [apply (int_format 8); reflexivity|]. intros w W. assert (L : lo * 73786976294838206464 = 7378697629483821) by (unfold lo; change (bpow radix2 (-66)) with (/ 73786976294838206464); lra).
  assert (S : fsub lo 8 = IZR (-9007086664750308) * bpow radix2 (-50)).
  { apply rnd_by_exponent; [lia| |].
    - change (bpow radix2 (-50 + 52)) with 4. change (bpow radix2 (-50 + 53)) with 8. rewrite Rabs_left; lra.
    - change (bpow radix2 (- -50)) with 1125899906842624. apply Rabs_def1; lra. }
  unfold f_final_ws, f_final_delta. rewrite S. change (bpow radix2 (-50)) with (/ 1125899906842624). rewrite Rmax_right by lra. unfold fadd.
  apply Rle_lt_trans with (7378697629466624 * bpow radix2 (-66)); [|change (bpow radix2 (-66)) with (/ 73786976294838206464); lra].
  apply rnd_le_float; [apply float_repr; exists 7378697629466624%Z, (-66)%Z; repeat split; lia|]. change (bpow radix2 (-66)) with (/ 73786976294838206464). lra.
Qed.
Print Assumptions C235_lower.
Print Assumptions C235_upper.
Print Assumptions C235_both.
Print Assumptions C235_unwaked.
Print Assumptions C235_exact_limit_refuted.
Example C235_witness : / 10 ^ 9 <= / 10 ^ 4 <= 25 /\ 0 <= 8 <= 2 ^ 20 * / 10 ^ 4 /\ 0 < f_final_ws (Some (/ 10 ^ 4)) None 8 (-9) /\ f_final_ws (Some (/ 10 ^ 4)) (Some 25) 8 0 = 8.
Proof.
  split; [lra|]. split; [lra|]. split; [apply C235_lower; lra|]. apply C235_unwaked; [apply (int_format 8); reflexivity| |]; intros x E; injection E as <-; lra.
Qed.
