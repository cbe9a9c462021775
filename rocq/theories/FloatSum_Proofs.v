(** Rounding errors of sums of floats. *)
From Coq Require Import ZArith Reals Lra Lia List Permutation.
From Flocq Require Import Core Plus_error Relative.
From Verif Require Import RBase Superp_Model Float_Model Float_Proofs FloatSum_Model FloatSum_Spec.
Import ListNotations.
Local Open Scope R_scope.

Lemma plus_err x y : is_float x -> is_float y -> Rabs (fadd x y - (x + y)) <= uu * Rabs (x + y).
Proof.
  intros X Y. destruct (@FLT_plus_error_N_ex radix2 (-1074) 53 prec53 (fun z => negb (Z.even z)) x y X Y) as (e & E1 & E2).
  unfold fadd, rnd64. rewrite E2. replace ((x + y) * (1 + e) - (x + y)) with (e * (x + y)) by ring. rewrite Rabs_mult. apply Rmult_le_compat_r; [apply Rabs_pos|].
  apply Rle_trans with (1 := E1). assert (U : u_ro radix2 53 = uu) by (unfold u_ro, uu; cbn; lra). rewrite U. pose proof uu_pos as P.
  apply Rmult_le_reg_r with (1 + uu); [lra|]. unfold Rdiv. rewrite Rmult_assoc, Rinv_l by lra. nra.
Qed.
Definition fsum (l : list R) (a : R) : R := fold_left fadd l a.
Lemma fsum_float l : forall a, is_float a -> is_float (fsum l a).
Proof. induction l as [|x l IH]; intros a A; [exact A|]. cbn. apply IH, rnd_float. Qed.
(** the classical bound for sums in any order *)
Lemma fsum_err l : forall a, is_float a -> Forall is_float l -> Rabs (fsum l a - (a + rsum l)) <= ((1 + uu) ^ length l - 1) * (Rabs a + total l).
Proof.
  pose proof uu_pos as U. induction l as [|x l IH]; intros a A H.
  - cbn. rewrite Rplus_0_r, Rminus_diag_eq by reflexivity. rewrite Rabs_R0. pose proof (Rabs_pos a). nra.
  - inversion H as [|? ? X L]; subst. change (fsum (x :: l) a) with (fsum l (fadd a x)). specialize (IH (fadd a x) (rnd_float _) L). pose proof (plus_err a x A X) as E.
    unfold total in *. cbn [map rsum fold_right length pow] in *. fold (rsum l) in *. fold (rsum (map Rabs l)) in *. set (f := fsum l (fadd a x)) in *. set (b := fadd a x) in *.
    set (P := (1 + uu) ^ length l) in *. set (t := rsum (map Rabs l)) in *. assert (P1 : 1 <= P) by (apply pow_R1_Rle; lra).
    assert (T0 : 0 <= t) by (apply rsum_nonneg; intros y I; apply in_map_iff in I; destruct I as (z & <- & _); apply Rabs_pos).
    assert (Tri : Rabs (a + x) <= Rabs a + Rabs x) by apply Rabs_triang.
    assert (B : Rabs b <= (1 + uu) * (Rabs a + Rabs x)). { replace b with ((b - (a + x)) + (a + x)) by ring. apply Rle_trans with (1 := Rabs_triang _ _). nra. }
    replace (f - (a + (x + rsum l))) with ((f - (b + rsum l)) + (b - (a + x))) by ring. apply Rle_trans with (1 := Rabs_triang _ _).
    pose proof (Rabs_pos a). pose proof (Rabs_pos x).
    apply Rle_trans with ((P - 1) * ((1 + uu) * (Rabs a + Rabs x) + t) + uu * (Rabs a + Rabs x)).
    2:{ assert (Q : 0 <= uu * P * t) by (apply Rmult_le_pos; [apply Rmult_le_pos; lra|exact T0]). apply Rminus_le. match goal with |- ?d <= 0 => replace d with (- (uu * P * t)) by ring end. lra. }
    apply Rplus_le_compat; [|apply Rle_trans with (1 := E); nra]. apply Rle_trans with (1 := IH). apply Rmult_le_compat_l; lra.
Qed.
Lemma pow_bernoulli n : INR n * uu <= 1 -> (1 + uu) ^ n * (1 - INR n * uu) <= 1.
Proof.
  pose proof uu_pos as U. induction n as [|n IH]; intros H; [cbn; lra|]. rewrite S_INR in *. pose proof (pos_INR n) as N. specialize (IH ltac:(nra)).
  cbn [pow]. assert (P : 0 < (1 + uu) ^ n) by (apply pow_lt; lra). apply Rle_trans with (2 := IH).
  replace ((1 + uu) * (1 + uu) ^ n * (1 - (INR n + 1) * uu)) with ((1 + uu) ^ n * ((1 + uu) * (1 - (INR n + 1) * uu))) by ring. apply Rmult_le_compat_l; nra.
Qed.
Lemma pow_small n : (Z.of_nat n <= 2 ^ 52)%Z -> (1 + uu) ^ n - 1 <= 2 * INR n * uu.
Proof.
  intros H. assert (X : INR n <= 4503599627370496) by (rewrite INR_IZR_INZ; apply IZR_le; lia). pose proof uu_pos as U. pose proof uu_val as V. pose proof (pos_INR n) as N.
  assert (Y : INR n * uu <= / 2) by nra. pose proof (pow_bernoulli n ltac:(lra)) as B. set (P := (1 + uu) ^ n) in *. set (x := INR n * uu) in *. assert (0 <= x) by (unfold x; nra).
  replace (2 * INR n * uu) with (2 * x) by (unfold x; ring). apply Rmult_le_reg_r with (1 - x); [lra|]. nra.
Qed.
Lemma total_perm l l' : Permutation l l' -> total l = total l'.
Proof. intros H. unfold total. apply rsum_perm. now apply Permutation_map. Qed.
Lemma total_pos l : 0 <= total l.
Proof. apply rsum_nonneg. intros y I. apply in_map_iff in I. destruct I as (z & <- & _). apply Rabs_pos. Qed.
Lemma fsum_bound l : Forall is_float l -> (Z.of_nat (length l) <= 2 ^ 52)%Z -> Rabs (fsum l 0 - rsum l) <= 2 * INR (length l) * uu * total l.
Proof.
  intros H L. pose proof (fsum_err l 0 ltac:(apply (int_format 0); reflexivity) H) as E. rewrite Rplus_0_l, Rabs_R0, Rplus_0_l in E. apply Rle_trans with (1 := E).
  apply Rmult_le_compat_r; [apply total_pos|now apply pow_small].
Qed.
Lemma fsum_order l l' : Forall is_float l -> (Z.of_nat (length l) <= 2 ^ 52)%Z -> Permutation l l' -> Rabs (fsum l 0 - fsum l' 0) <= 4 * INR (length l) * uu * total l.
Proof.
  intros H L P. pose proof (fsum_bound l H L) as A. assert (B := fsum_bound l' (Permutation_Forall P H)). rewrite <- (Permutation_length P), <- (total_perm _ _ P), <- (rsum_perm _ _ P) in B. specialize (B L).
  apply Rabs_le_inv in A, B. apply Rabs_le. lra.
Qed.
Lemma delta_sum fpow s cs : is_max s = false -> f_wake_delta fpow s cs = fsum (terms fpow s cs) 0.
Proof.
  intros M. unfold f_wake_delta. generalize 0. induction cs as [|[[sc r]|] cs IH]; intros a; [reflexivity| |].
  - cbn [fold_left f_add_wake terms flat_map app]. rewrite M. cbn. apply IH.
  - cbn. apply IH.
Qed.
Lemma terms_perm fpow s cs cs' : Permutation cs cs' -> Permutation (terms fpow s cs) (terms fpow s cs').
Proof. intros P. unfold terms. now apply Permutation_flat_map. Qed.
Lemma float_abs x : is_float x -> is_float (Rabs x).
Proof. intros H. unfold Rabs. destruct (Rcase_abs x); [now apply float_opp|exact H]. Qed.
Lemma terms_float fpow s cs : (forall x p, is_float (fpow x p)) -> floats cs -> Forall is_float (terms fpow s cs).
Proof.
  intros Fp H. apply Forall_forall. intros x I. unfold terms in I. apply in_flat_map in I. destruct I as ([[sc r]|] & I & J); [|easy]. destruct J as [<-|[]].
  pose proof (H sc r I). destruct s; cbn [f_term]; try apply rnd_float; try assumption; try apply Fp; try (apply float_abs; try apply rnd_float; assumption).
Qed.
Lemma sqrt_err x : is_float x -> 0 <= x -> Rabs (rnd64 (sqrt x) - sqrt x) <= uu * sqrt x.
Proof.
  intros F H. destruct H as [H|<-]; [|rewrite sqrt_0, rnd_0, Rminus_diag_eq, Rabs_R0 by reflexivity; lra].
  assert (G : bpow radix2 (-1074) <= x).
  { apply float_repr in F. destruct F as (m & e & M & E & ->). pose proof (bpow_gt_0 radix2 e) as B. assert (1 <= m)%Z. { destruct (Z_lt_le_dec m 1) as [L|L]; [|exact L]. exfalso. assert (IZR m <= 0) by (apply IZR_le; lia). nra. }
    apply Rle_trans with (bpow radix2 e); [now apply bpow_le|]. assert (1 <= IZR m) by (apply IZR_le; lia). nra. }
  assert (S0 : bpow radix2 (-537) <= sqrt x). { rewrite <- (sqrt_Rsqr (bpow radix2 (-537))) by apply bpow_ge_0. apply sqrt_le_1_alt. unfold Rsqr. rewrite <- bpow_plus. exact G. }
  rewrite <- (Rabs_pos_eq (sqrt x)) at 3 by apply sqrt_pos. apply rel_err. rewrite Rabs_pos_eq by apply sqrt_pos. apply Rle_trans with (2 := S0). apply bpow_le. lia.
Qed.
Lemma max_perm fpow s cs cs' : is_max s = true -> Permutation cs cs' -> f_wake_delta fpow s cs = f_wake_delta fpow s cs'.
Proof.
  intros M P. unfold f_wake_delta. generalize 0. induction P; intros a; [reflexivity| | |].
  - cbn. apply IHP.
  - cbn [fold_left]. f_equal. destruct x as [[? ?]|], y as [[? ?]|]; try reflexivity. cbn [f_add_wake]. rewrite M. rewrite <- !Rmax_assoc. f_equal. apply Rmax_comm.
  - rewrite IHP1. apply IHP2.
Qed.
