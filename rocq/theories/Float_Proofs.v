(** Proofs about rounded quotients, remainders and numbers of np.arange entries. *)
From Coq Require Import ZArith Reals Lra Lia List.
From Flocq Require Import Core Relative BinarySingleNaN.
From Verif Require Import RBase Float_Model.
Import ListNotations.
Local Open Scope R_scope.

Definition uu : R := / IZR (2 ^ 53).
Lemma uu_val : uu * 9007199254740992 = 1. Proof. unfold uu. change (2 ^ 53)%Z with 9007199254740992%Z. lra. Qed.
Lemma uu_pos : 0 < uu. Proof. pose proof uu_val. lra. Qed.
Lemma prec53 : Prec_gt_0 53. Proof. reflexivity. Qed.
Global Instance fexp_valid : Valid_exp (FLT_exp (-1074) 53) := @FLT_exp_valid (-1074) 53 prec53.
Lemma rnd_float x : is_float (rnd64 x). Proof. apply generic_format_round; [apply fexp_valid|apply valid_rnd_N]. Qed.
Lemma rnd_id x : is_float x -> rnd64 x = x. Proof. intros H. apply round_generic; [apply valid_rnd_N|exact H]. Qed.
Lemma rnd_le x y : x <= y -> rnd64 x <= rnd64 y. Proof. intros H. apply round_le; [apply fexp_valid|apply valid_rnd_N|exact H]. Qed.
Lemma rnd_0 : rnd64 0 = 0. Proof. apply round_0. apply valid_rnd_N. Qed.
Lemma rnd_ge_float x y : is_float x -> x <= y -> x <= rnd64 y. Proof. intros F H. rewrite <- (rnd_id x F). now apply rnd_le. Qed.
Lemma rnd_le_float x y : is_float y -> x <= y -> rnd64 x <= y. Proof. intros F H. rewrite <- (rnd_id y F). now apply rnd_le. Qed.
Lemma int_format q : (Z.abs q < 2 ^ 53)%Z -> is_float (IZR q).
Proof. intros H. apply generic_format_FLT. exists (Float radix2 q 0); [|exact H|cbn; lia]. unfold F2R. cbn. ring. Qed.
Lemma float_opp x : is_float x -> is_float (- x). Proof. apply generic_format_opp. Qed.
(** a float is an integer below 2^53 times a power of two *)
Lemma float_repr x : is_float x <-> exists m e, (Z.abs m < 2 ^ 53)%Z /\ (-1074 <= e)%Z /\ x = IZR m * bpow radix2 e.
Proof.
  split.
  - intros H. apply FLT_format_generic in H; [|reflexivity]. destruct H as [[m e] H1 H2 H3]. exists m, e. split; [exact H2|]. split; [exact H3|exact H1].
  - intros (m & e & H1 & H2 & H3). apply generic_format_FLT. exists (Float radix2 m e); [exact H3|exact H1|exact H2].
Qed.
Lemma rel_err x : bpow radix2 (-1022) <= Rabs x -> Rabs (rnd64 x - x) <= uu * Rabs x.
Proof.
  intros H. pose proof (relative_error_N_FLT radix2 (-1074) 53 eq_refl (fun z => negb (Z.even z)) x H) as E.
  replace (/ 2 * bpow radix2 (- (53) + 1)) with uu in E; [exact E|]. unfold uu. cbn. lra.
Qed.
Lemma bpow_small : 0 < bpow radix2 (-1022) <= / IZR (2 ^ 100).
Proof. split; [apply bpow_gt_0|]. change (/ IZR (2 ^ 100)) with (bpow radix2 (-100)). apply bpow_le. lia. Qed.
(** relative error for positive numbers that are not tiny *)
Lemma rel_pos x : / IZR (2 ^ 100) <= x -> x * (1 - uu) <= rnd64 x <= x * (1 + uu).
Proof.
  intros H. pose proof bpow_small. pose proof (rel_err x) as E. rewrite Rabs_pos_eq in E by lra. specialize (E ltac:(lra)). apply Rabs_le_inv in E. lra.
Qed.

(** ** int(a / b) *)
Lemma int_div_exact a b : (0 <= a)%Z -> (0 < b)%Z -> (a + b < 2 ^ 53)%Z -> py_int_div a b = (a / b)%Z.
Proof.
  intros Ha Hb Hs. unfold py_int_div, fdiv. set (q := (a / b)%Z).
  assert (Hq : (b * q <= a < b * q + b)%Z) by (pose proof (Z.mul_div_le a b Hb); pose proof (Z.mod_pos_bound a b Hb); pose proof (Z.div_mod a b ltac:(lia)); unfold q; lia).
  assert (Q0 : (0 <= q)%Z) by (apply Z.div_pos; lia). assert (Qa : (q <= a)%Z) by nia.
  set (x := IZR a / IZR b). assert (B : 1 <= IZR b) by (apply IZR_le; lia). assert (A : 0 <= IZR a) by (apply IZR_le; lia).
  assert (X2 : x * IZR b = IZR a) by (unfold x; field; lra).
  assert (X1 : IZR q <= x) by (apply Rmult_le_reg_r with (IZR b); [lra|]; rewrite X2, <- mult_IZR; apply IZR_le; lia).
  assert (Xb : IZR a + 1 <= IZR b * (IZR q + 1)) by (replace (IZR b * (IZR q + 1)) with (IZR (b * q + b)) by (rewrite plus_IZR, mult_IZR; ring); rewrite <- plus_IZR; apply IZR_le; lia).
  assert (L : IZR q <= rnd64 x) by (apply rnd_ge_float; [apply int_format; lia|exact X1]).
  assert (U : rnd64 x < IZR q + 1).
  { destruct (Req_dec x 0) as [E|E]; [rewrite E, rnd_0; apply (IZR_le 0) in Q0; lra|].
    assert (a <> 0)%Z by (intros ->; apply E; unfold x; field; lra).
    assert (A1 : 1 <= IZR a) by (apply IZR_le; lia).
    assert (Sz : IZR a + IZR b < IZR (2 ^ 53)) by (rewrite <- plus_IZR; apply IZR_lt; exact Hs).
    assert (Xlow : / IZR (2 ^ 100) <= x).
    { apply Rmult_le_reg_r with (IZR b); [lra|]. rewrite X2. change (2 ^ 53)%Z with 9007199254740992%Z in Sz.
      apply Rle_trans with (/ IZR (2 ^ 100) * 9007199254740992); [apply Rmult_le_compat_l; [left; apply Rinv_0_lt_compat; apply IZR_lt; reflexivity|lra]|].
      change (2 ^ 100)%Z with 1267650600228229401496703205376%Z. lra. }
    destruct (rel_pos x Xlow) as [_ Er]. pose proof uu_val. pose proof uu_pos. change (2 ^ 53)%Z with 9007199254740992%Z in Sz.
    apply Rmult_lt_reg_r with (IZR b); [lra|]. nra. }
  rewrite Ztrunc_floor by (apply (IZR_le 0) in Q0; lra). apply Zfloor_imp. split; [exact L|]. now rewrite plus_IZR.
Qed.

(** ** remainders *)
Lemma trunc_cases z : 0 <= z /\ IZR (Ztrunc z) <= z < IZR (Ztrunc z) + 1 \/ z < 0 /\ IZR (Ztrunc z) - 1 < z <= IZR (Ztrunc z).
Proof.
  destruct (Rle_dec 0 z) as [H|H].
  - left. rewrite Ztrunc_floor by lra. pose proof (Zfloor_lb z). pose proof (Zfloor_ub z). lra.
  - right. rewrite Ztrunc_ceil by lra. pose proof (Zceil_ub z). pose proof (Zceil_lb z). lra.
Qed.
Lemma fmod_cases x p : 0 < p -> 0 <= x /\ 0 <= fmod x p < p /\ fmod x p <= x \/ x < 0 /\ - p < fmod x p <= 0 /\ x <= fmod x p.
Proof.
  intros P. unfold fmod. set (z := x / p). assert (X : x = p * z) by (unfold z; field; lra). 
  destruct (trunc_cases z) as [[Z0 Hz]|[Z0 Hz]].
  - left. assert (0 <= IZR (Ztrunc z)) by (apply IZR_le; rewrite Ztrunc_floor by lra; apply Zfloor_lub; exact Z0). rewrite X at 1 2 3 4. clearbody z. nra.
  - right. assert (IZR (Ztrunc z) <= 0) by (apply IZR_le; rewrite Ztrunc_ceil by lra; apply Zceil_glb; lra). rewrite X at 1 2 3 4. clearbody z. nra.
Qed.
Lemma fmod_rmod x p : 0 < p -> rmod x p = if Rltb (fmod x p) 0 then fmod x p + p else fmod x p.
Proof.
  intros P. destruct (Rltb (fmod x p) 0) eqn:E; [apply Rltb_true in E|apply Rltb_false in E]; unfold rmod, fmod in *; destruct (fmod_cases x p P) as [(X & M & _)|(X & M & _)]; unfold fmod in M; try lra.
  - rewrite (rfloor_unique (x / p) (Ztrunc (x / p) - 1)); [rewrite minus_IZR; ring|]. rewrite minus_IZR. set (z := x / p) in *. assert (Ex : x = p * z) by (unfold z; field; lra). clearbody z. split; nra.
  - rewrite (rfloor_unique (x / p) (Ztrunc (x / p))); [reflexivity|]. set (z := x / p) in *. assert (Ex : x = p * z) by (unfold z; field; lra). clearbody z. split; nra.
  - rewrite (rfloor_unique (x / p) (Ztrunc (x / p))); [reflexivity|]. set (z := x / p) in *. assert (Ex : x = p * z) by (unfold z; field; lra). clearbody z. split; nra.
Qed.
(** C's fmod is exact: the remainder of two floats is a float *)
Lemma fmod_float x p : is_float x -> is_float p -> 0 < p -> is_float (fmod x p).
Proof.
  intros Fx Fp P. apply float_repr in Fx. apply float_repr in Fp. destruct Fx as (mx & ex & M1 & E1 & X). destruct Fp as (mp & ep & M2 & E2 & Pe).
  set (t := Ztrunc (x / p)). apply float_repr.
  destruct (Z.le_gt_cases ep ex) as [L|L].
  - exists (mx * 2 ^ (ex - ep) - mp * t)%Z, ep.
    assert (R : fmod x p = IZR (mx * 2 ^ (ex - ep) - mp * t) * bpow radix2 ep).
    { unfold fmod. fold t. rewrite minus_IZR, !mult_IZR. rewrite X, Pe at 1. replace ex with (ep + (ex - ep))%Z at 1 by lia. rewrite bpow_plus.
      change (2 ^ (ex - ep))%Z with (radix2 ^ (ex - ep))%Z. rewrite IZR_Zpower by lia. ring. }
    split; [|split; [exact E2|exact R]]. pose proof (bpow_gt_0 radix2 ep) as B.
    assert (Mp : (0 < mp)%Z) by (apply lt_IZR; nra). rewrite Z.abs_eq in M2 by lia.
    assert (fm : - p < fmod x p < p) by (destruct (fmod_cases x p P) as [(A1 & A2 & A3)|(A1 & A2 & A3)]; lra). rewrite R, Pe in fm.
    assert (IZR (mx * 2 ^ (ex - ep) - mp * t) < IZR mp) by nra. assert (IZR (- mp) < IZR (mx * 2 ^ (ex - ep) - mp * t)) by (rewrite opp_IZR; nra).
    apply lt_IZR in H. apply lt_IZR in H0. lia.
  - exists (mx - mp * 2 ^ (ep - ex) * t)%Z, ex.
    assert (R : fmod x p = IZR (mx - mp * 2 ^ (ep - ex) * t) * bpow radix2 ex).
    { unfold fmod. fold t. rewrite minus_IZR, !mult_IZR. rewrite X, Pe at 1. replace ep with (ex + (ep - ex))%Z at 1 by lia. rewrite bpow_plus.
      change (2 ^ (ep - ex))%Z with (radix2 ^ (ep - ex))%Z. rewrite IZR_Zpower by lia. ring. }
    split; [|split; [exact E1|exact R]]. pose proof (bpow_gt_0 radix2 ex) as B. set (k := (mx - mp * 2 ^ (ep - ex) * t)%Z) in *.
    destruct (fmod_cases x p P) as [(A1 & A2 & A3)|(A1 & A2 & A3)]; rewrite R, X in *.
    + assert (0 <= IZR k <= IZR mx) by (split; nra). destruct H as [K1 K2]. apply le_IZR in K1. apply le_IZR in K2. lia.
    + assert (IZR mx <= IZR k <= 0) by (split; nra). destruct H as [K1 K2]. apply le_IZR in K1. apply le_IZR in K2. lia.
Qed.
(** rounding of a real whose exponent is known *)
Lemma rnd_by_exponent x e m : (-1074 <= e)%Z -> bpow radix2 (e + 52) <= Rabs x < bpow radix2 (e + 53) -> Rabs (x * bpow radix2 (- e) - IZR m) < / 2 -> rnd64 x = IZR m * bpow radix2 e.
Proof.
  intros He Hx Hm. unfold rnd64, round. assert (C : cexp radix2 (FLT_exp (-1074) 53) x = e).
  { unfold cexp, FLT_exp. rewrite (mag_unique radix2 x (e + 53)); [lia|]. replace (e + 53 - 1)%Z with (e + 52)%Z by lia. exact Hx. }
  unfold scaled_mantissa. rewrite C. unfold F2R. cbn [Fnum Fexp]. f_equal. f_equal. apply Znearest_imp. exact Hm.
Qed.
(** rounding picks a nearest float *)
Lemma rnd_nearest x g : is_float g -> Rabs (rnd64 x - x) <= Rabs (g - x).
Proof. intros F. destruct (round_N_pt radix2 (FLT_exp (-1074) 53) (fun z => negb (Z.even z)) x) as [_ H]. apply H. exact F. Qed.
Definition b45 : R := / IZR (2 ^ 45).
Lemma b45_val : b45 * 35184372088832 = 1. Proof. unfold b45. change (2 ^ 45)%Z with 35184372088832%Z. lra. Qed.
Lemma pred360 : is_float (360 - 2 * b45).
Proof.
  apply float_repr. exists 6333186975989759%Z, (-44)%Z. split; [reflexivity|]. split; [lia|]. change (bpow radix2 (-44)) with (/ 17592186044416). pose proof b45_val. lra.
Qed.
Lemma rnd_near_360 m : -360 < m < 0 -> (rnd64 (m + 360) = 360 <-> - b45 <= m).
Proof.
  intros M. pose proof b45_val as B. split.
  - intros E. apply Rnot_lt_le. intros C. pose proof (rnd_nearest (m + 360) (360 - 2 * b45) pred360) as N. rewrite E in N. rewrite (Rabs_pos_eq (360 - (m + 360))) in N by lra.
    destruct (Rle_dec 0 (360 - 2 * b45 - (m + 360))) as [D|D]; [rewrite Rabs_pos_eq in N by lra; lra|rewrite Rabs_left in N by lra; lra].
  - intros L. destruct (Req_dec m (- b45)) as [->|Ne].
    + unfold rnd64, round. assert (C : cexp radix2 (FLT_exp (-1074) 53) (- b45 + 360) = (-44)%Z).
      { unfold cexp, FLT_exp. rewrite (mag_unique radix2 _ 9); [reflexivity|]. change (bpow radix2 (9 - 1)) with 256. change (bpow radix2 9) with 512. rewrite Rabs_pos_eq; lra. }
      unfold scaled_mantissa. rewrite C. change (bpow radix2 (- -44)) with 17592186044416. set (y := (- b45 + 360) * 17592186044416).
      assert (Y : y = 6333186975989760 - / 2) by (unfold y; lra).
      assert (N : ZnearestE y = 6333186975989760%Z).
      { unfold Znearest. assert (F : Zfloor y = 6333186975989759%Z) by (apply Zfloor_imp; rewrite Y; change (6333186975989759 + 1)%Z with 6333186975989760%Z; lra).
        assert (C' : Zceil y = 6333186975989760%Z) by (apply Zceil_imp; rewrite Y; change (6333186975989760 - 1)%Z with 6333186975989759%Z; lra).
        rewrite F, C', Rcompare_Eq; [reflexivity|]. rewrite Y. lra. }
      rewrite N. unfold F2R. cbn [Fnum Fexp]. change (bpow radix2 (-44)) with (/ 17592186044416). lra.
    + rewrite (rnd_by_exponent (m + 360) (-44) 6333186975989760); [change (bpow radix2 (-44)) with (/ 17592186044416); lra|lia| |].
      * change (bpow radix2 (-44 + 52)) with 256. change (bpow radix2 (-44 + 53)) with 512. rewrite Rabs_pos_eq; lra.
      * change (bpow radix2 (- -44)) with 17592186044416. apply Rabs_def1; lra.
Qed.
Lemma np_mod_range x p : is_float p -> 0 < p -> 0 <= np_mod x p <= p.
Proof.
  intros F P. unfold np_mod, fadd. pose proof (fmod_cases x p P) as C. destruct (Rltb (fmod x p) 0) eqn:E; [apply Rltb_true in E|apply Rltb_false in E]; [|lra].
  split; [rewrite <- rnd_0; apply rnd_le; lra|apply rnd_le_float; [exact F|lra]].
Qed.
Lemma np_mod_exact x p : 0 < p -> 0 <= x -> np_mod x p = rmod x p.
Proof.
  intros P X. unfold np_mod. rewrite (fmod_rmod x p P). destruct (fmod_cases x p P) as [(A & A1 & A2)|(A & A1 & A2)]; [|lra].
  replace (Rltb (fmod x p) 0) with false; [reflexivity|]. symmetry. apply Rltb_false. lra.
Qed.
Lemma np_mod_error x : Rabs (np_mod x 360 - rmod x 360) <= b45.
Proof.
  pose proof b45_val as B. unfold np_mod, fadd. rewrite fmod_rmod by lra. pose proof (fmod_cases x 360 ltac:(lra)) as C.
  destruct (Rltb (fmod x 360) 0) eqn:E; [apply Rltb_true in E|apply Rltb_false in E]; [|unfold Rminus; rewrite Rplus_opp_r, Rabs_R0; lra].
  set (y := fmod x 360 + 360). assert (Y : 0 < y < 360) by (unfold y; lra). clearbody y. clear C E.
  destruct (Rle_dec y (/ IZR (2 ^ 100))) as [S|S].
  - apply Rle_trans with (Rabs (0 - y)); [apply rnd_nearest; apply (int_format 0); reflexivity|]. rewrite Rabs_left by lra. change (2 ^ 100)%Z with 1267650600228229401496703205376%Z in S. lra.
  - destruct (Rle_dec 256 y) as [T|T].
    + pose proof (error_le_half_ulp radix2 (FLT_exp (-1074) 53) (fun z => negb (Z.even z)) y) as U. fold (rnd64 y) in U. rewrite ulp_neq_0 in U by lra.
      assert (C : cexp radix2 (FLT_exp (-1074) 53) y = (-44)%Z).
      { unfold cexp, FLT_exp. rewrite (mag_unique radix2 _ 9); [reflexivity|]. change (bpow radix2 (9 - 1)) with 256. change (bpow radix2 9) with 512. rewrite Rabs_pos_eq; lra. }
      rewrite C in U. change (bpow radix2 (-44)) with (/ 17592186044416) in U. lra.
    + pose proof (rel_pos y ltac:(lra)) as U. pose proof uu_val. apply Rabs_le. nra.
Qed.

(** ** numbers of sectors *)
Lemma wd_delta_bounds n : (1 <= n <= 2 ^ 40)%Z -> 360 * (1 - uu) <= wd_delta n * IZR n <= 360 * (1 + uu) /\ / 10 ^ 10 < wd_delta n /\ 1 <= IZR n <= 1099511627776.
Proof.
  intros [H1 H2]. apply IZR_le in H1, H2. change (2 ^ 40)%Z with 1099511627776%Z in H2. unfold wd_delta, fdiv. set (x := 360 / IZR n). assert (X : x * IZR n = 360) by (unfold x; field; lra).
  assert (L : / 10 ^ 10 * (1 + 1) < x) by (apply Rmult_lt_reg_r with (IZR n); [lra|]; rewrite X; lra).
  destruct (rel_pos x) as [A B]; [change (2 ^ 100)%Z with 1267650600228229401496703205376%Z; lra|]. pose proof uu_val. pose proof uu_pos. set (n' := IZR n) in *. clearbody n' x. repeat split; try lra; nra.
Qed.
Lemma zceil_between x k l : IZR k < x <= IZR l -> (k < Zceil x <= l)%Z.
Proof. intros [A B]. split; [|apply Zceil_glb; exact B]. apply lt_IZR. pose proof (Zceil_ub x). lra. Qed.
Lemma quotient_err q : 1 / 4 <= q <= 2199023255552 -> Rabs (rnd64 q - q) <= 1 / 4096.
Proof. intros H. pose proof uu_val. pose proof uu_pos. destruct (rel_pos q) as [A B]; [change (2 ^ 100)%Z with 1267650600228229401496703205376%Z; lra|]. apply Rabs_le. nra. Qed.
Lemma fsub_0 x : is_float x -> fsub x 0 = x. Proof. intros F. unfold fsub. rewrite Rminus_0_r. now apply rnd_id. Qed.
Lemma fadd_0 x : is_float x -> fadd 0 x = x. Proof. intros F. unfold fadd. rewrite Rplus_0_l. now apply rnd_id. Qed.
Lemma int360 : is_float 360. Proof. apply (int_format 360). reflexivity. Qed.
Lemma cents_len n : (1 <= n <= 2 ^ 40)%Z -> arange_len 0 360 (wd_delta n) = n \/ arange_len 0 360 (wd_delta n) = (n + 1)%Z.
Proof.
  intros H. destruct (wd_delta_bounds n H) as (A & B & C). unfold arange_len. rewrite fsub_0 by apply int360. unfold fdiv. set (d := wd_delta n) in *. set (q := 360 / d).
  assert (Q : q * d = 360) by (unfold q; field; lra). pose proof uu_val. pose proof uu_pos. 
  assert (Q1 : Rabs (q - IZR n) <= 1 / 4096).
  { apply Rabs_le. set (n' := IZR n) in *. clearbody n' q d. assert (D1 : (q - n') * d = 360 - d * n') by lra. assert (D2 : Rabs ((q - n') * d) <= 360 * uu) by (rewrite D1; apply Rabs_le; lra).
    rewrite Rabs_mult, (Rabs_pos_eq d) in D2 by lra. assert (D3 : Rabs (q - n') <= 1 / 4096); [|apply Rabs_le_inv; exact D3].
    apply Rmult_le_reg_r with d; [lra|]. apply Rle_trans with (360 * uu); [exact D2|]. assert (d * 1099511627776 >= 360 * (1 - uu)) by nra. lra. }
  apply Rabs_le_inv in Q1. pose proof (quotient_err q ltac:(lra)) as Q2. apply Rabs_le_inv in Q2.
  destruct (zceil_between (rnd64 q) (n - 1) (n + 1)) as [Z1 Z2]; [rewrite minus_IZR, plus_IZR; lra|lia].
Qed.
Lemma bins_len n : (1 <= n <= 2 ^ 40)%Z -> arange_len (- fdiv (wd_delta n) 2) 360 (wd_delta n) = (n + 1)%Z.
Proof.
  intros H. destruct (wd_delta_bounds n H) as (A & B & C). unfold arange_len, fdiv, fsub. set (d := wd_delta n) in *. set (h := rnd64 (d / 2)). pose proof uu_val as U. pose proof uu_pos as U0.
  assert (Hd : d <= 361) by (set (n' := IZR n) in *; clearbody d n'; nra).
  assert (Hh : d / 2 * (1 - uu) <= h <= d / 2 * (1 + uu)) by (apply rel_pos; change (2 ^ 100)%Z with 1267650600228229401496703205376%Z; lra).
  set (s := rnd64 (360 - - h)). assert (Hs : (360 + h) * (1 - uu) <= s <= (360 + h) * (1 + uu)) by (unfold s; replace (360 - - h) with (360 + h) by ring; apply rel_pos; change (2 ^ 100)%Z with 1267650600228229401496703205376%Z; nra).
  set (q := s / d). assert (Q : q * d = s) by (unfold q; field; lra).
  assert (Q1 : Rabs (q - (IZR n + / 2)) <= 1 / 8).
  { set (n' := IZR n) in *. assert (D1 : (q - (n' + / 2)) * d = s - d * n' - d / 2) by lra. clearbody n' q d s h.
    assert (D2 : Rabs ((q - (n' + / 2)) * d) <= 2000 * uu) by (rewrite D1; apply Rabs_le; nra).
    rewrite Rabs_mult, (Rabs_pos_eq d) in D2 by lra. apply Rmult_le_reg_r with d; [lra|]. apply Rle_trans with (2000 * uu); [exact D2|]. assert (d * 1099511627776 >= 360 * (1 - uu)) by nra. lra. }
  apply Rabs_le_inv in Q1. pose proof (quotient_err q ltac:(lra)) as Q2. apply Rabs_le_inv in Q2.
  destruct (zceil_between (rnd64 q) n (n + 1)) as [Z1 Z2]; [rewrite plus_IZR; lra|lia].
Qed.
Lemma cents_len_exact n : (1 <= n <= 2 ^ 40)%Z -> is_float (360 / IZR n) -> arange_len 0 360 (wd_delta n) = n.
Proof.
  intros H F. assert (N : 1 <= IZR n) by (apply IZR_le; lia). unfold arange_len. rewrite fsub_0 by apply int360. unfold wd_delta, fdiv. rewrite (rnd_id _ F).
  replace (360 / (360 / IZR n)) with (IZR n) by (field; lra). rewrite rnd_id by (apply int_format; lia). apply Zceil_IZR.
Qed.
Lemma np_arange_length a b d : length (np_arange a b d) = Z.to_nat (arange_len a b d).
Proof. unfold np_arange. now rewrite map_length, seq_length. Qed.

(** ** the integration grid along a centreline *)
Lemma fdiv_int n k : (0 < k)%Z -> (Z.abs n < 2 ^ 53)%Z -> fdiv (IZR (n * k)) (IZR k) = IZR n.
Proof. intros K H. unfold fdiv. apply (IZR_lt 0) in K. rewrite mult_IZR. replace (IZR n * IZR k / IZR k) with (IZR n) by (field; lra). apply rnd_id. now apply int_format. Qed.
Lemma fmul_int n k : (Z.abs (n * k) < 2 ^ 53)%Z -> fmul (IZR n) (IZR k) = IZR (n * k).
Proof. intros H. unfold fmul. rewrite <- mult_IZR. apply rnd_id. now apply int_format. Qed.
Lemma nth_arange0 b d k dflt : is_float d -> (k < length (np_arange 0 b d))%nat -> nth k (np_arange 0 b d) dflt = rnd64 (INR k * d).
Proof.
  intros F K. unfold np_arange in *. rewrite map_length, seq_length in K. rewrite (nth_indep _ dflt (fadd 0 (fmul (INR 0) (fsub (fadd 0 d) 0)))) by (rewrite map_length, seq_length; exact K).
  rewrite (map_nth (fun k => fadd 0 (fmul (INR k) (fsub (fadd 0 d) 0)))), seq_nth by exact K. rewrite (fadd_0 d F), (fsub_0 d F). cbn [Nat.add]. apply fadd_0. apply rnd_float.
Qed.
Lemma cl_steps_int xmax k : is_float xmax -> (1 <= k <= 2 ^ 50)%Z -> 0 <= xmax <= IZR (2 ^ 50) ->
  let n := cl_steps xmax (IZR k) in (0 <= n)%Z /\ xmax <= IZR (n * k) /\ (n = 0%Z \/ IZR ((n - 1) * k) < xmax).
Proof.
  intros F [K1 K2] X. unfold cl_steps. rewrite (fsub_0 xmax F). set (q := fdiv xmax (IZR k)). set (n := Ztrunc q).
  assert (Kr : 1 <= IZR k) by (apply IZR_le; exact K1). set (y := xmax / IZR k). assert (Y : y * IZR k = xmax) by (unfold y; field; lra).
  assert (Y0 : 0 <= y) by (unfold y; apply Rmult_le_pos; [lra|left; apply Rinv_0_lt_compat; lra]).
  assert (Yb : y <= IZR (2 ^ 50)) by (clearbody y; nra).
  assert (Q : q = rnd64 y) by reflexivity. assert (Q0 : 0 <= q) by (rewrite Q; rewrite <- rnd_0; now apply rnd_le).
  assert (Qb : q <= IZR (2 ^ 50)) by (rewrite Q; apply rnd_le_float; [apply int_format; reflexivity|exact Yb]).
  assert (N : n = Zfloor q) by (unfold n; now rewrite Ztrunc_floor). assert (N0 : (0 <= n)%Z) by (rewrite N; apply Zfloor_lub; exact Q0).
  assert (Nb : (n <= 2 ^ 50)%Z) by (apply le_IZR; rewrite N; pose proof (Zfloor_lb q); lra).
  pose proof (Zfloor_lb q) as G1. pose proof (Zfloor_ub q) as G2. rewrite <- N in G1, G2.
  (* bounds of the exact quotient *)
  assert (Up : y < IZR n + 1).
  { apply Rnot_le_lt. intros C. assert (IZR (n + 1) <= rnd64 y) by (apply rnd_ge_float; [apply int_format; lia|rewrite plus_IZR; exact C]). rewrite plus_IZR in H. lra. }
  assert (Lo : n = 0%Z \/ IZR n - 1 < y).
  { destruct (Z.eq_dec n 0) as [E|E]; [now left|right]. apply Rnot_le_lt. intros C.
    assert (rnd64 y <= IZR (n - 1)) by (apply rnd_le_float; [apply int_format; lia|rewrite minus_IZR; exact C]). rewrite minus_IZR in H. lra. }
  assert (Sm : (n * k <= 2 ^ 52)%Z).
  { apply le_IZR. rewrite mult_IZR. destruct Lo as [->|Lo]; [rewrite Rmult_0_l; apply IZR_le; lia|]. assert (IZR k <= IZR (2 ^ 50)) by (apply IZR_le; exact K2).
    change (IZR (2 ^ 52)) with 4503599627370496. change (IZR (2 ^ 50)) with 1125899906842624 in *. set (n' := IZR n) in *. clearbody n' y. nra. }
  assert (M : fadd 0 (fmul (IZR n) (IZR k)) = IZR (n * k)) by (rewrite fmul_int by lia; apply fadd_0; apply int_format; lia). rewrite M.
  destruct (Rltb (IZR (n * k)) xmax) eqn:E; [apply Rltb_true in E|apply Rltb_false in E].
  - split; [lia|]. rewrite !mult_IZR, minus_IZR, !plus_IZR in *. set (n' := IZR n) in *. split; [clearbody n' y; nra|]. right. clearbody n' y. nra.
  - split; [exact N0|]. split; [exact E|]. destruct Lo as [Lo|Lo]; [now left|right]. rewrite mult_IZR, minus_IZR. set (n' := IZR n) in *. clearbody n' y. nra.
Qed.
Lemma cl_grid_int xmax k : is_float xmax -> (1 <= k <= 2 ^ 50)%Z -> 0 <= xmax <= IZR (2 ^ 50) ->
  exists n, cl_grid xmax (IZR k) = Ok (map (fun i => INR i * IZR k) (seq 0 (S n))) /\ xmax <= INR n * IZR k /\ (n = O \/ INR n * IZR k - IZR k < xmax).
Proof.
  intros F K X. destruct (cl_steps_int xmax k F K X) as (N0 & N1 & N2). set (n := cl_steps xmax (IZR k)) in *. exists (Z.to_nat n).
  assert (In : INR (Z.to_nat n) = IZR n) by (rewrite INR_IZR_INZ, Z2Nat.id by exact N0; reflexivity).
  assert (Sm : ((n + 1) * k < 2 ^ 53)%Z).
  { apply lt_IZR. destruct N2 as [E|E].
    - rewrite E. apply IZR_lt. lia.
    - assert (IZR k <= IZR (2 ^ 50)) by (apply IZR_le; lia). rewrite mult_IZR, minus_IZR in E. rewrite mult_IZR, plus_IZR. change (IZR (2 ^ 53)) with 9007199254740992. change (IZR (2 ^ 50)) with 1125899906842624 in *. lra. }
  assert (Kf : is_float (IZR k)) by (apply int_format; lia).
  assert (Nn : (n < 2 ^ 53 - 1)%Z) by nia.
  split; [|split].
  - unfold cl_grid. fold n. rewrite fmul_int by lia. rewrite fadd_0 by (apply int_format; lia).
    assert (L : arange_len 0 (IZR ((n + 1) * k)) (IZR k) = (n + 1)%Z) by (unfold arange_len; rewrite fsub_0 by (apply int_format; lia); rewrite fdiv_int by lia; apply Zceil_IZR).
    rewrite np_arange_length, L, Z2Nat.id, Z.eqb_refl by lia. f_equal. unfold np_arange. rewrite L. replace (Z.to_nat (n + 1)) with (S (Z.to_nat n)) by lia.
    apply map_ext_in. intros i Hi. apply in_seq in Hi. rewrite (fadd_0 _ Kf), (fsub_0 _ Kf). rewrite INR_IZR_INZ. assert (Z.of_nat i * k <= n * k)%Z by nia.
    rewrite fmul_int by nia. rewrite fadd_0 by (apply int_format; nia). now rewrite mult_IZR.
  - rewrite In, <- mult_IZR. exact N1.
  - destruct N2 as [E|E]; [left; lia|right]. rewrite In. rewrite mult_IZR, minus_IZR in E. lra.
Qed.
(** the float 12.6 *)
Definition d126 : R := 7093169413108531 * bpow radix2 (-49).
Lemma d126_float : is_float d126. Proof. apply float_repr. exists 7093169413108531%Z, (-49)%Z. repeat split; lia. Qed.
Lemma d126_nearest : rnd64 (126 / 10) = d126.
Proof. unfold d126. apply rnd_by_exponent; [lia| |].
  - change (bpow radix2 (-49 + 52)) with 8. change (bpow radix2 (-49 + 53)) with 16. rewrite Rabs_pos_eq; lra.
  - change (bpow radix2 (- -49)) with 562949953421312. apply Rabs_def1; lra. Qed.
Lemma cl_grid_126 : cl_grid 1580 d126 = Err ValueError.
Proof.
  assert (D : d126 * 562949953421312 = 7093169413108531) by (unfold d126; change (bpow radix2 (-49)) with (/ 562949953421312); lra).
  assert (F1580 : is_float 1580) by (apply (int_format 1580); reflexivity).
  assert (N : cl_steps 1580 d126 = 126%Z).
  { unfold cl_steps. rewrite (fsub_0 _ F1580). assert (T : Ztrunc (fdiv 1580 d126) = 125%Z).
    { set (y := 1580 / d126). assert (Y : y * d126 = 1580) by (unfold y; field; lra). assert (Y1 : 125 <= y <= 125 + / 2) by (clearbody y; split; nra).
      unfold fdiv. fold y. assert (125 <= rnd64 y) by (apply rnd_ge_float; [apply (int_format 125); reflexivity|lra]).
      assert (rnd64 y <= 125 + / 2) by (apply rnd_le_float; [|lra]; apply float_repr; exists 251%Z, (-1)%Z; split; [reflexivity|split; [lia|]]; change (bpow radix2 (-1)) with (/ 2); lra).
      rewrite Ztrunc_floor by lra. apply Zfloor_imp. change (125 + 1)%Z with 126%Z. lra. }
    rewrite T. replace (Rltb (fadd 0 (fmul 125 d126)) 1580) with true; [reflexivity|]. symmetry. apply Rltb_true. rewrite fadd_0 by apply rnd_float.
    apply Rle_lt_trans with 1576; [|lra]. apply rnd_le_float; [apply (int_format 1576); reflexivity|lra]. }
  unfold cl_grid. rewrite N. change (126 + 1)%Z with 127%Z.
  assert (M : fmul 127 d126 = 7037754027068621 * bpow radix2 (-42)).
  { unfold fmul. apply rnd_by_exponent; [lia| |].
    - change (bpow radix2 (-42 + 52)) with 1024. change (bpow radix2 (-42 + 53)) with 2048. rewrite Rabs_pos_eq; lra.
    - change (bpow radix2 (- -42)) with 4398046511104. apply Rabs_def1; lra. }
  rewrite fadd_0 by apply rnd_float. rewrite M. set (b := 7037754027068621 * bpow radix2 (-42)). assert (Bf : is_float b) by (unfold b; rewrite <- M; apply rnd_float).
  assert (B : b * 4398046511104 = 7037754027068621) by (unfold b; change (bpow radix2 (-42)) with (/ 4398046511104); lra).
  assert (L : arange_len 0 b d126 = 128%Z).
  { unfold arange_len. rewrite (fsub_0 _ Bf). set (y := b / d126). assert (Y : y * d126 = b) by (unfold y; field; lra). unfold fdiv. fold y.
    rewrite (rnd_by_exponent y (-46) 8936830510563329).
    - change (bpow radix2 (-46)) with (/ 70368744177664). apply Zceil_imp. change (128 - 1)%Z with 127%Z. lra.
    - lia.
    - change (bpow radix2 (-46 + 52)) with 64. change (bpow radix2 (-46 + 53)) with 128. clearbody y. rewrite Rabs_pos_eq; nra.
    - change (bpow radix2 (- -46)) with 70368744177664. clearbody y. apply Rabs_def1; nra. }
  rewrite np_arange_length, L. reflexivity.
Qed.

(** ** limits *)
Lemma abs_err x : Rabs (rnd64 x - x) <= uu * Rabs x + / IZR (2 ^ 100).
Proof.
  pose proof uu_pos. pose proof bpow_small. pose proof (Rabs_pos x). destruct (Rle_dec (bpow radix2 (-1022)) (Rabs x)) as [A|A].
  - pose proof (rel_err x A). nra.
  - apply Rle_trans with (Rabs (0 - x)); [apply rnd_nearest; apply (int_format 0); reflexivity|]. replace (0 - x) with (- x) by ring. rewrite Rabs_Ropp. nra.
Qed.
Lemma add_sub_err t amb : / 10 ^ 9 <= t -> 0 <= amb <= 2 ^ 20 * t -> Rabs (fadd amb (fsub t amb) - t) <= t * / 2 ^ 31.
Proof.
  intros T A. unfold fadd, fsub. pose proof uu_val. pose proof uu_pos. pose proof (abs_err (t - amb)) as E1. set (s := rnd64 (t - amb)) in *. pose proof (abs_err (amb + s)) as E2.
  change (2 ^ 100)%Z with 1267650600228229401496703205376%Z in *.
  assert (B : Rabs (t - amb) <= 2 ^ 20 * t) by (apply Rabs_le; lra). assert (S1 : Rabs (amb + s - t) <= uu * (2 ^ 20 * t) + / 1267650600228229401496703205376).
  { replace (amb + s - t) with (s - (t - amb)) by ring. apply Rle_trans with (uu * Rabs (t - amb) + / 1267650600228229401496703205376); [exact E1|]. apply Rplus_le_compat_r. apply Rmult_le_compat_l; lra. }
  apply Rabs_le_inv in S1. assert (S2 : Rabs (amb + s) <= 2 * t) by (apply Rabs_le; nra).
  assert (E3 : Rabs (rnd64 (amb + s) - (amb + s)) <= uu * (2 * t) + / 1267650600228229401496703205376) by (apply Rle_trans with (1 := E2); apply Rplus_le_compat_r; apply Rmult_le_compat_l; lra).
  apply Rabs_le_inv in E3. apply Rabs_le. nra.
Qed.
