(** Evaluation of concrete float expressions with Flocq's executable division. *)
From Coq Require Import ZArith Reals Lra Lia List.
From Flocq Require Import Core BinarySingleNaN.
From Verif Require Import RBase Float_Model Float_Proofs.
Import ListNotations.
Local Open Scope R_scope.

Lemma lt_emax : Prec_lt_emax 53 1024. Proof. reflexivity. Qed.
Definition bf := binary_float 53 1024.
Definition of_int (n : Z) : bf := binary_normalize 53 1024 prec53 lt_emax mode_NE n 0 false.
Definition bdiv (x y : bf) : bf := @Bdiv 53 1024 prec53 lt_emax mode_NE x y.

Lemma in_range_max x : Rabs x <= IZR (2 ^ 60) -> Rabs (rnd64 x) < bpow radix2 1024.
Proof.
  intros H. apply Rle_lt_trans with (IZR (2 ^ 60)).
  - assert (F : is_float (IZR (2 ^ 60))) by (apply float_repr; exists 1%Z, 60%Z; split; [reflexivity|split; [lia|]]; change (bpow radix2 60) with (IZR (2 ^ 60)); ring).
    apply Rabs_le_inv in H. apply Rabs_le. split; [apply rnd_ge_float; [apply float_opp; exact F|lra]|apply rnd_le_float; [exact F|lra]].
  - change (IZR (2 ^ 60)) with (bpow radix2 60). apply bpow_lt. lia.
Qed.
Lemma of_int_spec n : (Z.abs n < 2 ^ 53)%Z -> B2R (of_int n) = IZR n /\ is_finite (of_int n) = true.
Proof.
  intros H. pose proof (binary_normalize_correct 53 1024 prec53 lt_emax mode_NE n 0 false) as C. cbv zeta in C.
  replace (F2R {| Fnum := n; Fexp := 0 |}) with (IZR n) in C by (unfold F2R; cbn; ring).
  change (round radix2 (SpecFloat.fexp 53 1024) (round_mode mode_NE) (IZR n)) with (rnd64 (IZR n)) in C. rewrite (rnd_id _ (int_format n H)) in C.
  rewrite Rlt_bool_true in C.
  - destruct C as (C1 & C2 & _). split; [exact C1|exact C2].
  - rewrite <- (rnd_id _ (int_format n H)). apply in_range_max. rewrite <- abs_IZR. apply IZR_le. lia.
Qed.
Lemma bdiv_spec x y : B2R y <> 0 -> is_finite x = true -> Rabs (B2R x / B2R y) <= IZR (2 ^ 60) -> B2R (bdiv x y) = fdiv (B2R x) (B2R y) /\ is_finite (bdiv x y) = true.
Proof.
  intros H Fx Hb. pose proof (Bdiv_correct 53 1024 prec53 lt_emax mode_NE x y H) as C.
  change (round radix2 (SpecFloat.fexp 53 1024) (round_mode mode_NE) (B2R x / B2R y)) with (rnd64 (B2R x / B2R y)) in C.
  rewrite Rlt_bool_true in C by (apply in_range_max; exact Hb). destruct C as (C1 & C2 & _). split; [exact C1|]. unfold bdiv. now rewrite C2.
Qed.
(** the test: 360 / (360 / n) <= n *)
Definition sectors_ok (n : Z) : bool := Bleb (bdiv (of_int 360) (bdiv (of_int 360) (of_int n))) (of_int n).
Lemma sectors_ok_spec n : (1 <= n <= 2 ^ 40)%Z -> (sectors_ok n = true <-> arange_len 0 360 (wd_delta n) = n).
Proof.
  intros H. destruct (wd_delta_bounds n H) as (A & B & C). pose proof uu_val as U. pose proof uu_pos as U0.
  destruct (of_int_spec n ltac:(lia)) as [N1 N2]. destruct (of_int_spec 360 eq_refl) as [T1 T2].
  destruct (bdiv_spec (of_int 360) (of_int n)) as [D1 D2]; [rewrite N1; lra|exact T2| |].
  { rewrite N1, T1. rewrite Rabs_pos_eq by (apply Rlt_le, Rdiv_lt_0_compat; lra). apply Rmult_le_reg_r with (IZR n); [lra|]. unfold Rdiv. rewrite Rmult_assoc, Rinv_l, Rmult_1_r by lra.
    apply Rle_trans with (IZR (2 ^ 60) * 1); [rewrite Rmult_1_r; apply IZR_le; lia|]. apply Rmult_le_compat_l; [apply IZR_le; lia|lra]. }
  rewrite N1, T1 in D1. change (fdiv 360 (IZR n)) with (wd_delta n) in D1. set (d := wd_delta n) in *.
  destruct (bdiv_spec (of_int 360) (bdiv (of_int 360) (of_int n))) as [E1 E2]; [rewrite D1; lra|exact T2| |].
  { rewrite D1, T1. rewrite Rabs_pos_eq by (apply Rlt_le, Rdiv_lt_0_compat; lra). apply Rmult_le_reg_r with d; [lra|]. unfold Rdiv at 1. rewrite Rmult_assoc, Rinv_l, Rmult_1_r by lra.
    change (2 ^ 60)%Z with 1152921504606846976%Z. lra. }
  rewrite D1, T1 in E1. unfold sectors_ok. rewrite Bleb_correct by assumption. rewrite E1, N1.
  assert (L : arange_len 0 360 d = Zceil (fdiv 360 d)) by (unfold arange_len; rewrite fsub_0 by apply int360; reflexivity). rewrite L.
  destruct (Rle_bool_spec (fdiv 360 d) (IZR n)) as [G|G]; split; intros X; try discriminate; try reflexivity.
  - pose proof (cents_len n H) as Y. fold d in Y. rewrite L in Y. assert (Zceil (fdiv 360 d) <= n)%Z by (apply Zceil_glb; exact G). lia.
  - exfalso. pose proof (Zceil_ub (fdiv 360 d)). rewrite X in H0. lra.
Qed.
Lemma sectors_to_160 n : (1 <= n <= 160)%Z -> arange_len 0 360 (wd_delta n) = n.
Proof.
  intros H. apply sectors_ok_spec; [lia|].
  assert (A : forallb sectors_ok (map Z.of_nat (seq 1 160)) = true) by (vm_compute; reflexivity).
  rewrite forallb_forall in A. apply A. apply in_map_iff. exists (Z.to_nat n). split; [lia|]. apply in_seq. lia.
Qed.
Lemma sectors_161 : arange_len 0 360 (wd_delta 161) = 162%Z.
Proof.
  destruct (cents_len 161 ltac:(lia)) as [H|H]; [|exact H]. apply sectors_ok_spec in H; [|lia]. assert (sectors_ok 161 = false) by (vm_compute; reflexivity). congruence.
Qed.
