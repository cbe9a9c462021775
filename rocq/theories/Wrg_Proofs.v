(** Lemmas about wind resource grids. *)
From Verif Require Import RBase Wrg_Model.
Local Open Scope R_scope.

Lemma skipn_seq k : forall s n, skipn k (seq s n) = seq (s + k) (n - k).
Proof. induction k as [|k IH]; intros s n; [now rewrite Nat.add_0_r, Nat.sub_0_r|]. destruct n as [|n]; [reflexivity|]. cbn [seq skipn]. rewrite IH. f_equal; lia. Qed.
Lemma firstn_seq k : forall s n, (k <= n)%nat -> firstn k (seq s n) = seq s k.
Proof. induction k as [|k IH]; intros s n H; [reflexivity|]. destruct n as [|n]; [lia|]. cbn [seq firstn]. rewrite IH by lia. reflexivity. Qed.
Lemma grid_len x0 res n : length (grid x0 res n) = n.
Proof. unfold grid. now rewrite map_length, seq_length. Qed.
Lemma grid_slice x0 res n s t : (0 <= s <= t)%Z -> (t <= Z.of_nat n)%Z ->
  pyslice s t (grid x0 res n) = map (fun i => x0 + INR i * res) (seq (Z.to_nat s) (Z.to_nat (t - s))).
Proof.
  intros H1 H2. unfold pyslice, pybound. rewrite grid_len. destruct (Z.ltb_spec s 0); [lia|]. destruct (Z.ltb_spec t 0); [lia|].
  rewrite !Z.min_l by lia. unfold grid. rewrite skipn_map, firstn_map, skipn_seq, firstn_seq by lia. reflexivity.
Qed.
Lemma trunc_nonneg x : 0 <= x -> trunc x = rfloor x /\ (0 <= trunc x)%Z.
Proof.
  intros H. unfold trunc. rewrite (proj2 (Rleb_true _ _) H). split; [reflexivity|]. pose proof (rfloor_spec x) as (_ & F).
  assert (IZR (-1) < IZR (rfloor x)) by (cbn; lra). apply lt_IZR in H0. lia.
Qed.
Lemma trunc_neg x : x < 0 -> trunc x = (- rfloor (- x))%Z.
Proof. intros H. unfold trunc. now rewrite (proj2 (Rleb_false _ _) H). Qed.
(** data inside the grid *)
Section Inside.
Context (x0 res a b : R) (n : nat).
Hypothesis Hres : 0 < res.
Hypothesis Ha : x0 <= a.
Hypothesis Hab : a <= b.
Hypothesis Hb : b <= x0 + (INR n - 1) * res.
Let s := rfloor ((a - x0) / res).
Let t := (rfloor ((b - x0) / res) + 1)%Z.
Lemma div_ge x y : x <= y * res <-> x / res <= y.
Proof using Hres.
  split; intros H.
  - apply Rmult_le_reg_r with res; [exact Hres|]. unfold Rdiv. rewrite Rmult_assoc, Rinv_l; lra.
  - apply Rmult_le_compat_r with (r := res) in H; [|lra]. unfold Rdiv in H. rewrite Rmult_assoc, Rinv_l in H; lra.
Qed.
Lemma bounds_st : (0 <= s < t)%Z /\ (t <= Z.of_nat n)%Z.
Proof using Hres Ha Hab Hb.
  assert (A : 0 <= (a - x0) / res) by (unfold Rdiv; apply Rmult_le_pos; [lra|left; now apply Rinv_0_lt_compat]).
  assert (B : (a - x0) / res <= (b - x0) / res) by (unfold Rdiv; apply Rmult_le_compat_r; [left; now apply Rinv_0_lt_compat|lra]).
  assert (C : (b - x0) / res <= INR n - 1) by (apply div_ge; lra).
  pose proof (rfloor_spec ((a - x0) / res)) as (S1 & S2). pose proof (rfloor_spec ((b - x0) / res)) as (T1 & T2). fold s in S1, S2.
  assert (Q1 : (0 <= s)%Z). { assert (IZR (-1) < IZR s) by (cbn; lra). apply lt_IZR in H. lia. }
  assert (Q2 : (s < t)%Z). { assert (IZR s < IZR t) by (unfold t; rewrite plus_IZR; lra). now apply lt_IZR in H. }
  assert (Q3 : (t <= Z.of_nat n)%Z). { apply le_IZR. unfold t. rewrite plus_IZR. rewrite <- INR_IZR_INZ. lra. }
  lia.
Qed.
Lemma slice_eq : pyslice (trunc ((a - x0) / res)) (trunc ((b - x0) / res) + 1) (grid x0 res n) = map (fun i => x0 + INR i * res) (seq (Z.to_nat s) (Z.to_nat (t - s))).
Proof using Hres Ha Hab Hb.
  assert (A : 0 <= (a - x0) / res) by (unfold Rdiv; apply Rmult_le_pos; [lra|left; now apply Rinv_0_lt_compat]).
  assert (B : 0 <= (b - x0) / res) by (unfold Rdiv; apply Rmult_le_pos; [lra|left; now apply Rinv_0_lt_compat]).
  destruct (trunc_nonneg _ A) as (-> & _). destruct (trunc_nonneg _ B) as (-> & _). pose proof bounds_st. apply grid_slice; unfold s, t in *; lia.
Qed.
Lemma index_iff i : (Z.to_nat s <= i < Z.to_nat t)%nat <-> a - res < x0 + INR i * res <= b.
Proof using Hres Ha Hab Hb.
  pose proof bounds_st as ((B1 & B2) & B3). pose proof (rfloor_spec ((a - x0) / res)) as (S1 & S2). pose proof (rfloor_spec ((b - x0) / res)) as (T1 & T2). fold s in S1, S2.
  assert (E : forall z, (0 <= z)%Z -> INR (Z.to_nat z) = IZR z) by (intros z Hz; rewrite INR_IZR_INZ, Z2Nat.id; [reflexivity|exact Hz]).
  assert (Ua : (a - x0) / res * res = a - x0) by (field; lra). assert (Ub : (b - x0) / res * res = b - x0) by (field; lra). split.
  - intros (H1 & H2). apply le_INR in H1. rewrite E in H1 by lia. assert (H3 : INR i + 1 <= IZR t) by (assert (Q : INR (S i) <= INR (Z.to_nat t)) by (apply le_INR; lia); rewrite S_INR, E in Q by lia; exact Q).
    unfold t in H3. rewrite plus_IZR in H3. split; nra.
  - intros (H1 & H2). split.
    + apply INR_le. rewrite E by lia. apply Rnot_lt_le. intros Q. assert (Q2 : IZR (Z.of_nat i) < IZR s) by now rewrite <- INR_IZR_INZ.
      apply lt_IZR in Q2. assert (Q3 : INR i <= IZR s - 1) by (rewrite INR_IZR_INZ, <- minus_IZR; apply IZR_le; lia). nra.
    + apply INR_lt. rewrite E by lia. unfold t. rewrite plus_IZR. apply Rnot_le_lt. intros Q. nra.
Qed.
Lemma slice_in c : In c (pyslice (trunc ((a - x0) / res)) (trunc ((b - x0) / res) + 1) (grid x0 res n)) <-> In c (grid x0 res n) /\ a - res < c <= b.
Proof using Hres Ha Hab Hb.
  rewrite slice_eq. pose proof bounds_st as ((B1 & B2) & B3). unfold grid. rewrite !in_map_iff. split.
  - intros (i & <- & I). apply in_seq in I. rewrite <- index_iff. split; [exists i; split; [reflexivity|apply in_seq; lia]|lia].
  - intros ((i & <- & I) & H). exists i. split; [reflexivity|]. apply index_iff in H. apply in_seq. lia.
Qed.
End Inside.
Lemma grid_in x0 res n c : In c (grid x0 res n) <-> exists i, (i < n)%nat /\ c = x0 + INR i * res.
Proof. unfold grid. rewrite in_map_iff. split; [intros (i & <- & I); apply in_seq in I; exists i; split; [lia|reflexivity]|intros (i & H & ->); exists i; split; [reflexivity|apply in_seq; lia]]. Qed.
