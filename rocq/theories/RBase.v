(** Real numbers: decidable comparisons, floor, modulo and a few general facts.
    Python floats are modelled by exact real numbers (rounding, overflow and NaN are not modelled here,
    except where a definition says so). *)
From Coq Require Export Reals Lra Psatz.
From Verif Require Export Base.
Local Open Scope R_scope.

(** comparisons of floats *)
Definition Rltb (x y : R) : bool := if Rlt_dec x y then true else false.
Definition Rleb (x y : R) : bool := if Rle_dec x y then true else false.
Definition Reqb (x y : R) : bool := if Req_EM_T x y then true else false.
Lemma Rltb_true x y : Rltb x y = true <-> x < y.
Proof. unfold Rltb. destruct (Rlt_dec x y); split; auto; discriminate. Qed.
Lemma Rltb_false x y : Rltb x y = false <-> y <= x.
Proof. unfold Rltb. destruct (Rlt_dec x y); split; intros; try discriminate; try reflexivity; lra. Qed.
Lemma Rleb_true x y : Rleb x y = true <-> x <= y.
Proof. unfold Rleb. destruct (Rle_dec x y); split; auto; discriminate. Qed.
Lemma Rleb_false x y : Rleb x y = false <-> y < x.
Proof. unfold Rleb. destruct (Rle_dec x y); split; intros; try discriminate; try reflexivity; lra. Qed.
Lemma Reqb_true x y : Reqb x y = true <-> x = y.
Proof. unfold Reqb. destruct (Req_EM_T x y); split; auto; discriminate. Qed.
Lemma Reqb_false x y : Reqb x y = false <-> x <> y.
Proof. unfold Reqb. destruct (Req_EM_T x y); split; auto; try discriminate. intros; contradiction. Qed.
Lemma Reqb_refl x : Reqb x x = true.
Proof. now apply Reqb_true. Qed.

Ltac rdec :=
  repeat match goal with
  | |- context [Rltb ?x ?y] => let E := fresh "E" in destruct (Rltb x y) eqn:E; [apply Rltb_true in E|apply Rltb_false in E]
  | |- context [Rleb ?x ?y] => let E := fresh "E" in destruct (Rleb x y) eqn:E; [apply Rleb_true in E|apply Rleb_false in E]
  | |- context [Reqb ?x ?y] => let E := fresh "E" in destruct (Reqb x y) eqn:E; [apply Reqb_true in E|apply Reqb_false in E]
  | |- context [Rlt_dec ?x ?y] => destruct (Rlt_dec x y)
  | |- context [Rle_dec ?x ?y] => destruct (Rle_dec x y)
  end.
Ltac rdecin H :=
  repeat match type of H with
  | context [Rltb ?x ?y] => let E := fresh "E" in destruct (Rltb x y) eqn:E; [apply Rltb_true in E|apply Rltb_false in E]
  | context [Rleb ?x ?y] => let E := fresh "E" in destruct (Rleb x y) eqn:E; [apply Rleb_true in E|apply Rleb_false in E]
  | context [Reqb ?x ?y] => let E := fresh "E" in destruct (Reqb x y) eqn:E; [apply Reqb_true in E|apply Reqb_false in E]
  end.

(** floor and numpy's np.mod for a positive modulus *)
Definition rfloor (x : R) : Z := Int_part x.
Lemma rfloor_spec x : IZR (rfloor x) <= x < IZR (rfloor x) + 1.
Proof. unfold rfloor. destruct (base_Int_part x) as (H1 & H2). lra. Qed.
Lemma rfloor_unique x k : IZR k <= x < IZR k + 1 -> rfloor x = k.
Proof.
  intros (H1 & H2). pose proof (rfloor_spec x) as (H3 & H4).
  assert (A : (rfloor x < k + 1)%Z) by (apply lt_IZR; rewrite plus_IZR; lra).
  assert (B : (k < rfloor x + 1)%Z) by (apply lt_IZR; rewrite plus_IZR; lra). lia.
Qed.
Definition rmod (x m : R) : R := x - m * IZR (rfloor (x / m)).
Lemma rmod_range x m : 0 < m -> 0 <= rmod x m < m.
Proof.
  intros H. unfold rmod. pose proof (rfloor_spec (x / m)) as (H1 & H2).
  assert (E : x = m * (x / m)) by (field; lra).
  split.
  - assert (m * IZR (rfloor (x / m)) <= m * (x / m)) by (apply Rmult_le_compat_l; lra). lra.
  - assert (m * (x / m) < m * (IZR (rfloor (x / m)) + 1)) by (apply Rmult_lt_compat_l; lra). lra.
Qed.
Lemma rmod_congr x m : exists k : Z, rmod x m = x + m * IZR k.
Proof. exists (- rfloor (x / m))%Z. unfold rmod. rewrite opp_IZR. ring. Qed.
Lemma rmod_unique x m y : 0 < m -> 0 <= y < m -> (exists k : Z, y = x + m * IZR k) -> rmod x m = y.
Proof.
  intros H Hy (k & E). unfold rmod. rewrite (rfloor_unique (x / m) (- k)).
  - rewrite opp_IZR, E. ring.
  - rewrite opp_IZR. assert (X : x / m = y / m - IZR k) by (rewrite E; field; lra). rewrite X.
    assert (0 <= y / m) by (apply Rmult_le_pos; [lra|apply Rlt_le, Rinv_0_lt_compat; lra]).
    assert (y / m < 1). { apply Rmult_lt_reg_r with m; [lra|]. unfold Rdiv. rewrite Rmult_assoc, Rinv_l by lra. lra. }
    lra.
Qed.
Lemma rmod_small x m : 0 <= x < m -> rmod x m = x.
Proof. intros H. apply rmod_unique; [lra|lra|]. exists 0%Z. lra. Qed.
Lemma rmod_shift x m k : 0 < m -> rmod (x + m * IZR k) m = rmod x m.
Proof.
  intros H. apply rmod_unique; [exact H|now apply rmod_range|]. destruct (rmod_congr x m) as (j & E).
  exists (j - k)%Z. rewrite E, minus_IZR. ring.
Qed.

(** sums of lists of reals *)
Fixpoint rsum (l : list R) : R := match l with [] => 0 | x :: l' => x + rsum l' end.
Lemma rsum_app l1 l2 : rsum (l1 ++ l2) = rsum l1 + rsum l2.
Proof. induction l1 as [|x l IH]; cbn [rsum map app]; [lra|]. rewrite IH. ring. Qed.
Lemma rsum_nonneg l : (forall x, In x l -> 0 <= x) -> 0 <= rsum l.
Proof. induction l as [|x l IH]; cbn [rsum map app]; intros H; [lra|]. pose proof (H x (or_introl eq_refl)). pose proof (IH (fun y Hy => H y (or_intror Hy))). lra. Qed.
Lemma rsum_scale c l : rsum (map (fun x => c * x) l) = c * rsum l.
Proof. induction l as [|x l IH]; cbn [rsum map app]; [lra|]. rewrite IH. ring. Qed.
Lemma rsum_map_plus {A} (f g : A -> R) l : rsum (map (fun x => f x + g x) l) = rsum (map f l) + rsum (map g l).
Proof. induction l as [|x l IH]; cbn [rsum map app]; [lra|]. rewrite IH. ring. Qed.
Lemma rsum_map_scale {A} c (f : A -> R) l : rsum (map (fun x => c * f x) l) = c * rsum (map f l).
Proof. induction l as [|x l IH]; cbn [rsum map app]; [lra|]. rewrite IH. ring. Qed.
Lemma rsum_le {A} (f g : A -> R) l : (forall x, In x l -> f x <= g x) -> rsum (map f l) <= rsum (map g l).
Proof.
  induction l as [|x l IH]; cbn [rsum map app]; intros H; [lra|]. pose proof (H x (or_introl eq_refl)).
  pose proof (IH (fun y Hy => H y (or_intror Hy))). lra.
Qed.
Lemma rsum_ext {A} (f g : A -> R) l : (forall x, In x l -> f x = g x) -> rsum (map f l) = rsum (map g l).
Proof.
  induction l as [|x l IH]; cbn [rsum map app]; intros H; [reflexivity|]. rewrite (H x (or_introl eq_refl)), (IH (fun y Hy => H y (or_intror Hy))). reflexivity.
Qed.
Lemma rsum_const {A} c (l : list A) : rsum (map (fun _ => c) l) = c * INR (length l).
Proof.
  induction l as [|x l IH]; [cbn [rsum map length INR]; lra|]. cbn [map length]. rewrite S_INR. change (c + rsum (map (fun _ => c) l) = c * (INR (length l) + 1)). rewrite IH. ring.
Qed.
From Coq Require Import Permutation.
Lemma rsum_perm l1 l2 : Permutation l1 l2 -> rsum l1 = rsum l2.
Proof. induction 1; cbn [rsum map app]; try lra. Qed.
