From Verif Require Import RBase Data_Model GetData_Model.
Local Open Scope R_scope.
Local Notation length := List.length.
Local Open Scope string_scope.
Local Open Scope list_scope.

(** valid index of a shape *)
Definition inside (sh idx : list nat) : Prop := Forall2 (fun n i => (i < n)%nat) sh idx.
Lemma inside_length sh idx : inside sh idx -> length sh = length idx.
Proof. induction 1; cbn; congruence. Qed.
(** shape fits: each axis has the target's length or one *)
Definition fitting (sh tgt : list nat) : Prop := (length sh <= length tgt)%nat /\ prefix_ok sh tgt = true.

Lemma bidx_app sh k idx : (length sh <= length idx)%nat -> bidx (sh ++ repeat 1%nat k) idx = bidx sh (firstn (length sh) idx) ++ repeat 0%nat (Nat.min k (length idx - length sh)%nat).
Proof.
  revert idx. induction sh as [|n sh IH]; intros idx H; cbn [app length firstn].
  - rewrite Nat.sub_0_r. unfold bidx. cbn [combine map app]. revert idx H. induction k as [|k IHk]; intros idx H; [destruct idx; reflexivity|]. destruct idx as [|i idx]; [reflexivity|]. cbn. f_equal. apply IHk. cbn; lia.
  - destruct idx as [|i idx]; [cbn in H; lia|]. cbn in H |- *. f_equal. apply IH. lia.
Qed.
Lemma bidx_firstn sh idx : bidx sh (firstn (length sh) idx) = bidx sh idx.
Proof. revert idx. induction sh as [|n sh IH]; intros idx; [reflexivity|]. destruct idx as [|i idx]; [reflexivity|]. cbn. f_equal. apply IH. Qed.
Lemma bidx_length sh idx : (length sh <= length idx)%nat -> length (bidx sh idx) = length sh.
Proof. intros H. unfold bidx. rewrite map_length, combine_length. lia. Qed.
Lemma match_shape_get tgt a out idx : (length (shp a) <= length tgt)%nat -> length idx = length tgt -> match_shape tgt a = Ok out -> bget out idx = val a (bidx (shp a) idx).
Proof.
  intros Hl Hi. unfold match_shape. destruct (length (shp a) <? length tgt)%nat eqn:E.
  - destruct (prefix_ok (shp a) tgt); [|discriminate]. intros H. injection H as <-. unfold bget. cbn [shp val]. rewrite bidx_app by lia.
    rewrite firstn_app, bidx_firstn, bidx_length by lia. rewrite Nat.sub_diag, firstn_O, app_nil_r. rewrite <- (bidx_length (shp a) idx) at 1 by lia. now rewrite firstn_all.
  - destruct (length tgt <? length (shp a))%nat; [discriminate|]. intros H. injection H as <-. reflexivity.
Qed.
Lemma match_shape_ok tgt a : fitting (shp a) tgt -> exists out, match_shape tgt a = Ok out.
Proof.
  intros (H1 & H2). unfold match_shape. rewrite H2. destruct (length (shp a) <? length tgt)%nat; [eauto|]. destruct (length tgt <? length (shp a))%nat eqn:E; [apply Nat.ltb_lt in E; lia|eauto].
Qed.
Lemma bidx_inside sh idx : inside sh idx -> bidx sh idx = idx.
Proof. induction 1 as [|n i sh idx H _ IH]; [reflexivity|]. cbn. fold (bidx sh idx). rewrite IH. destruct (n =? 1)%nat eqn:E; [|reflexivity]. apply Nat.eqb_eq in E. subst. f_equal. lia. Qed.
Lemma upcast_get tgt a idx : inside tgt idx -> bget (upcast tgt a) idx = bget a idx.
Proof. intros H. unfold bget at 1. cbn [upcast shp val]. now rewrite bidx_inside. Qed.
Lemma bget_inside a idx : inside (shp a) idx -> bget a idx = val a idx.
Proof. intros H. unfold bget. now rewrite bidx_inside. Qed.

(** rounding a weighted mean of naturals stays between bounds *)
Lemma wsum_bounds w f lo hi : forall k, (forall x, In x w -> 0 <= x) -> (forall j, (k <= j < k + length w)%nat -> lo <= f j <= hi) ->
  lo * rsum w <= wsum w f k <= hi * rsum w.
Proof.
  induction w as [|x w IH]; intros k Hw Hf; cbn [wsum rsum]; [lra|]. specialize (IH (S k)). assert (Hx : 0 <= x) by (apply Hw; now left).
  assert (B : lo <= f k <= hi) by (apply Hf; cbn; lia). destruct IH as (I1 & I2); [intros y Hy; apply Hw; now right|intros j Hj; apply Hf; cbn; lia|]. nra.
Qed.
Lemma round_bounds x lo hi : INR lo <= x <= INR hi -> (lo <= Z.to_nat (rfloor (x + 1 / 2)) <= hi)%nat.
Proof.
  intros (H1 & H2). pose proof (rfloor_spec (x + 1 / 2)) as (A & B). rewrite INR_IZR_INZ in H1, H2.
  assert (L : (Z.of_nat lo <= rfloor (x + 1 / 2))%Z). { apply Z.lt_succ_r. apply lt_IZR. unfold Z.succ. rewrite plus_IZR. lra. }
  assert (U : (rfloor (x + 1 / 2) <= Z.of_nat hi)%Z). { apply Z.lt_succ_r. apply lt_IZR. unfold Z.succ. rewrite plus_IZR. lra. }
  lia.
Qed.
