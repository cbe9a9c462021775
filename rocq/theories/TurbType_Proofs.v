(** Lemmas about turbine types created from files. *)
From Coq Require Import String Reals Lra.
From Verif Require Import RBase Factory_Model Factory_Proofs TypeName_Model TurbType_Model.
From Verif Require Import Curves_Model Curves_Spec Curves_Proofs.
Local Open Scope list_scope.
Local Open Scope R_scope.

(** slopes of a table are at most L *)
Fixpoint slopes (L : R) (t : table) : Prop :=
  match t with (x0, y0) :: (((x1, y1) :: _) as t') => Rabs (y1 - y0) <= L * (x1 - x0) /\ slopes L t' | _ => True end.
Lemma lin_seg x0 y0 x1 y1 u v L : x0 < x1 -> Rabs (y1 - y0) <= L * (x1 - x0) ->
  Rabs (((y1 - y0) / (x1 - x0) * (u - x0) + y0) - ((y1 - y0) / (x1 - x0) * (v - x0) + y0)) <= L * Rabs (u - v).
Proof.
  intros H S. replace ((y1 - y0) / (x1 - x0) * (u - x0) + y0 - ((y1 - y0) / (x1 - x0) * (v - x0) + y0)) with ((y1 - y0) / (x1 - x0) * (u - v)) by (field; lra).
  rewrite Rabs_mult. apply Rmult_le_compat_r; [apply Rabs_pos|]. unfold Rdiv. rewrite Rabs_mult, (Rabs_pos_eq (/ (x1 - x0))) by (left; apply Rinv_0_lt_compat; lra).
  apply Rmult_le_reg_r with (x1 - x0); [lra|]. rewrite Rmult_assoc, Rinv_l, Rmult_1_r by lra. exact S.
Qed.
Lemma slopes_tail L p t : slopes L (p :: t) -> slopes L t.
Proof. destruct p, t as [|(x1, y1) t]; cbn; tauto. Qed.
Lemma interp_head x0 y0 t : interp_from ((x0, y0) :: t) x0 = y0 \/ exists x1 y1 r, t = (x1, y1) :: r /\ x1 <= x0.
Proof.
  destruct t as [|(x1, y1) t]; [now left|]. cbn [interp_from]. destruct (Rltb x0 x1) eqn:E; [left|right].
  - apply Rltb_true in E. field. lra.
  - apply Rltb_false in E. eauto 6.
Qed.
Lemma interp_lip L : 0 <= L -> forall t x0 y0 u v, sorted ((x0, y0) :: t) -> slopes L ((x0, y0) :: t) -> x0 <= u <= v ->
  Rabs (interp_from ((x0, y0) :: t) u - interp_from ((x0, y0) :: t) v) <= L * (v - u).
Proof.
  intros HL. induction t as [|(x1, y1) t IH]; intros x0 y0 u v S Sl H.
  - cbn. rewrite Rminus_diag_eq by reflexivity. rewrite Rabs_R0. apply Rmult_le_pos; lra.
  - destruct S as (S1 & S2). destruct Sl as (L1 & L2).
    change (interp_from ((x0, y0) :: (x1, y1) :: t) u) with (if Rltb u x1 then (y1 - y0) / (x1 - x0) * (u - x0) + y0 else interp_from ((x1, y1) :: t) u).
    change (interp_from ((x0, y0) :: (x1, y1) :: t) v) with (if Rltb v x1 then (y1 - y0) / (x1 - x0) * (v - x0) + y0 else interp_from ((x1, y1) :: t) v).
    destruct (Rltb u x1) eqn:U, (Rltb v x1) eqn:V.
    + rewrite <- (Rabs_pos_eq (v - u)) by lra. rewrite (Rabs_minus_sym v u). now apply lin_seg.
    + apply Rltb_true in U. apply Rltb_false in V.
      assert (A : Rabs (((y1 - y0) / (x1 - x0) * (u - x0) + y0) - y1) <= L * (x1 - u)).
      { replace y1 with ((y1 - y0) / (x1 - x0) * (x1 - x0) + y0) at 2 by (field; lra). rewrite <- (Rabs_pos_eq (x1 - u)) by lra. rewrite (Rabs_minus_sym x1 u). now apply lin_seg. }
      assert (B := IH x1 y1 x1 v S2 L2 (conj (Rle_refl _) V)).
      assert (C : interp_from ((x1, y1) :: t) x1 = y1).
      { destruct (interp_head x1 y1 t) as [C|(x2 & y2 & r & -> & Q)]; [exact C|]. destruct S2. lra. }
      rewrite C in B. replace ((y1 - y0) / (x1 - x0) * (u - x0) + y0 - interp_from ((x1, y1) :: t) v) with ((((y1 - y0) / (x1 - x0) * (u - x0) + y0) - y1) + (y1 - interp_from ((x1, y1) :: t) v)) by ring.
      eapply Rle_trans; [apply Rabs_triang|].
      replace (L * (v - u)) with (L * (x1 - u) + L * (v - x1)) by ring. lra.
    + apply Rltb_false in U. apply Rltb_true in V. lra.
    + apply Rltb_false in U. apply IH; [assumption|assumption|lra].
Qed.

(** a table of values of a function, with close speeds, stays close to it *)
Fixpoint gaps (h : R) (t : table) : Prop :=
  match t with (x0, _) :: (((x1, _) :: _) as t') => x1 - x0 <= h /\ gaps h t' | _ => True end.
Lemma interp_close f K h lo hi : 0 <= K -> 0 <= h -> (forall u v, lo <= u <= hi -> lo <= v <= hi -> Rabs (f u - f v) <= K * Rabs (u - v)) ->
  forall t x0 y0 u, sorted ((x0, y0) :: t) -> gaps h ((x0, y0) :: t) -> (forall x y, In (x, y) ((x0, y0) :: t) -> y = f x /\ lo <= x <= hi) ->
  x0 <= u <= fst (last ((x0, y0) :: t) (0, 0)) -> Rabs (interp_from ((x0, y0) :: t) u - f u) <= K * h.
Proof.
  intros HK Hh Lip. induction t as [|(x1, y1) t IH]; intros x0 y0 u S G F U.
  - cbn [last fst] in U. cbn [interp_from]. destruct (F x0 y0 (or_introl eq_refl)) as (-> & _). replace u with x0 by lra.
    rewrite Rminus_diag_eq by reflexivity. rewrite Rabs_R0. now apply Rmult_le_pos.
  - destruct S as (S1 & S2). destruct G as (G1 & G2).
    change (interp_from ((x0, y0) :: (x1, y1) :: t) u) with (if Rltb u x1 then (y1 - y0) / (x1 - x0) * (u - x0) + y0 else interp_from ((x1, y1) :: t) u).
    destruct (Rltb u x1) eqn:E.
    + apply Rltb_true in E. destruct (F x0 y0 (or_introl eq_refl)) as (-> & B0). destruct (F x1 y1 (or_intror (or_introl eq_refl))) as (-> & B1).
      set (w := (u - x0) / (x1 - x0)). assert (W : 0 <= w <= 1).
      { unfold w. split; [apply Rmult_le_pos; [lra|left; apply Rinv_0_lt_compat; lra]|]. apply Rmult_le_reg_r with (x1 - x0); [lra|]. unfold Rdiv. rewrite Rmult_assoc, Rinv_l by lra. lra. }
      replace ((f x1 - f x0) / (x1 - x0) * (u - x0) + f x0 - f u) with ((1 - w) * (f x0 - f u) + w * (f x1 - f u)) by (unfold w; field; lra).
      eapply Rle_trans; [apply Rabs_triang|]. rewrite !Rabs_mult, (Rabs_pos_eq (1 - w)), (Rabs_pos_eq w) by lra.
      assert (A0 : Rabs (f x0 - f u) <= K * h).
      { eapply Rle_trans; [apply Lip; lra|]. apply Rmult_le_compat_l; [assumption|]. rewrite Rabs_minus_sym, Rabs_pos_eq by lra. lra. }
      assert (A1 : Rabs (f x1 - f u) <= K * h).
      { eapply Rle_trans; [apply Lip; lra|]. apply Rmult_le_compat_l; [assumption|]. rewrite Rabs_pos_eq by lra. lra. }
      assert (M0 : (1 - w) * Rabs (f x0 - f u) <= (1 - w) * (K * h)) by (apply Rmult_le_compat_l; lra).
      assert (M1 : w * Rabs (f x1 - f u) <= w * (K * h)) by (apply Rmult_le_compat_l; lra). lra.
    + apply Rltb_false in E. apply IH; [assumption|assumption|intros x y I; apply F; now right|]. split; [assumption|apply U].
Qed.

(** minimum and maximum of a sorted table *)
Lemma fold_min_sorted : forall t x0 y0, sorted ((x0, y0) :: t) -> fold_left Rmin (map fst t) x0 = x0.
Proof.
  assert (G : forall (t : table) a, (forall x y, In (x, y) t -> a < x) -> fold_left Rmin (map (@fst R R) t) a = a).
  { induction t as [|(x, y) t IH]; intros a H; [reflexivity|]. cbn [map fold_left fst]. assert (a < x) by (apply (H x y); now left). rewrite Rmin_left by lra.
    apply IH. intros x' y' I. apply (H x' y'). now right. }
  intros t x0 y0 S. apply G. intros x y I. now apply (sorted_le t x0 y0 S x y).
Qed.
Lemma fold_max_sorted : forall t x0 y0, sorted ((x0, y0) :: t) -> fold_left Rmax (map fst t) x0 = fst (last ((x0, y0) :: t) (0, 0)).
Proof.
  induction t as [|(x1, y1) t IH]; intros x0 y0 S; [reflexivity|]. destruct S as (S1 & S2). cbn [map fold_left fst]. rewrite Rmax_right by lra.
  rewrite (IH x1 y1 S2). reflexivity.
Qed.
Lemma sorted_range t x0 y0 : sorted ((x0, y0) :: t) -> x0 <= fst (last ((x0, y0) :: t) (0, 0)).
Proof. intros S. apply (sorted_last _ (0, 0) S x0 y0). now left. Qed.
Lemma n_rows_eq t : ws_min t <= ws_max t -> INR (n_rows t) <= (ws_max t - ws_min t) / 0.0001 < INR (n_rows t) + 1.
Proof.
  intros H. unfold n_rows. set (q := (ws_max t - ws_min t) / 0.0001). assert (Q : 0 <= q) by (apply Rmult_le_pos; [lra|left; apply Rinv_0_lt_compat; lra]).
  destruct (rfloor_spec q) as (A & B). assert (Z : (0 <= rfloor q)%Z).
  { assert (G : (-1 < rfloor q)%Z) by (apply lt_IZR; lra). lia. }
  rewrite INR_IZR_INZ, Z2Nat.id by assumption. split; assumption.
Qed.
Definition step (t : table) : R := (ws_max t - ws_min t) / INR (n_rows t - 1).
Lemma step_bounds t : ws_min t <= ws_max t -> (2 <= n_rows t)%nat -> 0 < step t <= 0.0003 /\ speed t (n_rows t - 1) = ws_max t.
Proof.
  intros H N. destruct (n_rows_eq t H) as (A & B). unfold step, speed.
  assert (P : 0 < INR (n_rows t - 1)) by (apply lt_0_INR; lia).
  assert (E : INR (n_rows t) = INR (n_rows t - 1) + 1) by (replace (n_rows t) with (S (n_rows t - 1)) at 1 by lia; apply S_INR).
  assert (P1 : 1 <= INR (n_rows t - 1)) by (apply (le_INR 1); lia).
  assert (B' : ws_max t - ws_min t < 0.0001 * (INR (n_rows t) + 1)).
  { apply Rmult_lt_reg_r with (/ 0.0001); [apply Rinv_0_lt_compat; lra|]. replace (0.0001 * (INR (n_rows t) + 1) * / 0.0001) with (INR (n_rows t) + 1); [exact B|]. rewrite (Rmult_comm 0.0001), Rmult_assoc, Rinv_r by lra. ring. }
  assert (A' : 0.0001 * INR (n_rows t) <= ws_max t - ws_min t).
  { apply Rmult_le_reg_r with (/ 0.0001); [apply Rinv_0_lt_compat; lra|]. replace (0.0001 * INR (n_rows t) * / 0.0001) with (INR (n_rows t)); [exact A|]. rewrite (Rmult_comm 0.0001), Rmult_assoc, Rinv_r by lra. ring. }
  split; [split|].
  - apply Rmult_lt_0_compat; [lra|now apply Rinv_0_lt_compat].
  - apply Rmult_le_reg_r with (INR (n_rows t - 1)); [assumption|]. unfold Rdiv. rewrite Rmult_assoc, Rinv_l by lra. lra.
  - field. lra.
Qed.
Lemma speed_range t j : ws_min t <= ws_max t -> (j < n_rows t)%nat -> ws_min t <= speed t j <= ws_max t.
Proof.
  intros H N. destruct (Nat.eq_dec (n_rows t) 1) as [E|E].
  - unfold speed. rewrite E. assert (j = 0%nat) by lia. subst j. cbn [INR]. rewrite Rmult_0_l. lra.
  - destruct (step_bounds t H) as ((S1 & S2) & L); [lia|]. rewrite <- L. unfold speed. fold (step t).
    assert (J : INR j <= INR (n_rows t - 1)) by (apply le_INR; lia). assert (J0 := pos_INR j).
    assert (0 <= INR j * step t) by (apply Rmult_le_pos; lra). assert (INR j * step t <= INR (n_rows t - 1) * step t) by (apply Rmult_le_compat_r; lra). lra.
Qed.
Lemma interp_inside x0 y0 t u : x0 <= u <= fst (last ((x0, y0) :: t) (0, 0)) -> interp ((x0, y0) :: t) u = Ok (interp_from ((x0, y0) :: t) u).
Proof. intros H. unfold interp. rewrite (proj2 (Rltb_false _ _)) by lra. rewrite (proj2 (Rltb_false _ _)) by lra. reflexivity. Qed.

(** the power table *)
Definition exact_power (rho D unit : R) (t : table) (u : R) : R := power_at rho D unit (interp_from t u) u.
Lemma rows_ok rho D unit x0 y0 t : sorted ((x0, y0) :: t) -> let T := (x0, y0) :: t in forall js, (forall j, In j js -> (j < n_rows T)%nat) ->
  power_rows rho D unit T js = Ok (map (fun j => (speed T j, exact_power rho D unit T (speed T j))) js).
Proof.
  intros S T. assert (M : ws_min T = x0) by (apply (fold_min_sorted t x0 y0 S)). assert (X : ws_max T = fst (last T (0, 0))) by (apply (fold_max_sorted t x0 y0 S)).
  assert (R0 : ws_min T <= ws_max T) by (rewrite M, X; now apply sorted_range).
  induction js as [|j js IH]; intros H; [reflexivity|]. cbn [power_rows map]. unfold cp_at.
  assert (J := speed_range T j R0 (H j (or_introl eq_refl))). unfold T at 1. rewrite (interp_inside x0 y0 t) by (rewrite M, X in J; exact J). cbn [bind].
  rewrite IH by (intros i I; apply H; now right). reflexivity.
Qed.
Lemma rows_sorted rho D unit T : ws_min T <= ws_max T -> (2 <= n_rows T)%nat -> forall n a, (a + n <= n_rows T)%nat ->
  let l := map (fun j => (speed T j, exact_power rho D unit T (speed T j))) (seq a n) in sorted l /\ gaps 0.0003 l.
Proof.
  intros H N. destruct (step_bounds T H N) as ((S1 & S2) & _).
  assert (D1 : forall j, speed T (S j) - speed T j = step T) by (intros j; unfold speed; fold (step T); rewrite S_INR; ring).
  induction n as [|n IH]; intros a L; [split; exact I|]. cbn [seq map].
  destruct n as [|n]; [split; exact I|]. cbn zeta in *. cbn [seq map]. destruct (IH (S a) ltac:(lia)) as (A & B). cbn [seq map] in A, B.
  specialize (D1 a). split; (split; [lra|assumption]).
Qed.
Lemma last_map_seq {A} (f : nat -> A) n d : (0 < n)%nat -> last (map f (seq 0 n)) d = f (n - 1)%nat.
Proof. intros H. destruct n; [lia|]. rewrite seq_S, map_app. cbn [map]. rewrite last_last. f_equal. lia. Qed.
Lemma power_lip k C L t x0 y0 : 0 <= k -> 0 <= C -> 0 <= L -> 0 <= x0 -> let T := (x0, y0) :: t in sorted T -> slopes L T -> values_in 0 C T ->
  let b := fst (last T (0, 0)) in
  forall u v, x0 <= u <= b -> x0 <= v <= b ->
  Rabs (k * interp_from T u * u ^ 3 - k * interp_from T v * v ^ 3) <= k * (L * b ^ 3 + 3 * C * b ^ 2) * Rabs (u - v).
Proof.
  intros Hk HC HL H0 T S Sl V b.
  assert (Main : forall u v, x0 <= u <= v -> v <= b -> Rabs (k * interp_from T u * u ^ 3 - k * interp_from T v * v ^ 3) <= k * (L * b ^ 3 + 3 * C * b ^ 2) * (v - u)).
  { intros u v Hu Hv. set (cu := interp_from T u). set (cv := interp_from T v).
    assert (LI : Rabs (cu - cv) <= L * (v - u)) by (apply (interp_lip L HL t x0 y0 u v S Sl); lra).
    assert (Bc : 0 <= cv <= C) by (apply interp_from_bounds; [discriminate|assumption|assumption|cbn; lra]).
    replace (k * cu * u ^ 3 - k * cv * v ^ 3) with (k * ((cu - cv) * u ^ 3 + cv * (u ^ 3 - v ^ 3))) by ring.
    rewrite Rabs_mult, (Rabs_pos_eq k) by assumption. rewrite Rmult_assoc. apply Rmult_le_compat_l; [assumption|].
    eapply Rle_trans; [apply Rabs_triang|]. rewrite !Rabs_mult.
    assert (U3 : 0 <= u ^ 3 <= b ^ 3) by (split; [apply pow_le; lra|apply pow_incr; lra]).
    rewrite (Rabs_pos_eq (u ^ 3)) by lra. rewrite (Rabs_pos_eq cv) by lra.
    assert (D3 : Rabs (u ^ 3 - v ^ 3) <= 3 * b ^ 2 * (v - u)).
    { replace (u ^ 3 - v ^ 3) with (- ((v - u) * (v ^ 2 + v * u + u ^ 2))) by ring. rewrite Rabs_Ropp, Rabs_mult, (Rabs_pos_eq (v - u)) by lra.
      assert (A1 : v ^ 2 <= b ^ 2) by (apply pow_incr; lra). assert (A2 : u ^ 2 <= b ^ 2) by (apply pow_incr; lra).
      assert (A3 : v * u <= b ^ 2) by (cbn; rewrite Rmult_1_r; apply Rmult_le_compat; lra).
      assert (A4 : 0 <= v ^ 2 + v * u + u ^ 2) by (assert (0 <= v * u) by (apply Rmult_le_pos; lra); assert (0 <= v ^ 2) by (apply pow_le; lra); assert (0 <= u ^ 2) by (apply pow_le; lra); lra).
      rewrite (Rabs_pos_eq _ A4), (Rmult_comm (3 * b ^ 2)). apply Rmult_le_compat_l; lra. }
    assert (T1 : Rabs (cu - cv) * u ^ 3 <= L * (v - u) * b ^ 3) by (apply Rmult_le_compat; [apply Rabs_pos|lra|assumption|lra]).
    assert (T2 : cv * Rabs (u ^ 3 - v ^ 3) <= C * (3 * b ^ 2 * (v - u))) by (apply Rmult_le_compat; [lra|apply Rabs_pos|lra|assumption]).
    lra. }
  intros u v Hu Hv. destruct (Rle_dec u v).
  - rewrite (Rabs_minus_sym u v), (Rabs_pos_eq (v - u)) by lra. apply Main; lra.
  - rewrite (Rabs_minus_sym (k * _ * _)), (Rabs_pos_eq (u - v)) by lra. apply Main; lra.
Qed.
