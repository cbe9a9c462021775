(** Proofs for Centreline_Model. *)
From Coquelicot Require Import Coquelicot.
From Verif Require Import RBase Induction_Model Induction_Spec Induction_Proofs TiWake_Proofs Centreline_Model Centreline_Spec.
Local Open Scope R_scope.

Lemma fold_max_ge l : forall a, a <= fold_left Rmax l a /\ (forall x, In x l -> x <= fold_left Rmax l a).
Proof.
  induction l as [|y l IH]; intros a; cbn [fold_left]; [split; [lra|intros x []]|]. destruct (IH (Rmax a y)) as [A B].
  pose proof (Rmax_l a y). pose proof (Rmax_r a y). split; [lra|]. intros x [<-|H1]; [lra|now apply B].
Qed.
Lemma list_max_ge x0 xl x : In x (x0 :: xl) -> x <= list_max x0 xl.
Proof. intros H. destruct (fold_max_ge xl x0) as [A B]. unfold list_max. destruct H as [<-|H]; [exact A|now apply B]. Qed.
Lemma floor_nat y : 0 <= y -> INR (Z.to_nat (rfloor y)) <= y < INR (Z.to_nat (rfloor y)) + 1.
Proof.
  intros H. pose proof (rfloor_spec y) as [A B]. assert (0 <= rfloor y)%Z. { apply Z.lt_succ_r. apply lt_IZR. rewrite succ_IZR. lra. }
  rewrite INR_IZR_INZ, Z2Nat.id by assumption. lra.
Qed.
Lemma floor_nat_unique y n : INR n <= y < INR n + 1 -> Z.to_nat (rfloor y) = n.
Proof. intros H. rewrite INR_IZR_INZ in H. rewrite (rfloor_unique y (Z.of_nat n) H). apply Nat2Z.id. Qed.
Lemma n_steps_cover max_len dx x0 xl : 0 < dx -> 0 <= Rmin (list_max x0 xl) max_len ->
  let n := n_steps max_len dx x0 xl in Rmin (list_max x0 xl) max_len <= INR n * dx /\ INR n * dx < Rmin (list_max x0 xl) max_len + dx.
Proof.
  intros Hd H. cbn zeta. unfold n_steps. cbn zeta. set (m := Rmin _ _) in *.
  pose proof (floor_nat (m / dx) ltac:(apply Rmult_le_pos; [exact H|left; now apply Rinv_0_lt_compat])) as [A B]. set (k := Z.to_nat _) in *.
  assert (M : m / dx * dx = m) by (field; lra). assert (A' : INR k * dx <= m) by (rewrite <- M; apply Rmult_le_compat_r; lra).
  assert (B' : m < (INR k + 1) * dx) by (rewrite <- M at 1; apply Rmult_lt_compat_r; lra).
  destruct (Rltb (0 + INR k * dx) m) eqn:E.
  - apply Rltb_true in E. rewrite S_INR. lra.
  - apply Rltb_false in E. lra.
Qed.
Lemma cum_sum f dx i : cum f dx i = rsum (map (fun j => f (INR (S j) * dx) * dx) (seq 0 i)).
Proof. induction i as [|i IH]; [reflexivity|]. rewrite seq_S, map_app, rsum_app, <- IH. cbn [cum map rsum Nat.add]. lra. Qed.
Lemma interp_in f dx n x : 0 < dx -> 0 <= x <= INR n * dx ->
  interp_fill dx n (cum f dx) x = let i := Z.to_nat (rfloor (x / dx)) in cum f dx i + (x - INR i * dx) * f (INR (S i) * dx).
Proof.
  intros Hd Hx. unfold interp_fill. rewrite (proj2 (Rleb_true _ _) (proj1 Hx)), (proj2 (Rleb_true _ _) (proj2 Hx)). cbn [andb]. cbn zeta.
  pose proof (floor_nat (x / dx) ltac:(apply Rmult_le_pos; [lra|left; now apply Rinv_0_lt_compat])) as [A B]. set (i := Z.to_nat (rfloor (x / dx))) in *.
  assert (M : x / dx * dx = x) by (field; lra). assert (A' : INR i * dx <= x) by (rewrite <- M; apply Rmult_le_compat_r; lra).
  assert (I : (i <= n)%nat). { apply INR_le. apply (Rmult_le_reg_r dx); lra. }
  destruct (Nat.eq_dec i n) as [E|E].
  - assert (X : x = INR n * dx) by (rewrite E in A'; lra). destruct n as [|k].
    + rewrite E. cbn [Nat.min Nat.sub]. cbn [INR] in X |- *. rewrite X. cbn [cum]. cbn [INR]. field. lra.
    + replace (Nat.min i (S k - 1)) with k by lia. rewrite E. rewrite X. cbn [cum]. rewrite S_INR. set (g := f _). set (g' := f _). field. lra.
  - replace (Nat.min i (n - 1)) with i by lia. cbn [cum]. set (g := f _). field. lra.
Qed.
Lemma interp_out dx n g x : x < 0 \/ INR n * dx < x -> interp_fill dx n g x = 0.
Proof. intros [H|H]; apply Rleb_false in H; unfold interp_fill; rewrite H, ?andb_false_r; reflexivity. Qed.
Lemma target_value f max_len dx x0 xl p d : 0 < dx -> (p < length (x0 :: xl))%nat -> 0 <= nth p (x0 :: xl) d <= max_len ->
  nth p (centreline_integral f max_len dx x0 xl) 0 = riemann f dx (nth p (x0 :: xl) d).
Proof.
  intros Hd Hp Hx. unfold centreline_integral. rewrite (nth_indep _ 0 (interp_fill dx (n_steps max_len dx x0 xl) (cum f dx) d)) by (now rewrite map_length).
  rewrite map_nth. set (x := nth p (x0 :: xl) d) in *. assert (IX : In x (x0 :: xl)) by now apply nth_In. pose proof (list_max_ge x0 xl x IX) as L.
  assert (XM : x <= Rmin (list_max x0 xl) max_len) by (apply Rmin_glb; lra).
  destruct (n_steps_cover max_len dx x0 xl Hd ltac:(lra)) as [C _]. rewrite interp_in by lra. cbn zeta. unfold riemann. cbn zeta. now rewrite cum_sum.
Qed.
Lemma target_beyond f max_len dx x0 xl p d : 0 < dx -> 0 <= max_len -> (p < length (x0 :: xl))%nat -> max_len + dx <= nth p (x0 :: xl) d ->
  nth p (centreline_integral f max_len dx x0 xl) 0 = 0.
Proof.
  intros Hd Hm Hp Hx. unfold centreline_integral. rewrite (nth_indep _ 0 (interp_fill dx (n_steps max_len dx x0 xl) (cum f dx) d)) by (now rewrite map_length).
  rewrite map_nth. set (x := nth p (x0 :: xl) d) in *. assert (IX : In x (x0 :: xl)) by now apply nth_In. pose proof (list_max_ge x0 xl x IX) as L.
  assert (XM : Rmin (list_max x0 xl) max_len = max_len) by (apply Rmin_right; lra).
  destruct (n_steps_cover max_len dx x0 xl Hd ltac:(lra)) as [_ C]. apply interp_out. right. lra.
Qed.
Lemma riemann_const c dx x : 0 < dx -> riemann (fun _ => c) dx x = c * x.
Proof.
  intros Hd. unfold riemann. cbn zeta. set (i := Z.to_nat _). rewrite rsum_const. rewrite seq_length. ring.
Qed.
Lemma riemann_le f g dx x : 0 < dx -> 0 <= x -> (forall y, 0 < y -> f y <= g y) -> riemann f dx x <= riemann g dx x.
Proof.
  intros Hd Hx H. unfold riemann. cbn zeta.
  pose proof (floor_nat (x / dx) ltac:(apply Rmult_le_pos; [exact Hx|left; now apply Rinv_0_lt_compat])) as [A B]. set (i := Z.to_nat _) in *.
  assert (M : x / dx * dx = x) by (field; lra). assert (A' : INR i * dx <= x) by (rewrite <- M; apply Rmult_le_compat_r; lra).
  assert (P : forall j, 0 < INR (S j) * dx) by (intros; apply Rmult_lt_0_compat; [apply lt_0_INR; lia|exact Hd]).
  apply Rplus_le_compat.
  - apply rsum_le. intros j _. apply Rmult_le_compat_r; [lra|]. now apply H.
  - apply Rmult_le_compat_l; [lra|]. now apply H.
Qed.
Lemma riemann_linear f g a b dx x : riemann (fun y => a * f y + b * g y) dx x = a * riemann f dx x + b * riemann g dx x.
Proof.
  unfold riemann. cbn zeta. set (i := Z.to_nat _). rewrite (rsum_ext _ (fun j => a * (f (INR (S j) * dx) * dx) + b * (g (INR (S j) * dx) * dx))) by (intros; ring).
  rewrite rsum_map_plus, !rsum_map_scale. ring.
Qed.
Lemma riemann_mono_x f dx x x' : 0 < dx -> 0 <= x <= x' -> (forall y, 0 < y -> 0 <= f y) -> riemann f dx x <= riemann f dx x'.
Proof.
  intros Hd Hx H. unfold riemann. cbn zeta. rewrite <- !cum_sum.
  pose proof (floor_nat (x / dx) ltac:(apply Rmult_le_pos; [lra|left; now apply Rinv_0_lt_compat])) as [A B].
  pose proof (floor_nat (x' / dx) ltac:(apply Rmult_le_pos; [lra|left; now apply Rinv_0_lt_compat])) as [A' B'].
  set (i := Z.to_nat (rfloor (x / dx))) in *. set (i' := Z.to_nat (rfloor (x' / dx))) in *.
  assert (M : x / dx * dx = x) by (field; lra). assert (M' : x' / dx * dx = x') by (field; lra).
  assert (U : INR i * dx <= x < (INR i + 1) * dx) by (split; rewrite <- M at 1; [apply Rmult_le_compat_r|apply Rmult_lt_compat_r]; lra || (rewrite <- M; apply Rmult_le_compat_r; lra)).
  assert (U' : INR i' * dx <= x') by (rewrite <- M'; apply Rmult_le_compat_r; lra).
  assert (P : forall j, 0 <= f (INR (S j) * dx)) by (intros; apply H; apply Rmult_lt_0_compat; [apply lt_0_INR; lia|exact Hd]).
  assert (CM : forall n m, (n <= m)%nat -> cum f dx n <= cum f dx m).
  { intros n m L. induction L as [|m L IH]; [lra|]. cbn [cum]. specialize (P m). assert (0 <= f (INR (S m) * dx) * dx) by (apply Rmult_le_pos; lra). lra. }
  assert (I : (i <= i')%nat).
  { assert (L : x / dx <= x' / dx) by (apply Rmult_le_compat_r; [left; now apply Rinv_0_lt_compat|lra]). assert (INR i < INR i' + 1) by lra. rewrite <- S_INR in H0. apply INR_lt in H0. lia. }
  destruct (Nat.eq_dec i i') as [E|E].
  - rewrite <- E. specialize (P i). nra.
  - assert (C : cum f dx (S i) <= cum f dx i') by (apply CM; lia). cbn [cum] in C. pose proof (P i) as Pi. pose proof (P i') as Pi'.
    assert ((x - INR i * dx) * f (INR (S i) * dx) <= f (INR (S i) * dx) * dx) by nra. assert (0 <= (x' - INR i' * dx) * f (INR (S i') * dx)) by (apply Rmult_le_pos; lra). lra.
Qed.

(* ---- distance to the true integral ---- *)
Lemma lip_cont f L x : 0 <= L -> (forall y z, Rabs (f y - f z) <= L * Rabs (y - z)) -> continuous f x.
Proof.
  intros HL H. apply continuity_pt_filterlim. intros eps He. exists (eps / (L + 1)). split; [apply Rdiv_lt_0_compat; lra|].
  intros y [_ Hy]. cbn in Hy |- *. unfold R_dist in *. eapply Rle_lt_trans; [apply H|].
  apply Rle_lt_trans with ((L + 1) * Rabs (y - x)); [pose proof (Rabs_pos (y - x)); nra|].
  apply (Rmult_lt_compat_l (L + 1)) in Hy; [|lra]. replace ((L + 1) * (eps / (L + 1))) with eps in Hy by (field; lra). exact Hy.
Qed.
Lemma cell_err f L a b c : 0 <= L -> (forall y z, Rabs (f y - f z) <= L * Rabs (y - z)) -> a <= b -> b <= c ->
  Rabs ((b - a) * f c - RInt f a b) <= L * (c - a) * (b - a).
Proof.
  intros HL H Hab Hbc. assert (EI : ex_RInt f a b) by (apply (ex_RInt_continuous (V := R_CompleteNormedModule)); intros; apply (lip_cont f L); assumption).
  replace ((b - a) * f c - RInt f a b) with (RInt (fun y => f c - f y) a b).
  - rewrite Rmult_comm. apply abs_RInt_le_const; [exact Hab| |].
    + apply (ex_RInt_minus (V := R_CompleteNormedModule)); [apply ex_RInt_const|exact EI].
    + intros t Ht. eapply Rle_trans; [apply H|]. apply Rmult_le_compat_l; [exact HL|]. rewrite Rabs_right; lra.
  - rewrite (RInt_minus (V := R_CompleteNormedModule)); [|apply ex_RInt_const|exact EI]. rewrite RInt_const. reflexivity.
Qed.
Lemma cum_err f L dx n : 0 <= L -> (forall y z, Rabs (f y - f z) <= L * Rabs (y - z)) -> 0 < dx ->
  Rabs (cum f dx n - RInt f 0 (INR n * dx)) <= L * dx * (INR n * dx).
Proof.
  intros HL H Hd. assert (EI : forall a b, ex_RInt f a b) by (intros; apply (ex_RInt_continuous (V := R_CompleteNormedModule)); intros; apply (lip_cont f L); assumption).
  induction n as [|n IH].
  - cbn [cum INR]. rewrite Rmult_0_l, RInt_point. unfold zero; cbn. rewrite Rminus_0_r, Rabs_R0. lra.
  - rewrite <- (RInt_Chasles f 0 (INR n * dx) (INR (S n) * dx)) by apply EI. unfold plus; cbn -[INR].
    pose proof (cell_err f L (INR n * dx) (INR (S n) * dx) (INR (S n) * dx) HL H ltac:(rewrite S_INR; lra) ltac:(lra)) as C.
    replace (INR (S n) * dx - INR n * dx) with dx in C by (rewrite S_INR; ring). change (cum f dx (S n)) with (cum f dx n + f (INR (S n) * dx) * dx).
    rewrite (Rmult_comm (f (INR (S n) * dx)) dx).
    match goal with |- Rabs (?a + ?b - (?c + ?d)) <= _ => replace (a + b - (c + d)) with ((a - c) + (b - d)) by ring end.
    eapply Rle_trans; [apply Rabs_triang|]. replace (L * dx * (INR (S n) * dx)) with (L * dx * (INR n * dx) + L * dx * dx) by (rewrite S_INR; ring).
    apply Rplus_le_compat; assumption.
Qed.
Lemma riemann_err_full f L dx x : 0 <= L -> (forall y z, Rabs (f y - f z) <= L * Rabs (y - z)) -> 0 < dx -> 0 <= x ->
  Rabs (riemann f dx x - RInt f 0 x) <= L * dx * x.
Proof.
  intros HL H Hd Hx. assert (EI : forall a b, ex_RInt f a b) by (intros; apply (ex_RInt_continuous (V := R_CompleteNormedModule)); intros; apply (lip_cont f L); assumption).
  unfold riemann. cbn zeta. rewrite <- cum_sum.
  pose proof (floor_nat (x / dx) ltac:(apply Rmult_le_pos; [exact Hx|left; now apply Rinv_0_lt_compat])) as [A B]. set (i := Z.to_nat _) in *.
  assert (M : x / dx * dx = x) by (field; lra). assert (A' : INR i * dx <= x) by (rewrite <- M; apply Rmult_le_compat_r; lra).
  assert (B' : x < (INR i + 1) * dx) by (rewrite <- M at 1; apply Rmult_lt_compat_r; lra).
  rewrite <- (RInt_Chasles f 0 (INR i * dx) x) by apply EI. unfold plus; cbn -[INR].
  pose proof (cum_err f L dx i HL H Hd) as C1. pose proof (cell_err f L (INR i * dx) x (INR (S i) * dx) HL H A' ltac:(rewrite S_INR; lra)) as C2.
  replace (INR (S i) * dx - INR i * dx) with dx in C2 by (rewrite S_INR; ring).
  match goal with |- Rabs (?a + ?b - (?c + ?d)) <= _ => replace (a + b - (c + d)) with ((a - c) + (b - d)) by ring end.
  eapply Rle_trans; [apply Rabs_triang|]. replace (L * dx * x) with (L * dx * (INR i * dx) + L * dx * (x - INR i * dx)) by ring.
  apply Rplus_le_compat; assumption.
Qed.
(** only arguments >= 0 matter: extend [f] by reflection *)
Lemma riemann_err f L dx x : 0 <= L -> lipschitz f L -> 0 < dx -> 0 <= x -> Rabs (riemann f dx x - RInt f 0 x) <= L * dx * x.
Proof.
  intros HL H Hd Hx. set (g := fun y => f (Rabs y)).
  assert (G : forall y z, Rabs (g y - g z) <= L * Rabs (y - z)).
  { intros y z. eapply Rle_trans; [apply H; apply Rabs_pos|]. apply Rmult_le_compat_l; [exact HL|]. apply Rabs_triang_inv2. }
  assert (E1 : riemann f dx x = riemann g dx x).
  { unfold riemann. cbn zeta. assert (P : forall j, f (INR (S j) * dx) = g (INR (S j) * dx)).
    { intros j. unfold g. f_equal. symmetry. apply Rabs_right. apply Rle_ge, Rmult_le_pos; [apply pos_INR|lra]. }
    rewrite P. f_equal. apply rsum_ext. intros j _. now rewrite P. }
  assert (E2 : RInt f 0 x = RInt g 0 x).
  { apply RInt_ext. intros y Hy. rewrite Rmin_left in Hy by lra. unfold g. f_equal. symmetry. apply Rabs_right. lra. }
  rewrite E1, E2. now apply riemann_err_full.
Qed.
Lemma ix_beyond ct2a sbeta D k ct : turbo_ix_sigma ct2a sbeta D k ct 0 = D * (sbeta * sqrt ((1 - ct2a ct) / (1 - 2 * ct2a ct))).
Proof. unfold turbo_ix_sigma. cbn zeta. ring. Qed.
