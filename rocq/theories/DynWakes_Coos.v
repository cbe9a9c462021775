(** Proofs about the coordinates in dynamic wakes. *)
From Verif Require Import RBase WindDir_Model WindDir_Proofs DynWakes_Model DynWakes_Spec DynWakes_Proofs DynWakes_Settle.
Local Open Scope R_scope.
Local Open Scope nat_scope.

(** *** the nearest wake point *)
Definition cdist (pt : vec3) (x : nat * nat * vec3 * R) : R := let '(_, _, p, _) := x in dist2 pt p.
Lemma nearest_min pt : forall l b, In (nearest pt b l) (b :: l) /\ forall x, In x (b :: l) -> (cdist pt (nearest pt b l) <= cdist pt x)%R.
Proof.
  induction l as [|x l IH]; intros b; cbn [nearest].
  - split; [now left|]. intros x [<-|[]]. lra.
  - destruct b as [[[sb ab] pb] lb]. destruct x as [[[sx ax] px] lx]. destruct (Rltb (dist2 pt px) (dist2 pt pb)) eqn:E.
    + apply Rltb_true in E. destruct (IH (sx, ax, px, lx)) as (H1 & H2). split; [now right|].
      intros y [<-|Hy]; [|now apply H2]. specialize (H2 (sx, ax, px, lx) ltac:(now left)). cbn [cdist] in *. lra.
    + apply Rltb_false in E. destruct (IH (sb, ab, pb, lb)) as (H1 & H2). split; [destruct H1; [now left|right; now right]|].
      intros y [<-|[<-|Hy]]; [apply H2; now left| |apply H2; now right].
      specialize (H2 (sb, ab, pb, lb) ltac:(now left)). cbn [cdist] in *. lra.
Qed.
Lemma candidates_in M w len w0 g s a p l : In (s, a, p, l) (candidates M w len w0 g) <->
  a < M /\ w0 + a <= g /\ s = g - a - w0 /\ s < len /\ w s a = Some (p, l).
Proof.
  unfold candidates. rewrite in_flat_map. split.
  - intros (b & Hb & H). apply in_seq in Hb. destruct (Nat.leb_spec (w0 + b) g); [|destruct H]. destruct (Nat.ltb_spec (g - b - w0) len); [|destruct H].
    cbn [andb] in H. destruct (w (g - b - w0) b) as [[q k]|] eqn:E; [|destruct H]. destruct H as [H|[]]. injection H as <- <- <- <-. repeat split; auto; lia.
  - intros (H1 & H2 & -> & H4 & H5). exists a. split; [apply in_seq; lia|]. destruct (Nat.leb_spec (w0 + a) g); [|lia].
    destruct (Nat.ltb_spec (g - a - w0) len); [|lia]. cbn [andb]. rewrite H5. now left.
Qed.

(** *** steady wind *)
Section Steady.
Local Open Scope R_scope.
Variable wd ws T : R.
Variable r : vec3.
Let n0 := fst (wd2uv wd 1).
Let n1 := snd (wd2uv wd 1).
Let D := ws * T.
Notation traj := (traj (fun _ => T) (fun _ _ => (wd, ws)) (fun _ => r)).
Notation tlen := (tlen (fun _ => T) (fun _ _ => (wd, ws)) (fun _ => r)).
Lemma steady_traj st a : traj st a = (vx r + INR a * D * n0, vy r + INR a * D * n1, vz r).
Proof.
  induction a as [|a IH]; [cbn [DynWakes_Spec.traj INR]; destruct r as [[? ?] ?]; unfold vx, vy, vz; cbn [fst snd]; f_equal; f_equal; ring|].
  cbn [DynWakes_Spec.traj]. rewrite IH, S_INR. unfold vx, vy, vz. cbn [fst snd]. unfold D, n0, n1, wd2uv, wd2wdvec. cbn [fst snd].
  f_equal; f_equal; ring.
Qed.
Lemma steady_tlen st a : 0 < D -> tlen st a = INR a * D.
Proof.
  intros HD. induction a as [|a IH]; [cbn; ring|]. cbn [DynWakes_Spec.tlen]. rewrite IH, S_INR. cbn [snd]. fold D. rewrite Rabs_pos_eq by lra. ring.
Qed.

(** the steps that bring a coordinate to within half a step *)
Lemma half_step : 0 < D -> forall A x, 0 <= x <= INR A * D -> exists k, (k <= A)%nat /\ Rabs (x - INR k * D) <= D / 2.
Proof.
  intros HD. induction A as [|A IH]; intros x Hx.
  - exists 0%nat. split; auto. cbn in *. rewrite Rabs_pos_eq; lra.
  - rewrite S_INR in Hx. destruct (Rle_lt_dec x (INR A * D)) as [H|H].
    + destruct (IH x) as (k & Hk & E); [lra|]. exists k. split; [lia|auto].
    + destruct (Rle_lt_dec (x - INR A * D) (D / 2)) as [G|G].
      * exists A. split; [lia|]. rewrite Rabs_pos_eq; lra.
      * exists (S A). split; [lia|]. rewrite S_INR. rewrite Rabs_left1; lra.
Qed.

Variable M : nat.
Lemma coos_core (w : table) (len g A : nat) (pt : vec3) :
  0 < D -> (2 <= M)%nat -> (A <= g)%nat -> (A <= M - 1)%nat -> (g < len)%nat ->
  (forall s a p l, w s a = Some (p, l) -> vx p = vx r + INR a * D * n0 /\ vy p = vy r + INR a * D * n1 /\ l = INR a * D) ->
  (forall a, (a <= A)%nat -> w (g - a)%nat a <> None) ->
  (forall a, (a <= A)%nat -> (S a < M)%nat -> w (g - a)%nat (S a) <> None) ->
  (forall a, (1 <= a <= A)%nat -> w (g - a)%nat (a - 1)%nat <> None) ->
  let c := wake_coos r wd pt in
  0 <= vx c <= INR A * D ->
  let q := dyn_coos M (fun _ => r) w len 0 g pt in
  Rabs (vx q - vx c) <= / 10 ^ 14 / 2 /\ Rabs (vy q - vy c) <= Rabs (vy c) * (/ 10 ^ 14 / D) /\ vz q = vz c.
Proof.
  intros HD HM HAg HAM Hg Hs Hk Hn Hp c Hc q.
  pose proof (n_unit wd) as U. fold n0 n1 in U.
  assert (Cx : vx c = (vx pt - vx r) * n0 + (vy pt - vy r) * n1) by (unfold c, wake_coos, dot, vsub, vx, vy, vz; cbn [fst snd]; unfold n0, n1; ring).
  assert (Cy : vy c = (vx pt - vx r) * - n1 + (vy pt - vy r) * n0) by (unfold c, wake_coos, dot, vsub, vx, vy, vz; cbn [fst snd]; unfold n0, n1; ring).
  assert (Cz : vz c = vz pt - vz r) by (unfold c, wake_coos, dot, vsub, vx, vy, vz; cbn [fst snd]; ring).
  assert (Dist : forall s a p l, w s a = Some (p, l) -> dist2 pt p = sqrt (Rsqr (vx c - INR a * D) + Rsqr (vy c))).
  { intros s a p l E. destruct (Hs s a p l E) as (E1 & E2 & _). unfold dist2. f_equal. rewrite E1, E2, Cx, Cy. unfold Rsqr.
    set (X := vx pt - vx r). set (Y := vy pt - vy r). set (k := INR a * D).
    replace (vx pt - (vx r + k * n0)) with (X - k * n0) by (unfold X; ring). replace (vy pt - (vy r + k * n1)) with (Y - k * n1) by (unfold Y; ring).
    clearbody X Y k. transitivity (X * X + Y * Y - 2 * k * (X * n0 + Y * n1) + k * k * (n0 * n0 + n1 * n1)); [ring|].
    transitivity ((X * X + Y * Y) * (n0 * n0 + n1 * n1) - 2 * k * (X * n0 + Y * n1) + k * k); [rewrite U; ring|]. ring. }
  destruct (half_step HD A (vx c) Hc) as (k0 & Hk0 & Hh).
  assert (In0 : exists p l, In (g - k0, k0, p, l)%nat (candidates M w len 0 g)).
  { destruct (w (g - k0)%nat k0) as [[p l]|] eqn:E; [|now elim (Hk k0 Hk0)]. exists p, l. apply candidates_in. repeat split; auto; try lia. }
  destruct In0 as (p0 & l0 & In0).
  unfold q, dyn_coos. destruct (candidates M w len 0 g) as [|x lst] eqn:Ec; [destruct In0|].
  pose proof (nearest_min pt lst x) as (N1 & N2). destruct (nearest pt x lst) as [[[s a] p] l] eqn:En.
  rewrite <- Ec in N1, N2, In0. pose proof N1 as N1'. apply candidates_in in N1' as (A1 & A2 & A3 & A4 & A5). rewrite Nat.sub_0_r in A3. cbn [Nat.add] in A2.
  pose proof (N2 _ In0) as Nm. pose proof In0 as In0'. apply candidates_in in In0' as (_ & _ & _ & _ & B5).
  cbn [cdist] in Nm. rewrite (Dist _ _ _ _ A5), (Dist _ _ _ _ B5) in Nm.
  assert (Ha : Rabs (vx c - INR a * D) <= D / 2).
  { apply Rle_trans with (Rabs (vx c - INR k0 * D)); auto. apply sqrt_le_0 in Nm; [|pose proof (Rle_0_sqr (vx c - INR a * D)); pose proof (Rle_0_sqr (vy c)); lra|pose proof (Rle_0_sqr (vx c - INR k0 * D)); pose proof (Rle_0_sqr (vy c)); lra].
    apply Rsqr_le_abs_0. lra. }
  assert (HaA : (a <= A)%nat).
  { apply Rabs_le_between' in Ha || idtac. destruct (Nat.le_gt_cases a A) as [|G]; auto. exfalso. apply le_INR in G. rewrite S_INR in G.
    assert (INR A * D + D <= INR a * D) by nra. assert (- (D / 2) <= vx c - INR a * D).
    { pose proof Ha as Ha'. unfold Rabs in Ha'. destruct (Rcase_abs _); lra. } lra. }
  destruct (Hs s a p l A5) as (P1 & P2 & P3).
  assert (Dir : direction M w s a p = Some (D * n0, D * n1)).
  { unfold direction. subst s. destruct (Nat.ltb_spec a (M - 1)) as [G|G].
    - destruct (w (g - a)%nat (S a)) as [[q' l']|] eqn:E; [|now elim (Hn a HaA ltac:(lia))].
      destruct (Hs _ _ _ _ E) as (Q1 & Q2 & _). rewrite Q1, Q2, P1, P2, S_INR. f_equal. f_equal; ring.
    - destruct (Nat.eqb_spec a 0); [lia|]. destruct (w (g - a)%nat (a - 1)%nat) as [[q' l']|] eqn:E; [|now elim (Hp a ltac:(lia))].
      destruct (Hs _ _ _ _ E) as (Q1 & Q2 & _). rewrite Q1, Q2, P1, P2. assert (INR a = INR (a - 1) + 1) by (rewrite <- S_INR; f_equal; lia).
      rewrite H. f_equal. f_equal; ring. }
  rewrite Dir. unfold project. cbn [fst snd].
  assert (Nd : sqrt (D * n0 * (D * n0) + D * n1 * (D * n1)) = D).
  { replace (D * n0 * (D * n0) + D * n1 * (D * n1)) with (Rsqr D * (n0 * n0 + n1 * n1)) by (unfold Rsqr; ring). rewrite U, Rmult_1_r. apply sqrt_Rsqr. lra. }
  rewrite Nd. set (e := / 10 ^ 14). assert (He : 0 < e) by (apply Rinv_0_lt_compat; lra).
  set (f := D / (D + e)). assert (Hf : 0 < f < 1).
  { unfold f. split; [apply Rdiv_lt_0_compat; lra|]. apply Rmult_lt_reg_r with (D + e); [lra|]. unfold Rdiv. rewrite Rmult_assoc, Rinv_l; lra. }
  assert (Hf2 : 0 < 1 - f <= e / D).
  { split; [lra|]. replace (1 - f) with (e / (D + e)) by (unfold f; field; lra). unfold Rdiv. apply Rmult_le_compat_l; [lra|]. apply Rinv_le_contravar; lra. }
  assert (Px : (vx pt - vx p) * (D * n0 / (D + e)) + (vy pt - vy p) * (D * n1 / (D + e)) = (vx c - INR a * D) * f).
  { rewrite P1, P2, Cx. unfold f. apply Rmult_eq_reg_r with (D + e); [|lra].
    transitivity (D * ((vx pt - (vx r + INR a * D * n0)) * n0 + (vy pt - (vy r + INR a * D * n1)) * n1)); [field; lra|].
    transitivity (D * ((vx pt - vx r) * n0 + (vy pt - vy r) * n1 - INR a * D * (n0 * n0 + n1 * n1))); [ring|]. rewrite U. field. lra. }
  assert (Py : (vx pt - vx p) * - (D * n1 / (D + e)) + (vy pt - vy p) * (D * n0 / (D + e)) = vy c * f).
  { rewrite P1, P2, Cy. unfold f. field. lra. }
  rewrite Px, Py. set (u := vx c - INR a * D) in *.
  assert (Hu : - (D / 2) <= u <= D / 2) by (unfold Rabs in Ha; destruct (Rcase_abs u); lra).
  assert (Hpr : - D < u * f < D) by (split; nra).
  replace (Rltb (- D) (u * f)) with true by (symmetry; apply Rltb_true; lra). replace (Rltb (u * f) D) with true by (symmetry; apply Rltb_true; lra).
  cbn [andb fst snd].
  change (Rabs (u * f + l - vx c) <= e / 2 /\ Rabs (vy c * f - vy c) <= Rabs (vy c) * (e / D) /\ vz pt - vz r = vz c). rewrite P3.
  split; [|split; [|now rewrite Cz]].
  - replace (u * f + INR a * D - vx c) with (- (u * (1 - f))) by (unfold u; ring). rewrite Rabs_Ropp, Rabs_mult.
    rewrite (Rabs_pos_eq (1 - f)) by lra. apply Rle_trans with (D / 2 * (e / D)); [apply Rmult_le_compat; try lra; apply Rabs_pos|].
    right. field. lra.
  - replace (vy c * f - vy c) with (- (vy c * (1 - f))) by ring. rewrite Rabs_Ropp, Rabs_mult, (Rabs_pos_eq (1 - f)) by lra.
    apply Rmult_le_compat_l; [apply Rabs_pos|lra].
Qed.
End Steady.

(** a maximal age of one step *)
Theorem age_one_no_wake rotor w len w0 g pt : vx (dyn_coos 1 rotor w len w0 g pt) = (10 ^ 20)%R.
Proof.
  unfold dyn_coos. destruct (candidates 1 w len w0 g) as [|x lst] eqn:Ec; [reflexivity|].
  pose proof (nearest_min pt lst x) as (N1 & _). destruct (nearest pt x lst) as [[[s a] p] l] eqn:En.
  rewrite <- Ec in N1. apply candidates_in in N1 as (A1 & A2 & A3 & A4 & A5). assert (a = 0) by lia. subst a.
  unfold direction. cbn [Nat.ltb Nat.leb Nat.sub Nat.eqb]. rewrite A5. unfold project. cbn [fst snd].
  set (d := (vx p - vx p)%R). replace d with 0%R by (unfold d; ring). set (d' := (vy p - vy p)%R). replace d' with 0%R by (unfold d'; ring).
  replace (sqrt (0 * 0 + 0 * 0)) with 0%R by (rewrite Rmult_0_l, Rplus_0_r, sqrt_0; reflexivity).
  unfold Rdiv. rewrite !Rmult_0_l, !Rmult_0_r, Rplus_0_r. replace (Rltb (- 0) 0) with false; [reflexivity|]. symmetry. apply Rltb_false. lra.
Qed.
Lemma auto_age_one km step : (0 < step)%R -> (0 <= km * 10 ^ 3 < 2 * step)%R -> auto_max_age km step = 1.
Proof.
  intros Hs (H0 & H). unfold auto_max_age. pose proof (rfloor_spec (km * 10 ^ 3 / step)) as (F1 & _).
  assert ((km * 10 ^ 3 / step < 2)%R) by (apply Rmult_lt_reg_r with step; auto; unfold Rdiv; rewrite Rmult_assoc, Rinv_l; lra).
  assert (F : (rfloor (km * 10 ^ 3 / step) < 2)%Z) by (apply lt_IZR; lra).
  apply Nat.max_r. lia.
Qed.

Section P.
Variable M : nat.
Variable L : R.
Variable ns : list nat.
Hypothesis HM : 1 <= M.
Hypothesis Hns : Forall (fun n => 1 <= n) ns.

Theorem steady_agrees wd ws T r : (0 < ws * T)%R -> 2 <= M -> forall s l,
  history M L (fun _ => T) (fun _ _ => (wd, ws)) (fun _ => r) ns (s :: l) -> forall ord,
  (forall c, c < length ns -> blocked M L (fun _ => T) (fun _ _ => (wd, ws)) (fun _ => r) ns ord c s = false) ->
  forall c g A pt, c < length ns -> off ns c <= g < off ns (S c) -> A <= g -> A <= M - 1 -> (INR A * (ws * T) < L)%R ->
  let x := wake_coos r wd pt in (0 <= vx x <= INR A * (ws * T))%R ->
  let q := dyn_coos M (fun _ => r) (wdata M L (fun _ => T) (fun _ _ => (wd, ws)) (fun _ => r) ns ord c s)
             (wlen M L (fun _ => T) (fun _ _ => (wd, ws)) (fun _ => r) ns ord c s)
             (wi0 M L (fun _ => T) (fun _ _ => (wd, ws)) (fun _ => r) ns ord c s) g pt in
  (Rabs (vx q - vx x) <= / 10 ^ 14 / 2 /\ Rabs (vy q - vy x) <= Rabs (vy x) * (/ 10 ^ 14 / (ws * T)) /\ vz q = vz x)%R.
Proof.
  intros HD HM2 s l H ord Q c g A pt Hc Hg HAg HAM HAL x Hx q.
  pose proof (wdata_complete M L _ _ _ ns HM Hns s l H ord Q c) as WC.
  destruct (WC 0 0 Hc) as (E0 & El & _).
  assert (Ho : off ns (S c) <= off ns (length ns)) by (apply off_mono; lia).
  assert (Kn : forall st a, st < off ns (S c) -> a < M -> st + a <= off ns (length ns) -> a <= S A ->
     wdata M L (fun _ => T) (fun _ _ => (wd, ws)) (fun _ => r) ns ord c s st a <> None).
  { intros st a H1 H2 H3 H4. destruct (WC st a Hc) as (_ & _ & G). rewrite G; auto; [discriminate|].
    destruct a as [|a]; [now left|right]. rewrite steady_tlen by auto. replace (S a - 1) with a by lia.
    assert (INR a <= INR A)%R by (apply le_INR; lia). nra. }
  unfold q. rewrite E0, El. apply (coos_core wd ws T r M _ (off ns (S c)) g A pt); auto; try lia.
  - intros st a p le E. destruct (wdata_sound M L _ _ _ ns HM Hns s l H ord c st a p le Hc E) as (_ & -> & ->).
    rewrite steady_traj, steady_tlen by auto. unfold vx, vy. cbn [fst snd]. auto.
  - intros a Ha. apply Kn; lia.
  - intros a Ha Ha'. apply Kn; lia.
  - intros a Ha. apply Kn; lia.
Qed.

(** *** what is not known *)
Variable dt : nat -> R.
Variable wind : nat -> vec3 -> R * R.
Variable rotor : nat -> vec3.
Notation tlen := (tlen dt wind rotor).
Theorem wdata_bound s l : history M L dt wind rotor ns (s :: l) -> forall ord c i a x, c < length ns ->
  i < wlen M L dt wind rotor ns ord c s ->
  wdata M L dt wind rotor ns ord c s i a = Some x ->
  let st := wi0 M L dt wind rotor ns ord c s + i in
  forall c', c' < length ns -> st < off ns c' -> off ns c' < st + a -> (tlen st (off ns c' - st) <= L)%R.
Proof.
  intros H ord c i a x Hc Hi E st c' Hc' H1 H2. destruct (history_inv M L dt wind rotor ns HM Hns _ H s l eq_refl) as (S & _).
  destruct (calc_tabs M L dt wind rotor ns HM Hns ord c s S Hc) as (G1 & G2 & _).
  unfold wdata in E. unfold st, wi0, wlen in *. set (t := fst (fst (calc_wakes M L dt wind rotor ns ord c s))) in *.
  set (f := Datatypes.S c - length t) in *.
  assert (Sz : forall (tl : list (nat * table)) f, (forall k n t, nth_error tl k = Some (n, t) -> n = size ns (f + k)) -> off ns f + fold_right Nat.add 0 (map fst tl) = off ns (f + length tl)).
  { induction tl as [|(n, t') l0 IH]; intros f' T; cbn [map fold_right length fst]; [now rewrite !Nat.add_0_r|].
    pose proof (T 0 n t' eq_refl) as En. rewrite Nat.add_0_r in En. subst n. rewrite Nat.add_assoc, <- off_S.
    replace (f' + Datatypes.S (length l0)) with (Datatypes.S f' + length l0) by lia. rewrite <- IH; auto.
    intros k n t'' Ek. replace (Datatypes.S f' + k) with (f' + Datatypes.S k) by lia. now apply (T (Datatypes.S k) n t''). }
  assert (Tb : forall k n t', nth_error t k = Some (n, t') -> n = size ns (f + k)) by (intros k n t' Ek; now apply (G2 k n t')).
  specialize (Sz t f Tb). replace (f + length t) with (Datatypes.S c) in Sz by (unfold f; lia).
  assert (Hg : off ns f + i < off ns (length ns)). { pose proof (off_mono ns (Datatypes.S c) (length ns) ltac:(lia)). lia. }
  destruct (find_chunk M ns HM (off ns f + i) Hg) as (h & Hh & Hh2).
  assert (Hfh : f <= h). { destruct (Nat.le_gt_cases f h) as [|B]; auto. pose proof (off_lt ns h f B). lia. }
  assert (Hhc : h <= c). { destruct (Nat.le_gt_cases h c) as [|B]; auto. pose proof (off_mono ns (Datatypes.S c) h ltac:(lia)). lia. }
  destruct (concat_known ns t f (off ns f + i - off ns h) a h Tb ltac:(unfold f; lia) ltac:(lia)) as (t' & E1 & E2).
  replace (off ns h + (off ns f + i - off ns h) - off ns f) with i in E2 by lia. rewrite E2 in E.
  destruct (G2 (h - f) _ _ E1) as (_ & D & _). replace (f + (h - f)) with h in D by lia. pose proof D as (D1 & D2 & D3 & D4 & D5).
  assert (Hhc' : h < c'). { destruct (Nat.lt_ge_cases h c') as [|B]; auto. pose proof (off_mono ns c' h B). lia. }
  pose proof (off_lt ns h c' Hhc') as Ho.
  assert (Hsz : off ns f + i - off ns h < size ns h) by lia.
  destruct (D5 c' (off ns f + i - off ns h) (conj Hhc' Hc') Hsz) as (D6 & _).
  - destruct (kn_dec t' (off ns f + i - off ns h) (Datatypes.S (a0 ns c' h (off ns f + i - off ns h)))) as [|N]; auto. exfalso.
    rewrite (cont_none M L dt wind rotor ns t' h D _ _ a Hsz N) in E; [discriminate|]. unfold a0. lia.
  - unfold a0 in D6. replace (off ns h + (off ns f + i - off ns h)) with (off ns f + i) in D6 by lia. exact D6.
Qed.

(** *** too few iterations *)
Theorem not_settled ord : (forall j, j < length ns -> In j ord) -> forall t, 1 + Nat.div2 (t - 1) + 1 < length ns ->
  off ns (length ns - 1) < M -> (tlen 0 (off ns (length ns - 1) - 1) < L)%R ->
  exists c, c < length ns /\ blocked M L dt wind rotor ns ord c (iterate M L dt wind rotor ns ord t) = true.
Proof.
  intros Hord t Ht HMo HL. set (v := iterate M L dt wind rotor ns ord t).
  destruct (forallb (fun c => negb (blocked M L dt wind rotor ns ord c v)) (seq 0 (length ns))) eqn:E.
  - exfalso. rewrite forallb_forall in E.
    assert (Q : forall c, c < length ns -> blocked M L dt wind rotor ns ord c v = false).
    { intros c Hc. specialize (E c ltac:(apply in_seq; lia)). now destruct (blocked M L dt wind rotor ns ord c v). }
    destruct (iterate_history M L dt wind rotor ns HM ord t) as (l & H). fold v in H.
    destruct t as [|t].
    { specialize (Q 0 ltac:(lia)). destruct (quiet_data M L dt wind rotor ns HM Hns ord empty) with (c := 0) as (d & Ed); try discriminate; try lia.
      - split; intros; discriminate.
      - intros c Hc. specialize (E c ltac:(apply in_seq; lia)). unfold v in E. cbn [iterate] in E. now destruct (blocked M L dt wind rotor ns ord c empty). }
    set (c := length ns - 1). assert (Hc : c < length ns) by (unfold c; lia).
    destruct (wdata_complete M L dt wind rotor ns HM Hns v l H ord Q c 0 (off ns c) Hc) as (E0 & _ & K).
    assert (H0 : 0 < off ns c). { pose proof (off_lt ns 0 c ltac:(unfold c; lia)). pose proof (size_pos ns Hns 0 ltac:(lia)). change (off ns 0) with 0 in *. lia. }
    assert (Kn : kn (wdata M L dt wind rotor ns ord c v) 0 (off ns c)).
    { unfold kn. rewrite K; [discriminate| |exact HMo| |now right].
      - pose proof (off_mono ns c (S c) ltac:(lia)). lia.
      - cbn [Nat.add]. apply off_mono. lia. }
    pose proof (slow_wdata M L dt wind rotor ns HM Hns ord Hord (S t) c 0 (off ns c) Hc ltac:(lia)) as SW. fold v in SW.
    specialize (SW Kn 0 ltac:(unfold c; lia)). rewrite E0 in SW. change (off ns 0) with 0 in SW. cbn [Nat.add] in SW.
    assert (off ns 1 <= off ns c) by (apply off_mono; unfold c; lia).
    assert (0 < off ns 1). { change 1 with (S 0). rewrite off_S. pose proof (size_pos ns Hns 0 ltac:(lia)). lia. }
    specialize (SW ltac:(lia) ltac:(unfold c; lia)). lia.
  - assert (E' : existsb (fun c => blocked M L dt wind rotor ns ord c v) (seq 0 (length ns)) = true).
    { clear - E. induction (seq 0 (length ns)) as [|x lst IH]; cbn in *; [discriminate|]. destruct (blocked M L dt wind rotor ns ord x v); auto. }
    apply existsb_exists in E' as (c & Hc & Hb). apply in_seq in Hc. exists c. split; [lia|auto].
Qed.
End P.

(** *** results that do not depend on the chunks *)
Lemma flat_map_ext_in {A B} (f g : A -> list B) l : (forall x, In x l -> f x = g x) -> flat_map f l = flat_map g l.
Proof. induction l as [|x l IH]; intros H; [reflexivity|]. cbn [flat_map]. rewrite H by now left. f_equal. apply IH. intros. apply H. now right. Qed.
Lemma dyn_coos_ext M rotor w w' len len' g pt : g < len -> g < len' -> 1 <= M ->
  (forall a b, a < M -> a <= g -> b < M -> b <= S a -> w (g - a) b = w' (g - a) b) ->
  dyn_coos M rotor w len 0 g pt = dyn_coos M rotor w' len' 0 g pt.
Proof.
  intros H1 H2 HM E. unfold dyn_coos.
  assert (Ec : candidates M w len 0 g = candidates M w' len' 0 g).
  { unfold candidates. apply flat_map_ext_in. intros a Ha. apply in_seq in Ha. cbn [Nat.add]. rewrite Nat.sub_0_r.
    destruct (Nat.leb_spec a g) as [G|G]; [|reflexivity]. destruct (Nat.ltb_spec (g - a) len); [|lia]. destruct (Nat.ltb_spec (g - a) len'); [|lia].
    cbn [andb]. rewrite (E a a) by lia. reflexivity. }
  rewrite <- Ec. destruct (candidates M w len 0 g) as [|x l] eqn:Ex; [reflexivity|].
  pose proof (nearest_min pt l x) as (N1 & _). destruct (nearest pt x l) as [[[s a] p] ln]. rewrite <- Ex in N1.
  apply candidates_in in N1 as (A1 & A2 & A3 & A4 & A5). rewrite Nat.sub_0_r in A3. cbn [Nat.add] in A2. subst s.
  replace (direction M w' (g - a) a p) with (direction M w (g - a) a p); [reflexivity|]. unfold direction.
  destruct (Nat.ltb_spec a (M - 1)); [rewrite (E a (S a)) by lia; reflexivity|].
  destruct (Nat.eqb_spec a 0); [rewrite (E a (M - 1)) by lia; reflexivity|rewrite (E a (a - 1)) by lia; reflexivity].
Qed.
Theorem chunk_independent M L dt wind rotor ns ns' : 1 <= M -> Forall (fun n => 1 <= n) ns -> Forall (fun n => 1 <= n) ns' ->
  off ns (length ns) = off ns' (length ns') ->
  forall s l s' l' ord ord', history M L dt wind rotor ns (s :: l) -> history M L dt wind rotor ns' (s' :: l') ->
  (forall c, c < length ns -> blocked M L dt wind rotor ns ord c s = false) ->
  (forall c, c < length ns' -> blocked M L dt wind rotor ns' ord' c s' = false) ->
  forall c c' g pt, c < length ns -> c' < length ns' -> off ns c <= g < off ns (S c) -> off ns' c' <= g < off ns' (S c') ->
  (forall a b, a <= g -> a < M -> b <= a -> b + 1 < M -> (tlen dt wind rotor (g - a) b < L)%R) ->
  dyn_coos M rotor (wdata M L dt wind rotor ns ord c s) (wlen M L dt wind rotor ns ord c s) (wi0 M L dt wind rotor ns ord c s) g pt =
  dyn_coos M rotor (wdata M L dt wind rotor ns' ord' c' s') (wlen M L dt wind rotor ns' ord' c' s') (wi0 M L dt wind rotor ns' ord' c' s') g pt.
Proof.
  intros HM Hn Hn' EN s l s' l' ord ord' H H' Q Q' c c' g pt Hc Hc' Hg Hg' Hlen.
  pose proof (fun st a => wdata_complete M L dt wind rotor ns HM Hn s l H ord Q c st a Hc) as W.
  pose proof (fun st a => wdata_complete M L dt wind rotor ns' HM Hn' s' l' H' ord' Q' c' st a Hc') as W'.
  destruct (W 0 0) as (E0 & El & _). destruct (W' 0 0) as (E0' & El' & _). rewrite E0, El, E0', El'.
  pose proof (off_mono ns (S c) (length ns) ltac:(lia)). pose proof (off_mono ns' (S c') (length ns') ltac:(lia)).
  apply dyn_coos_ext; try lia. intros a b K1 K2 K3 K4.
  assert (G : b = 0 \/ (tlen dt wind rotor (g - a) (b - 1) < L)%R).
  { destruct b as [|b]; [now left|right]. replace (S b - 1) with b by lia. apply Hlen; lia. }
  destruct (W (g - a) b) as (_ & _ & ->); auto; try lia. destruct (W' (g - a) b) as (_ & _ & ->); auto; lia.
Qed.

(** *** results that depend on the chunks *)
Section Example.
Definition ex_ws (st : nat) : R := match st with O => 20%R | _ => 1%R end.
Definition ex_wind (st : nat) (_ : vec3) : R * R := (270%R, ex_ws st).
Definition ex_dt (_ : nat) : R := 1%R.
Definition ex_rotor (_ : nat) : vec3 := (0, 0, 0)%R.
Definition ex_ns (k : bool) : list nat := if k then [3] else [1; 1; 1].
Definition ex_ord : list nat := [0; 1; 2].
Notation ex_store k t := (iterate 4 10 ex_dt ex_wind ex_rotor (ex_ns k) ex_ord t).
Lemma ex_270 : (sin (270 * PI / 180) = -1 /\ cos (270 * PI / 180) = 0)%R.
Proof.
  replace (270 * PI / 180)%R with (3 * (PI / 2))%R by field. split; [|apply cos_3PI2]. exact sin_3PI2.
Qed.
Lemma ex_traj st a : traj ex_dt ex_wind ex_rotor st (S a) =
  let p := traj ex_dt ex_wind ex_rotor st a in ((vx p + ex_ws (st + a))%R, vy p, vz p).
Proof.
  cbn [traj]. unfold ex_wind, ex_dt. cbn [fst snd]. destruct ex_270 as (S' & C'). rewrite S', C'. cbn zeta. f_equal. f_equal; ring.
Qed.
Lemma ex_tlen st a : tlen ex_dt ex_wind ex_rotor st (S a) = (tlen ex_dt ex_wind ex_rotor st a + ex_ws (st + a))%R.
Proof. cbn [tlen]. unfold ex_wind, ex_dt. cbn [fst snd]. f_equal. rewrite Rmult_1_r. apply Rabs_pos_eq. destruct (st + a); cbn [ex_ws]; lra. Qed.
Ltac ext := repeat rewrite ?ex_traj, ?ex_tlen; cbn [traj tlen Nat.add ex_ws]; unfold ex_rotor, vx, vy, vz; cbn [fst snd].
Lemma ex_Hns k : Forall (fun n => 1 <= n) (ex_ns k). Proof. destruct k; repeat constructor. Qed.
Lemma ex_quiet k t : 5 <= t -> forall c, c < length (ex_ns k) -> blocked 4 10 ex_dt ex_wind ex_rotor (ex_ns k) ex_ord c (ex_store k t) = false.
Proof.
  intros Ht c Hc. apply settles; auto; try lia; [apply ex_Hns| |].
  - intros j. destruct k; cbn [ex_ns length]; intros; unfold ex_ord; cbn [In]; lia.
  - destruct k; cbn [ex_ns length]; lia.
Qed.
Lemma near_last pt x y z (b c d : nat * nat) :
  (dist2 pt y < dist2 pt x)%R -> nearest pt (fst b, snd b, x, z) [(fst c, snd c, y, z)] = (fst c, snd c, y, z).
Proof. intros H. cbn [nearest]. apply Rltb_true in H. now rewrite H. Qed.
Lemma ex_dist x : (x <= 21)%R -> dist2 (21, 0, 0)%R (x, 0, 0)%R = (21 - x)%R.
Proof.
  intros H. unfold dist2, vx, vy. cbn [fst snd]. replace ((21 - x) * (21 - x) + (0 - 0) * (0 - 0))%R with (Rsqr (21 - x)) by (unfold Rsqr; ring).
  apply sqrt_Rsqr. lra.
Qed.
Definition ex_coos (k : bool) (t c : nat) : vec3 :=
  dyn_coos 4 ex_rotor (wdata 4 10 ex_dt ex_wind ex_rotor (ex_ns k) ex_ord c (ex_store k t))
    (wlen 4 10 ex_dt ex_wind ex_rotor (ex_ns k) ex_ord c (ex_store k t)) (wi0 4 10 ex_dt ex_wind ex_rotor (ex_ns k) ex_ord c (ex_store k t)) 2 (21, 0, 0)%R.
Lemma ex_many t : 5 <= t -> vx (ex_coos false t 2) = (10 ^ 20)%R.
Proof.
  intros Ht. pose proof (ex_quiet false t Ht) as Q. destruct (iterate_history 4 10 ex_dt ex_wind ex_rotor (ex_ns false) ltac:(lia) ex_ord t) as (l & H).
  unfold ex_coos. set (v := iterate 4 10 ex_dt ex_wind ex_rotor (ex_ns false) ex_ord t) in *.
  pose proof (fun st a => wdata_complete 4 10 ex_dt ex_wind ex_rotor (ex_ns false) ltac:(lia) (ex_Hns false) v l H ex_ord Q 2 st a ltac:(cbn; lia)) as WC.
  destruct (WC 0 0) as (E0 & El & _). rewrite E0, El. set (w := wdata 4 10 ex_dt ex_wind ex_rotor (ex_ns false) ex_ord 2 v) in *.
  change (off (ex_ns false) 3) with 3.
  assert (W20 : w 2 0 = Some ((0, 0, 0), 0)%R).
  { destruct (WC 2 0) as (_ & _ & G). rewrite G; [reflexivity|cbn; lia|cbn; lia|cbn; lia|now left]. }
  assert (W11 : w 1 1 = Some ((1, 0, 0), 1)%R).
  { destruct (WC 1 1) as (_ & _ & G). rewrite G; [|cbn; lia|cbn; lia|cbn; lia|right; cbn; lra]. ext. f_equal. f_equal; [f_equal; f_equal|]; ring. }
  assert (W12 : w 1 2 = Some ((2, 0, 0), 2)%R).
  { destruct (WC 1 2) as (_ & _ & G). rewrite G; [|cbn; lia|cbn; lia|cbn; lia|right; cbn [Nat.sub]; ext; lra]. ext. f_equal. f_equal; [f_equal; f_equal|]; ring. }
  assert (W02 : w 0 2 = None).
  { destruct (w 0 2) as [x|] eqn:E; auto. exfalso.
    pose proof (wdata_bound 4 10 (ex_ns false) ltac:(lia) (ex_Hns false) ex_dt ex_wind ex_rotor v l H ex_ord 2 0 2 x ltac:(cbn; lia)) as B.
    rewrite E0, El in B. specialize (B ltac:(cbn; lia) E 1 ltac:(cbn; lia) ltac:(cbn; lia) ltac:(cbn; lia)). cbn [Nat.add off ex_ns firstn fold_right Nat.sub] in B.
    rewrite ex_tlen in B. cbn [Nat.add ex_ws tlen] in B. lra. }
  unfold dyn_coos. replace (candidates 4 w 3 0 2) with [(2, 0, (0, 0, 0)%R, 0%R); (1, 1, (1, 0, 0)%R, 1%R)].
  2:{ unfold candidates. change (seq 0 4) with [0; 1; 2; 3]. cbn [flat_map].
      change (2 - 0 - 0) with 2. change (2 - 1 - 0) with 1. change (2 - 2 - 0) with 0. rewrite W20, W11, W02. reflexivity. }
  cbn [nearest]. rewrite !ex_dist by lra. destruct (Rltb (21 - 1) (21 - 0)) eqn:E; [|apply Rltb_false in E; lra].
  unfold direction. cbn [Nat.ltb Nat.leb Nat.sub]. rewrite W12. unfold vx at 1 2, vy at 1 2. cbn [fst snd].
  unfold project. unfold vx, vy. cbn [fst snd].
  replace ((2 - 1) * (2 - 1) + (0 - 0) * (0 - 0))%R with 1%R by ring. rewrite sqrt_1. set (e := (/ 10 ^ 14)%R).
  assert (He : (0 < e < 1)%R). { unfold e. split; [apply Rinv_0_lt_compat; lra|]. apply Rmult_lt_reg_r with (10 ^ 14)%R; [lra|]. rewrite Rinv_l; lra. }
  set (pr := ((21 - 1) * ((2 - 1) / (1 + e)) + (0 - 0) * ((0 - 0) / (1 + e)))%R).
  assert (Hp : (1 <= pr)%R).
  { replace pr with (20 / (1 + e))%R by (unfold pr; field; lra). apply Rmult_le_reg_r with (1 + e)%R; [lra|]. unfold Rdiv. rewrite Rmult_assoc, Rinv_l; lra. }
  replace (Rltb pr 1) with false by (symmetry; apply Rltb_false; lra). rewrite andb_false_r. reflexivity.
Qed.
Lemma ex_one t : 1 <= t -> ex_coos true t 0 = (21, 0, 0)%R.
Proof.
  intros Ht. unfold ex_coos.
  assert (Es : forall t, 1 <= t -> edata (ex_store true t 0) = Some (start_data 4 10 ex_dt ex_wind ex_rotor (ex_ns true) 0)).
  { clear. induction t as [|t IH]; intros Ht; [lia|]. destruct t as [|t]; [reflexivity|].
    change (ex_store true (S (S t))) with (iteration 4 10 ex_dt ex_wind ex_rotor (ex_ns true) ex_ord (ex_store true (S t))).
    rewrite iteration_at by lia. change (0 <? length (ex_ns true)) with true. cbv iota. rewrite run_edata. unfold own. unfold ex_ord at 1.
    rewrite IH by lia. cbn [apply_updates fold_left Nat.ltb Nat.leb].
      assert (N : forall j, 1 <= j -> eupd (ex_store true (S t) j) 0 = None).
      { clear. induction t as [|t IH]; intros j Hj.
        - cbn [iterate]. rewrite iteration_at by lia. destruct (Nat.ltb_spec j (length (ex_ns true))); [cbn in H; lia|reflexivity].
        - change (ex_store true (S (S t))) with (iteration 4 10 ex_dt ex_wind ex_rotor (ex_ns true) ex_ord (ex_store true (S t))). rewrite iteration_at by lia.
          destruct (Nat.ltb_spec j (length (ex_ns true))); [cbn in H; lia|now apply IH]. }
    rewrite !N by lia. reflexivity. }
  specialize (Es t Ht). set (v := iterate 4 10 ex_dt ex_wind ex_rotor (ex_ns true) ex_ord t) in *.
  assert (Nu : forall j, 1 <= j -> eupd (v j) 0 = None).
  { unfold v. clear. induction t as [|t IH]; intros j Hj; [reflexivity|]. cbn [iterate]. rewrite iteration_at by lia.
    destruct (Nat.ltb_spec j (length (ex_ns true))); [cbn in H; lia|now apply IH]. }
  assert (Ew : forall s a, s < 3 -> wdata 4 10 ex_dt ex_wind ex_rotor (ex_ns true) ex_ord 0 v s a = start_data 4 10 ex_dt ex_wind ex_rotor (ex_ns true) 0 s a).
  { intros s a Hs. unfold wdata, calc_wakes, own. rewrite Es. cbn [past fst concat_tabs app apply_updates fold_left ex_ord Nat.ltb Nat.leb].
    rewrite !Nu by lia. cbn [fst]. destruct s as [|[|[|s]]]; [reflexivity..|lia]. }
  assert (El : wlen 4 10 ex_dt ex_wind ex_rotor (ex_ns true) ex_ord 0 v = 3 /\ wi0 4 10 ex_dt ex_wind ex_rotor (ex_ns true) ex_ord 0 v = 0).
  { unfold wlen, wi0, calc_wakes. cbn [past fst map fold_right length app Nat.sub]. split; reflexivity. }
  destruct El as (-> & ->). set (w := wdata 4 10 ex_dt ex_wind ex_rotor (ex_ns true) ex_ord 0 v) in *.
  destruct (start_data_spec 4 10 ex_dt ex_wind ex_rotor (ex_ns true) ltac:(lia) 0) as (B & HB & HD & Hend).
  change (size (ex_ns true) 0) with 3 in *.
  assert (B = 3).
  { destruct (Nat.eq_dec B 3) as [|Ne]; auto. exfalso. destruct Hend as [E|[E|E]]; [lia|lia|].
    change (off (ex_ns true) 0) with 0 in E. cbn [Nat.add] in E. destruct B as [|[|[|B]]]; try lia.
    - specialize (E 0 ltac:(lia) ltac:(lia)). cbn [tlen] in E. lra.
    - specialize (E 1 ltac:(lia) ltac:(lia)). rewrite ex_tlen in E. cbn [Nat.add tlen ex_ws] in E. lra.
    - specialize (E 1 ltac:(lia) ltac:(lia)). rewrite !ex_tlen in E. cbn [Nat.add tlen ex_ws] in E. lra. }
  subst B.
  assert (W : forall s a, s < 3 -> s + a <= 3 -> w s a = Some (traj ex_dt ex_wind ex_rotor s a, tlen ex_dt ex_wind ex_rotor s a)).
  { intros s a H1 H2. rewrite Ew, HD by auto. unfold Dcol. change (size (ex_ns true) 0) with 3. destruct (Nat.ltb_spec s 3); [|lia].
    destruct (Nat.leb_spec a 3); [|lia]. destruct (Nat.leb_spec (s + a) 3); [|lia]. reflexivity. }
  assert (W20 : w 2 0 = Some ((0, 0, 0), 0)%R) by (rewrite W by lia; reflexivity).
  assert (W11 : w 1 1 = Some ((1, 0, 0), 1)%R) by (rewrite W by lia; ext; f_equal; f_equal; [f_equal; f_equal|]; ring).
  assert (W02 : w 0 2 = Some ((21, 0, 0), 21)%R) by (rewrite W by lia; ext; f_equal; f_equal; [f_equal; f_equal|]; ring).
  assert (W03 : w 0 3 = Some ((22, 0, 0), 22)%R) by (rewrite W by lia; ext; f_equal; f_equal; [f_equal; f_equal|]; ring).
  unfold dyn_coos. replace (candidates 4 w 3 0 2) with [(2, 0, (0, 0, 0)%R, 0%R); (1, 1, (1, 0, 0)%R, 1%R); (0, 2, (21, 0, 0)%R, 21%R)].
  2:{ unfold candidates. change (seq 0 4) with [0; 1; 2; 3]. cbn [flat_map].
      change (2 - 0 - 0) with 2. change (2 - 1 - 0) with 1. change (2 - 2 - 0) with 0. rewrite W20, W11, W02. reflexivity. }
  cbn [nearest]. rewrite !ex_dist by lra. destruct (Rltb (21 - 1) (21 - 0)) eqn:E; [|apply Rltb_false in E; lra]. rewrite !ex_dist by lra.
  destruct (Rltb (21 - 21) (21 - 1)) eqn:E2; [|apply Rltb_false in E2; lra].
  unfold direction. cbn [Nat.ltb Nat.leb Nat.sub]. rewrite W03. unfold project, vx, vy, vz, ex_rotor. cbn [fst snd].
  replace ((22 - 21) * (22 - 21) + (0 - 0) * (0 - 0))%R with 1%R by ring. rewrite sqrt_1.
  rewrite !Rminus_eq_0, !Rmult_0_l, !Rplus_0_l. destruct (Rltb (- (1)) 0) eqn:E3; [|apply Rltb_false in E3; lra].
  destruct (Rltb 0 1) eqn:E4; [|apply Rltb_false in E4; lra]. reflexivity.
Qed.
End Example.
