(** Proofs about dynamic wakes. *)
From Verif Require Import RBase WindDir_Model DynWakes_Model DynWakes_Spec.
Local Open Scope nat_scope.

Section P.
Variable M : nat.
Variable L : R.
Variable dt : nat -> R.
Variable wind : nat -> vec3 -> R * R.
Variable rotor : nat -> vec3.
Variable ns : list nat.
Hypothesis HM : 1 <= M.
Hypothesis Hns : Forall (fun n => 1 <= n) ns.

Notation move := (move dt wind).
Notation dlen := (dlen dt wind).
Notation traj := (traj dt wind rotor).
Notation tlen := (tlen dt wind rotor).
Notation off := (off ns).
Notation size := (size ns).

Lemma move_traj st a : move (st + a) (traj st a) = traj st (S a).
Proof.
  cbn [DynWakes_Spec.traj]. unfold DynWakes_Model.move, dxy, wd2uv, wd2wdvec. cbn [fst snd vx vy vz].
  f_equal. f_equal; unfold vx, vy; cbn [fst snd]; ring.
Qed.
Lemma dlen_tlen st a : (tlen st a + dlen (st + a) (traj st a))%R = tlen st (S a).
Proof.
  cbn [DynWakes_Spec.tlen]. f_equal. unfold DynWakes_Model.dlen, dxy, wd2uv, wd2wdvec. cbn [fst snd].
  set (wd := fst _). set (ws := snd _). set (d := dt _). set (t := (wd * PI / 180)%R).
  replace (_ + _)%R with (Rsqr (ws * d) * (Rsqr (sin t) + Rsqr (cos t)))%R by (unfold Rsqr; ring).
  rewrite sin2_cos2, Rmult_1_r. apply sqrt_Rsqr_abs.
Qed.
Lemma tlen_mono st a b : a <= b -> (tlen st a <= tlen st b)%R.
Proof.
  induction 1 as [|b H IH]; [lra|]. cbn [DynWakes_Spec.tlen]. pose proof (Rabs_pos (snd (wind (st + b) (traj st b)) * dt (st + b))). lra.
Qed.

(** *** chunk arithmetic *)
Lemma off_S c : off (S c) = off c + size c.
Proof using ns. clear HM.
  unfold DynWakes_Model.off, DynWakes_Model.size. clear Hns. revert c. induction ns as [|n l IH]; intros [|c]; try reflexivity; [cbn; lia|].
  specialize (IH c). cbn [firstn fold_right nth] in *. rewrite IH. lia.
Qed.
Lemma size_pos c : c < length ns -> 1 <= size c.
Proof using ns Hns. clear HM. intros H. unfold DynWakes_Model.size. rewrite Forall_forall in Hns. apply Hns. now apply nth_In. Qed.
Lemma off_mono c d : c <= d -> off c <= off d.
Proof using ns. clear HM. induction 1; auto. rewrite off_S. lia. Qed.
Lemma off_lt c d : c < d -> off c + size c <= off d.
Proof using ns. clear HM. intros H. rewrite <- off_S. now apply off_mono. Qed.
Lemma find_chunk g : g < off (length ns) -> exists c, c < length ns /\ off c <= g < off c + size c.
Proof.
  generalize (length ns). induction n as [|n IH]; [cbn; lia|]. intros H. destruct (Nat.lt_ge_cases g (off n)).
  - destruct IH as (c & H1 & H2); auto. exists c. split; auto.
  - exists n. rewrite off_S in H. lia.
Qed.
Lemma chunk_unique c d g : c < length ns -> d < length ns -> off c <= g < off c + size c -> off d <= g < off d + size d -> c = d.
Proof.
  intros Hc Hd H1 H2. destruct (Nat.lt_trichotomy c d) as [H|[H|H]]; auto.
  - pose proof (off_lt c d H). lia.
  - pose proof (off_lt d c H). lia.
Qed.

(** *** wakes starting within the chunk *)
Definition pt (st a : nat) : vec3 * R := (traj st a, tlen st a).
Definition Dcol (c A : nat) : table := fun s a => if (s <? size c) && (a <=? A) && (s + a <=? size c) then Some (pt (off c + s) a) else None.
Ltac nb := repeat match goal with
  | |- context [?a <? ?b] => destruct (Nat.ltb_spec a b)
  | |- context [?a <=? ?b] => destruct (Nat.leb_spec a b)
  | |- context [?a =? ?b] => destruct (Nat.eqb_spec a b)
  end.
Ltac nbin H := repeat match type of H with
  | context [?a <? ?b] => destruct (Nat.ltb_spec a b)
  | context [?a <=? ?b] => destruct (Nat.leb_spec a b)
  | context [?a =? ?b] => destruct (Nat.eqb_spec a b)
  end.
Lemma set_col_D c A pts ls d :
  (forall s a, d s a = Dcol c A s a) ->
  (forall s, s + A < size c -> pts s = traj (off c + s) (S A)) ->
  (forall s, s + A < size c -> (tlen (off c + s) A + ls s)%R = tlen (off c + s) (S A)) ->
  forall s a, set_col (size c) A pts ls d s a = Dcol c (S A) s a.
Proof.
  intros Hd Hp Hl s a. unfold set_col, Dcol. rewrite !Hd. unfold Dcol. nb; cbn [andb]; try lia; auto.
  subst a. unfold pt. rewrite Hl, Hp by lia. reflexivity.
Qed.
Lemma fill_spec c : forall k A pts d, A + k = M - 1 -> A <= size c ->
  (forall s, s < size c -> s + A <= size c -> pts s = traj (off c + s) A) ->
  (forall s a, d s a = Dcol c A s a) ->
  exists B, A <= B <= M - 1 /\ (forall s a, fill M L dt wind ns k A c pts d s a = Dcol c B s a) /\
    (B = M - 1 \/ B = size c \/ forall s, s < size c -> s + B <= size c -> (L <= tlen (off c + s) B)%R).
Proof.
  induction k as [|k IH]; intros A pts d Hk HA Hp Hd; cbn [fill].
  - exists A. split; [lia|]. split; auto. left. lia.
  - destruct (Nat.eqb_spec A (size c)) as [E|E].
    + exists A. split; [lia|]. split; auto.
    + set (pts' := fun s => move (off c + A + s) (pts s)). set (d' := set_col _ _ _ _ _).
      assert (Hp' : forall s, s + A < size c -> pts' s = traj (off c + s) (S A)).
      { intros s Hs. unfold pts'. rewrite Hp by lia. replace (off c + A + s) with (off c + s + A) by lia. apply move_traj. }
      assert (Hd' : forall s a, d' s a = Dcol c (S A) s a).
      { apply set_col_D; auto. intros s Hs. rewrite Hp by lia. replace (off c + A + s) with (off c + s + A) by lia. apply dlen_tlen. }
      destruct (_ && _) eqn:Eb.
      * apply andb_true_iff in Eb as (E1 & E2). apply Nat.ltb_lt in E1. exists (S A). split; [lia|]. split; auto.
        right. right. intros s Hs Hs'. unfold all_long in E2. rewrite forallb_forall in E2.
        specialize (E2 s). rewrite in_seq, Hd' in E2. specialize (E2 ltac:(lia)). unfold Dcol in E2.
        destruct (Nat.ltb_spec s (size c)); [|lia]. destruct (Nat.leb_spec (S A) (S A)); [|lia]. destruct (Nat.leb_spec (s + S A) (size c)); [|lia].
        cbn [andb] in E2. unfold pt in E2. now apply Rleb_true in E2.
      * destruct (IH (S A) pts' d') as (B & HB & H1 & H2); auto; try lia.
        { intros s H1 H2. apply Hp'. lia. }
        exists B. split; [lia|]. auto.
Qed.
Lemma start_data_spec c : exists B, B <= M - 1 /\ (forall s a, start_data M L dt wind rotor ns c s a = Dcol c B s a) /\
    (B = M - 1 \/ B = size c \/ forall s, s < size c -> s + B <= size c -> (L <= tlen (off c + s) B)%R).
Proof.
  unfold start_data. destruct (fill_spec c (M - 1) 0 (fun s => rotor (off c + s)) (fresh rotor ns c)) as (B & HB & H); try lia.
  - intros s Hs _. reflexivity.
  - intros s a. unfold fresh, Dcol. nb; cbn [andb]; try lia; auto. subst a. reflexivity.
  - exists B. split; [lia|]. exact H.
Qed.

(** *** invariants *)
Definition kn (d : table) s a := d s a <> None.
Definition sound (i0 n : nat) (d : table) := forall s a x, s < n -> d s a = Some x -> a < M /\ x = pt (i0 + s) a.
Definition a0 (c h s : nat) := off c - (off h + s).
Definition DInv (h : nat) (d : table) :=
  sound (off h) (size h) d /\
  (forall s, s < size h -> kn d s 0) /\
  (forall s a, s < size h -> kn d s (S a) -> kn d s a) /\
  (forall s a, s + a < size h -> S a < M -> (tlen (off h + s) a < L)%R -> kn d s (S a)) /\
  (forall c s, h < c < length ns -> s < size h -> kn d s (S (a0 c h s)) ->
     (tlen (off h + s) (a0 c h s) <= L)%R /\ forall k, 1 <= k <= size c -> a0 c h s + k < M -> kn d s (a0 c h s + k)).
Definition UInv (c h : nat) (d u : table) :=
  sound (off h) (size h) u /\
  (forall s a, s < size h -> kn u s a -> a0 c h s < a <= a0 c h s + size c /\ kn d s (a0 c h s) /\ (tlen (off h + s) (a0 c h s) <= L)%R /\
     forall k, 1 <= k <= size c -> a0 c h s + k < M -> kn u s (a0 c h s + k)).
Definition grows (n : nat) (d d' : table) := forall s a, s < n -> kn d s a -> kn d' s a.

Lemma DInv_start c : DInv c (start_data M L dt wind rotor ns c).
Proof.
  destruct (start_data_spec c) as (B & HB & HD & Hend). unfold kn.
  assert (K : forall s a, start_data M L dt wind rotor ns c s a <> None <-> s < size c /\ a <= B /\ s + a <= size c).
  { intros s a. rewrite HD. unfold Dcol. nb; cbn [andb]; split; intros; try lia; try discriminate; try congruence. }
  split; [|split; [|split; [|split]]].
  - intros s a x Hs E. assert (start_data M L dt wind rotor ns c s a <> None) by congruence. apply K in H.
    rewrite HD in E. unfold Dcol in E. destruct (_ && _); [|discriminate]. split; [lia|congruence].
  - intros s Hs. apply K. lia.
  - unfold kn. intros s a Hs H. apply K. apply K in H. lia.
  - intros s a H1 H2 H3. apply K. destruct Hend as [E|[E|E]]; [lia|lia|]. split; [lia|]. split; [|lia].
    destruct (Nat.le_gt_cases (S a) B) as [|G]; auto. exfalso. specialize (E s ltac:(lia) ltac:(lia)).
    pose proof (tlen_mono (off c + s) B a ltac:(lia)). lra.
  - intros c' s Hc Hs H. exfalso. apply K in H. unfold a0 in H. pose proof (off_lt c c' ltac:(lia)). lia.
Qed.

Lemma kn_merge d u s a : kn (merge d u) s a <-> kn d s a \/ kn u s a.
Proof using . clear dependent M. clear dependent dt. clear dependent wind. clear dependent rotor. unfold kn, merge. destruct (d s a); split; intros H; try tauto; try (left; discriminate); try discriminate. Qed.
Lemma kn_dec d s a : kn d s a \/ d s a = None.
Proof using . clear dependent M. clear dependent dt. clear dependent wind. clear dependent rotor. unfold kn. destruct (d s a); [left; discriminate|now right]. Qed.

Lemma block_chunk c c' h s a : h < c < length ns -> h < c' < length ns -> s < size h ->
  a0 c h s < a <= a0 c h s + size c -> S (a0 c' h s) <= a -> a <= a0 c' h s + size c' -> c = c'.
Proof.
  intros Hc Hc' Hs H1 H2 H3. unfold a0 in *. pose proof (off_lt h c ltac:(lia)). pose proof (off_lt h c' ltac:(lia)).
  apply (chunk_unique c c' (off h + s + a - 1)); lia.
Qed.
Lemma DInv_merge c h d u : h < c < length ns -> DInv h d -> UInv c h d u -> DInv h (merge d u).
Proof.
  intros Hc (D1 & D2 & D3 & D4 & D5) (U1 & U2). split; [|split; [|split; [|split]]].
  - intros s a x Hs E. unfold merge in E. destruct (d s a) eqn:Ed; [injection E as <-; eauto|eauto].
  - intros s Hs. apply kn_merge. left. auto.
  - intros s a Hs H. apply kn_merge in H. apply kn_merge. destruct H as [H|H]; [left; eauto|].
    destruct (U2 s (S a) Hs H) as (V1 & V2 & V4 & V3). destruct (Nat.eq_dec a (a0 c h s)) as [->|G]; [now left|].
    right. replace a with (a0 c h s + (a - a0 c h s)) by lia. apply V3; [lia|].
    destruct (u s (S a)) as [x|] eqn:Eu; [|now elim H]. destruct (U1 s (S a) x Hs Eu). lia.
  - intros s a H1 H2 H3. apply kn_merge. left. auto.
  - intros c' s Hc' Hs H. apply kn_merge in H. destruct H as [H|H].
    + destruct (D5 c' s Hc' Hs H) as (D6 & D7). split; auto. intros k Hk Hk'. apply kn_merge. left. auto.
    + destruct (U2 s _ Hs H) as (V1 & V2 & V4 & V3). pose proof (size_pos c' ltac:(lia)).
      assert (c = c') by (apply (block_chunk c c' h s (S (a0 c' h s))); auto; lia). subst c'.
      split; auto. intros k Hk Hk'. apply kn_merge. right. apply V3; auto.
Qed.
Lemma UInv_mono c h d d' u : UInv c h d u -> grows (size h) d d' -> UInv c h d' u.
Proof.
  intros (U1 & U2) G. split; auto. intros s a Hs H. destruct (U2 s a Hs H) as (V1 & V2 & V4 & V3). split; auto.
Qed.

(** *** continuing the wakes of earlier chunks *)
Definition mkrow (h st s : nat) : nat * nat * vec3 := (s, st - (off h + s), traj (off h + s) (st - (off h + s))).
Lemma advance_spec h st ss : NoDup ss -> (forall s, In s ss -> off h + s <= st) -> forall d s a,
  advance dt wind st (map (mkrow h st) ss) d s a =
  if (if in_dec Nat.eq_dec s ss then true else false) && (a =? S (st - (off h + s))) then
    match d s (st - (off h + s)) with Some (_, l) => Some (traj (off h + s) a, (l + dlen st (traj (off h + s) (st - (off h + s))))%R) | None => None end
  else d s a.
Proof.
  intros ND. induction ND as [|x ss Hx ND IH]; intros Hle d s a; [reflexivity|].
  unfold advance. cbn [map fold_left]. fold (advance dt wind st (map (mkrow h st) ss)). unfold mkrow at 2.
  change (fold_left _ (map (mkrow h st) ss) ?d0) with (advance dt wind st (map (mkrow h st) ss) d0).
  rewrite IH by (intros; apply Hle; now right).
  assert (Hx' : off h + x <= st) by (apply Hle; now left).
  assert (Em : move st (traj (off h + x) (st - (off h + x))) = traj (off h + x) (S (st - (off h + x)))).
  { replace st with (off h + x + (st - (off h + x))) at 1 by lia. apply move_traj. }
  destruct (in_dec Nat.eq_dec s ss) as [Hs|Hs]; destruct (in_dec Nat.eq_dec s (x :: ss)) as [Hs'|Hs'];
    try (exfalso; apply Hs'; now right); cbn [andb].
  - assert (s <> x) by (intros ->; contradiction). unfold put. destruct (Nat.eqb_spec s x); [contradiction|]. cbn [andb]. reflexivity.
  - destruct Hs' as [<-|G]; [|contradiction]. unfold put. rewrite Nat.eqb_refl. cbn [andb].
    destruct (Nat.eqb_spec a (S (st - (off h + x)))) as [->|G]; [|reflexivity]. rewrite Em. reflexivity.
  - unfold put. destruct (Nat.eqb_spec s x) as [->|G]; [exfalso; apply Hs'; now left|]. reflexivity.
Qed.
Lemma next_rows_spec h st i1 ss : (forall s, In s ss -> off h + s <= st) ->
  next_rows M dt wind ns st i1 h (map (mkrow h st) ss) =
  if S st <? i1 then map (mkrow h (S st)) (filter (fun s => S st - (off h + s) <? M - 1) ss) else [].
Proof.
  intros Hle. unfold next_rows. induction ss as [|x ss IH]; [now destruct (S st <? i1)|].
  assert (Hx' : off h + x <= st) by (apply Hle; now left).
  assert (Em : move st (traj (off h + x) (st - (off h + x))) = traj (off h + x) (S (st - (off h + x)))).
  { replace st with (off h + x + (st - (off h + x))) at 1 by lia. apply move_traj. }
  cbn [map filter]. change (mkrow h st x) with (x, st - (off h + x), traj (off h + x) (st - (off h + x))). cbv beta iota.
  rewrite Em, IH by (intros; apply Hle; now right).
  replace (off h + x + S (st - (off h + x))) with (S st) by lia. replace (S st - (off h + x)) with (S (st - (off h + x))) by lia.
  destruct (S st <? i1); cbn [andb]; [|reflexivity]. destruct (_ <? M - 1); [|reflexivity]. cbn [map]. f_equal.
  unfold mkrow. replace (S st - (off h + x)) with (S (st - (off h + x))) by lia. reflexivity.
Qed.
Lemma pt_eta (o : option (vec3 * R)) p l : o = Some (p, l) -> o = Some (p, l).
Proof. auto. Qed.
Lemma complete_spec h : forall k st i1 ss d, i1 = st + k -> 1 <= k -> NoDup ss ->
  (forall s, In s ss -> off h + s <= st /\ st - (off h + s) < M - 1 /\ d s (st - (off h + s)) = Some (pt (off h + s) (st - (off h + s)))) ->
  forall s a, complete M dt wind ns k st i1 h (map (mkrow h st) ss) d s a =
  if (if in_dec Nat.eq_dec s ss then true else false) && (st - (off h + s) <? a) && (off h + s + a <=? i1) && (a <=? M - 1)
  then Some (pt (off h + s) a) else d s a.
Proof.
  induction k as [|k IH]; intros st i1 ss d Hi Hk ND Hss s a; [lia|]. cbn [complete].
  assert (Hle : forall s, In s ss -> off h + s <= st) by (intros; now apply Hss).
  rewrite next_rows_spec by auto.
  assert (Hadv : forall s a, advance dt wind st (map (mkrow h st) ss) d s a =
     if (if in_dec Nat.eq_dec s ss then true else false) && (a =? S (st - (off h + s))) then Some (pt (off h + s) a) else d s a).
  { intros s' a'. rewrite advance_spec by auto. destruct (in_dec Nat.eq_dec s' ss) as [Hs|Hs]; cbn [andb]; [|reflexivity].
    destruct (Nat.eqb_spec a' (S (st - (off h + s')))) as [->|G]; [|reflexivity].
    destruct (Hss s' Hs) as (H1 & H2 & ->). unfold pt. rewrite <- (dlen_tlen (off h + s') (st - (off h + s'))).
    replace (off h + s' + (st - (off h + s'))) with st by lia. reflexivity. }
  destruct (Nat.ltb_spec (S st) i1) as [G|G].
  - set (ss' := filter _ ss).
    assert (ND' : NoDup ss') by now apply NoDup_filter.
    assert (Hin : forall s, In s ss' <-> In s ss /\ S st - (off h + s) < M - 1).
    { intros s'. unfold ss'. rewrite filter_In, Nat.ltb_lt. tauto. }
    assert (R : match map (mkrow h (S st)) ss' with [] => advance dt wind st (map (mkrow h st) ss) d
       | _ :: _ => complete M dt wind ns k (S st) i1 h (map (mkrow h (S st)) ss') (advance dt wind st (map (mkrow h st) ss) d) end s a =
       if (if in_dec Nat.eq_dec s ss' then true else false) && (S st - (off h + s) <? a) && (off h + s + a <=? i1) && (a <=? M - 1)
       then Some (pt (off h + s) a) else advance dt wind st (map (mkrow h st) ss) d s a).
    { destruct ss' as [|x ss''] eqn:Ess; [reflexivity|]. cbn [map]. rewrite <- Ess in *.
      change (mkrow h (S st) x :: map (mkrow h (S st)) ss'') with (map (mkrow h (S st)) (x :: ss'')). rewrite <- Ess.
      apply IH; auto; try lia. intros s' Hs'. apply Hin in Hs' as (Hs1 & Hs2). destruct (Hss s' Hs1) as (H1 & H2 & H3).
      split; [lia|]. split; [lia|]. rewrite Hadv. destruct (in_dec Nat.eq_dec s' ss); [|contradiction]. cbn [andb].
      replace (S st - (off h + s')) with (S (st - (off h + s'))) by lia. rewrite Nat.eqb_refl. reflexivity. }
    transitivity (match map (mkrow h (S st)) ss' with [] => advance dt wind st (map (mkrow h st) ss) d
       | _ :: _ => complete M dt wind ns k (S st) i1 h (map (mkrow h (S st)) ss') (advance dt wind st (map (mkrow h st) ss) d) end s a).
    { now destruct (map (mkrow h (S st)) ss'). }
    rewrite R, Hadv. clear R. destruct (in_dec Nat.eq_dec s ss) as [Hs|Hs]; destruct (in_dec Nat.eq_dec s ss') as [Hs'|Hs'].
    + destruct (Hss s Hs) as (H1 & H2 & H3). nb; cbn [andb]; try lia; auto.
    + destruct (Hss s Hs) as (H1 & H2 & H3). assert (~ (S st - (off h + s) < M - 1)) by (intros C; apply Hs'; apply Hin; auto).
      nb; cbn [andb]; try lia; auto.
    + apply Hin in Hs' as (C & _). contradiction.
    + reflexivity.
  - rewrite Hadv. destruct (in_dec Nat.eq_dec s ss) as [Hs|Hs]; cbn [andb]; [|reflexivity].
    destruct (Hss s Hs) as (H1 & H2 & H3). nb; cbn [andb]; try lia; auto.
Qed.

Definition starts (c h : nat) (d : table) (s : nat) : bool :=
  (a0 c h s <? M - 1) && match d s (a0 c h s), d s (S (a0 c h s)) with Some (_, l), None => Rleb l L | _, _ => false end.
Lemma start_rows_spec c h d : sound (off h) (size h) d -> h < c ->
  start_rows M L ns c h d = map (mkrow h (off c)) (filter (starts c h d) (seq 0 (size h))).
Proof.
  intros S H. unfold start_rows.
  assert (G : forall l, (forall s, In s l -> s < size h) ->
    flat_map (fun s => let a := off c - (off h + s) in
    if a <? M - 1 then match d s a, d s (Datatypes.S a) with
      | Some (p, l), None => if Rleb l L then [(s, a, p)] else [] | _, _ => [] end else []) l =
    map (mkrow h (off c)) (filter (starts c h d) l)).
  { match goal with |- forall l, _ -> flat_map ?f l = _ => set (F := f) end.
    induction l as [|s l IH]; intros Hl; [reflexivity|]. cbn [flat_map filter map]. rewrite IH by (intros; apply Hl; now right).
    unfold F. unfold starts at 2. unfold a0. cbn zeta. destruct (_ <? M - 1) eqn:E1; cbn [andb]; [|reflexivity].
    destruct (d s (off c - (off h + s))) as [[p q]|] eqn:E2; [|reflexivity].
    destruct (d s (Datatypes.S (off c - (off h + s)))) eqn:E3; [reflexivity|].
    destruct (S s _ _ (Hl s ltac:(now left)) E2) as (_ & E4). destruct (Rleb q L); [|reflexivity]. cbn [map app]. f_equal.
    unfold mkrow. unfold pt in E4. injection E4 as -> _. reflexivity. }
  apply G. intros s. rewrite in_seq. lia.
Qed.
Lemma continued_spec c h d : sound (off h) (size h) d -> h < c < length ns -> forall s a, s < size h ->
  continued M L dt wind ns c h d s a =
  if starts c h d s && (a0 c h s <? a) && (a <=? a0 c h s + size c) && (a <=? M - 1) then Some (pt (off h + s) a) else d s a.
Proof.
  intros S H s a Hs. unfold continued. rewrite start_rows_spec by (auto; lia). set (ss := filter _ _).
  pose proof (off_lt h c ltac:(lia)) as Ho. pose proof (size_pos c ltac:(lia)) as Hc.
  assert (Hin : forall s, In s ss <-> s < size h /\ starts c h d s = true).
  { intros s'. unfold ss. rewrite filter_In, in_seq. split; intros (?&?); split; auto; lia. }
  assert (R : match map (mkrow h (off c)) ss with [] => d | _ :: _ => complete M dt wind ns (size c) (off c) (off c + size c) h (map (mkrow h (off c)) ss) d end s a =
     if (if in_dec Nat.eq_dec s ss then true else false) && (off c - (off h + s) <? a) && (off h + s + a <=? off c + size c) && (a <=? M - 1)
     then Some (pt (off h + s) a) else d s a).
  { destruct ss as [|x ss''] eqn:Ess; [reflexivity|]. cbn [map].
    change (mkrow h (off c) x :: map (mkrow h (off c)) ss'') with (map (mkrow h (off c)) (x :: ss'')). rewrite <- Ess in *.
    apply complete_spec; auto.
    - unfold ss. apply NoDup_filter, seq_NoDup.
    - intros s' Hs'. apply Hin in Hs' as (H1 & H2). unfold starts, a0 in H2. apply andb_true_iff in H2 as (H2 & H3). apply Nat.ltb_lt in H2.
      split; [lia|]. split; auto. destruct (d s' (off c - (off h + s'))) as [x'|] eqn:E; [|discriminate].
      destruct (S s' _ _ H1 E) as (_ & ->). reflexivity. }
  transitivity (match map (mkrow h (off c)) ss with [] => d | _ :: _ => complete M dt wind ns (size c) (off c) (off c + size c) h (map (mkrow h (off c)) ss) d end s a);
    [now destruct (map (mkrow h (off c)) ss)|].
  rewrite R. clear R. unfold a0. destruct (in_dec Nat.eq_dec s ss) as [Hi|Hi].
  - apply Hin in Hi as (_ & ->). cbn [andb].
    replace (off h + s + a <=? off c + size c) with (a <=? off c - (off h + s) + size c); [reflexivity|].
    apply eq_true_iff_eq. rewrite !Nat.leb_le. lia.
  - destruct (starts c h d s) eqn:E; [exfalso; apply Hi; now apply Hin|]. reflexivity.
Qed.
Lemma starts_true c h d s : sound (off h) (size h) d -> s < size h -> starts c h d s = true <->
  a0 c h s < M - 1 /\ kn d s (a0 c h s) /\ d s (S (a0 c h s)) = None /\ (tlen (off h + s) (a0 c h s) <= L)%R.
Proof.
  intros S Hs. unfold starts, kn. rewrite andb_true_iff, Nat.ltb_lt.
  destruct (d s (a0 c h s)) as [[p l]|] eqn:E1; [|split; intros (?&?); [discriminate|tauto]].
  destruct (S s _ _ Hs E1) as (_ & E). unfold pt in E. injection E as -> ->.
  destruct (d s (Datatypes.S (a0 c h s))); [split; intros; [destruct H; discriminate|destruct H as (_&_&H&_); discriminate]|].
  rewrite Rleb_true. split; intros; repeat split; try tauto; try discriminate.
Qed.
Lemma cont_none d h : DInv h d -> forall s a b, s < size h -> d s a = None -> a <= b -> d s b = None.
Proof.
  intros (_ & _ & D3 & _) s a b Hs E H. induction H as [|b H IH]; auto.
  destruct (kn_dec d s (S b)) as [K|K]; auto. apply D3 in K; auto. now elim K.
Qed.
Lemma DInv_continued c h d : h < c < length ns -> DInv h d ->
  UInv c h d (diff d (continued M L dt wind ns c h d)) /\ grows (size h) d (continued M L dt wind ns c h d) /\
  (forall s a, s < size h -> continued M L dt wind ns c h d s a = merge d (diff d (continued M L dt wind ns c h d)) s a).
Proof.
  intros Hc D. pose proof D as (D1 & D2 & D3 & D4 & D5). pose proof (continued_spec c h d D1 Hc) as CS.
  assert (Keep : forall s a x, s < size h -> d s a = Some x -> continued M L dt wind ns c h d s a = Some x).
  { intros s a x Hs E. rewrite CS by auto. destruct (_ && _) eqn:Eb; auto. destruct (D1 s a x Hs E) as (_ & ->). reflexivity. }
  split; [|split].
  - split.
    + intros s a x Hs E. unfold diff in E. destruct (d s a) eqn:Ed; [discriminate|]. rewrite CS in E by auto.
      destruct (starts c h d s && _ && _ && _) eqn:Eb; [|rewrite Ed in E; discriminate]. rewrite !andb_true_iff, Nat.leb_le in Eb. split; [|congruence].
      destruct Eb as (_ & Eb). apply Nat.leb_le in Eb || idtac. lia.
    + intros s a Hs K. unfold kn, diff in K. destruct (d s a) eqn:Ed; [now elim K|]. rewrite CS in K by auto.
      destruct (starts c h d s && _ && _ && _) eqn:Eb; [|rewrite Ed in K; now elim K].
      rewrite !andb_true_iff, !Nat.leb_le, Nat.ltb_lt in Eb. destruct Eb as (((E1 & E2) & E3) & E4).
      apply starts_true in E1 as F; auto. destruct F as (F1 & F2 & F3 & F4). split; [lia|]. split; auto. split; auto.
      intros k Hk Hk'. unfold kn, diff. rewrite (cont_none d h D s _ (a0 c h s + k) Hs F3) by lia. rewrite CS by auto. rewrite E1.
      destruct (Nat.ltb_spec (a0 c h s) (a0 c h s + k)); [|lia]. destruct (Nat.leb_spec (a0 c h s + k) (a0 c h s + size c)); [|lia].
      destruct (Nat.leb_spec (a0 c h s + k) (M - 1)); [|lia]. discriminate.
  - intros s a Hs K. unfold kn in *. destruct (d s a) eqn:E; [|now elim K]. now rewrite (Keep s a p).
  - intros s a Hs. unfold merge, diff. destruct (d s a) eqn:E; auto.
Qed.
Lemma DInv_ext h d d' : (forall s a, s < size h -> d s a = d' s a) -> DInv h d -> DInv h d'.
Proof.
  intros E (D1 & D2 & D3 & D4 & D5). assert (K : forall s a, s < size h -> kn d s a <-> kn d' s a) by (intros; unfold kn; now rewrite E).
  split; [|split; [|split; [|split]]].
  - intros s a x Hs. rewrite <- E by auto. now apply D1.
  - intros. apply K; auto.
  - intros s a Hs H. apply K; auto. apply D3; auto. now apply K.
  - intros s a H1 H2 H3. apply K; [lia|]. now apply D4.
  - intros c s Hc Hs H. apply K in H; auto. destruct (D5 c s Hc Hs H) as (D6 & D7). split; auto. intros k Hk Hk'. apply K; auto.
Qed.

(** *** the store *)
Definition SInv (s : store) :=
  (forall h d, h < length ns -> edata (s h) = Some d -> DInv h d) /\
  (forall c h u, eupd (s c) h = Some u -> h < c < length ns /\ exists d, edata (s h) = Some d /\ UInv c h d u).
Definition below (v s : store) := forall h d, edata (v h) = Some d -> exists d', edata (s h) = Some d' /\ grows (size h) d d'.
Lemma grows_refl n d : grows n d d. Proof. intros s a _ H. exact H. Qed.
Lemma grows_trans n d e f : grows n d e -> grows n e f -> grows n d f. Proof. intros H1 H2 s a Hs K. auto. Qed.
Lemma below_refl s : below s s. Proof. intros h d E. exists d. split; auto. apply grows_refl. Qed.
Lemma below_trans a b c : below a b -> below b c -> below a c.
Proof. intros H1 H2 h d E. destruct (H1 h d E) as (d' & E' & G). destruct (H2 h d' E') as (d'' & E'' & G'). exists d''. split; auto. eapply grows_trans; eauto. Qed.

Notation own := (own M L dt wind rotor ns).
Notation past := (past M L dt wind ns).
Notation run := (run M L dt wind rotor ns).
Lemma apply_updates_inv ord c v : SInv v -> c < length ns -> forall db,
  DInv c (fst db) -> (forall d, edata (v c) = Some d -> grows (size c) d (fst db)) ->
  let db' := apply_updates M ns ord c v db in DInv c (fst db') /\ grows (size c) (fst db) (fst db') /\ (snd db = true -> snd db' = true).
Proof.
  intros (S1 & S2) Hc. induction ord as [|j ord IH]; intros db D G; cbn [apply_updates fold_left].
  - split; auto. split; auto. apply grows_refl.
  - unfold apply_updates in *. destruct (c <? j) eqn:Ej; [|now apply IH]. destruct (eupd (v j) c) as [u|] eqn:Eu; [|now apply IH].
    destruct (S2 j c u Eu) as (Hj & d0 & E0 & U).
    assert (G' : grows (size c) (fst db) (merge (fst db) u)) by (intros s a _ K; apply kn_merge; now left).
    destruct (IH (merge (fst db) u, snd db || news M (size c) (fst db) u)) as (H1 & H2 & H3).
    + cbn [fst]. apply (DInv_merge j); auto. eapply UInv_mono; eauto.
    + cbn [fst]. intros d E. eapply grows_trans; eauto.
    + cbn [fst snd] in *. split; auto. split; [eapply grows_trans; eauto|]. intros E. apply H3. now rewrite E.
Qed.
Lemma own_inv ord c v : SInv v -> c < length ns ->
  DInv c (fst (own ord c v)) /\ (forall d, edata (v c) = Some d -> grows (size c) d (fst (own ord c v))).
Proof.
  intros S Hc. unfold DynWakes_Model.own. destruct (edata (v c)) as [d|] eqn:E.
  - destruct (apply_updates_inv ord c v S Hc (d, false)) as (H1 & H2 & _).
    + apply (proj1 S); auto.
    + intros d' E'. rewrite E in E'. injection E' as <-. apply grows_refl.
    + split; auto. intros d' E'. injection E' as <-. exact H2.
  - destruct (apply_updates_inv ord c v S Hc (start_data M L dt wind rotor ns c, true)) as (H1 & H2 & _).
    + apply DInv_start.
    + intros d' E'. rewrite E in E'. discriminate.
    + split; auto. intros d' E'. discriminate.
Qed.
(** the continued data of the chunks before h *)
Lemma past_inv c v : SInv v -> c < length ns -> forall h ups, h <= c ->
  (forall i u, ups i = Some u -> i < c /\ exists d, edata (v i) = Some d /\ UInv c i d u) ->
  let '(l, ups', b) := past c h v ups in
  (forall i u, ups' i = Some u -> i < c /\ exists d, edata (v i) = Some d /\ UInv c i d u) /\
  length l <= h /\
  (forall k n t, nth_error l k = Some (n, t) -> n = size (h - length l + k) /\ exists d, edata (v (h - length l + k)) = Some d /\
      t = continued M L dt wind ns c (h - length l + k) d) /\
  ((forall i, i < h -> edata (v i) <> None) -> length l = h) /\
  (b = false -> forall k, h - length l <= k < h -> exists d, edata (v k) = Some d /\ news M (size k) d (continued M L dt wind ns c k d) = false).
Proof.
  intros S Hc. induction h as [|h IH]; intros ups Hh Hu; cbn [DynWakes_Model.past].
  - split; [exact Hu|]. split; [cbn; lia|]. split; [intros k n t E; destruct k; discriminate|]. split; [reflexivity|]. intros _ k Hk. cbn in Hk. lia.
  - destruct (edata (v h)) as [hd|] eqn:Eh.
    2:{ split; [exact Hu|]. split; [cbn; lia|]. split; [intros k n t E; destruct k; discriminate|]. split.
        + intros G. exfalso. apply (G h); auto.
        + intros _ k Hk. cbn in Hk. lia. }
    set (hd' := continued M L dt wind ns c h hd). set (b := news M (size h) hd hd').
    set (ups1 := if b then _ else ups).
    assert (Hu1 : forall i u, ups1 i = Some u -> i < c /\ exists d, edata (v i) = Some d /\ UInv c i d u).
    { intros i u. unfold ups1. destruct b; auto. destruct (Nat.eqb_spec i h) as [->|]; auto. intros E. injection E as <-. split; [lia|].
      exists hd. split; auto. apply DInv_continued; [lia|]. apply (proj1 S); auto. lia. }
    specialize (IH ups1 ltac:(lia) Hu1). destruct (past c h v ups1) as [[l ups2] b'].
    destruct IH as (I1 & I2 & I3 & I4 & I5). rewrite app_length. cbn [length].
    split; auto. split; [lia|]. split; [|split].
    + intros k n t E. destruct (Nat.lt_ge_cases k (length l)) as [G|G].
      * rewrite nth_error_app1 in E by auto. replace (Datatypes.S h - (length l + 1) + k) with (h - length l + k) by lia. now apply I3.
      * rewrite nth_error_app2 in E by auto. destruct (k - length l) as [|m] eqn:Ek; [|destruct m; discriminate].
        cbn in E. injection E as <- <-. replace (Datatypes.S h - (length l + 1) + k) with h by lia. split; auto. exists hd. auto.
    + intros G. rewrite I4; [lia|]. intros i Hi. apply G. lia.
    + intros E k Hk. apply orb_false_iff in E as (E1 & E2). destruct (Nat.eq_dec k h) as [->|Ne].
      * exists hd. split; auto.
      * apply I5; auto. lia.
Qed.
Lemma run_edata ord c v : edata (run ord c v) = Some (fst (own ord c v)).
Proof. unfold DynWakes_Model.run, calc_wakes. destruct (past c c v (eupd (v c))) as [[l ups] b]. reflexivity. Qed.
Lemma run_eupd ord c v : SInv v -> c < length ns -> forall i u, eupd (run ord c v) i = Some u -> i < c /\ exists d, edata (v i) = Some d /\ UInv c i d u.
Proof.
  intros S Hc i u. unfold DynWakes_Model.run, calc_wakes. pose proof (past_inv c v S Hc c (eupd (v c)) ltac:(lia)) as P.
  destruct (past c c v (eupd (v c))) as [[l ups] b]. cbn [fst snd eupd]. apply P.
  intros j w E. destruct (proj2 S c j w E) as ((H1 & H2) & d & E' & U). split; auto. exists d. auto.
Qed.

Lemma history_inv l : history M L dt wind rotor ns l ->
  forall s l', l = s :: l' -> SInv s /\ forall v, In v l -> SInv v /\ below v s.
Proof.
  induction 1 as [|s l v c ord H IH Hv Hc E|s l c h H IH]; intros s' l' El; injection El as <- <-.
  - assert (S : SInv empty) by (split; intros; discriminate). split; auto. intros v [<-|[]]. split; auto. apply below_refl.
  - specialize (IH s l eq_refl). destruct IH as (Ss & IH). destruct (IH v Hv) as (Sv & Bv).
    destruct (own_inv ord c v Sv Hc) as (O1 & O2).
    assert (B : below s (set s c (run ord c v))).
    { intros h d Ed. unfold set. destruct (Nat.eqb_spec h c) as [->|]; [|exists d; split; auto; apply grows_refl].
      rewrite run_edata. exists (fst (own ord c v)). split; auto. apply O2. congruence. }
    assert (Su : forall d h u, UInv h c d u -> forall e, edata (s c) = Some e -> True) by auto.
    assert (S' : SInv (set s c (run ord c v))).
    { split.
      - intros h d Hh Ed. unfold set in Ed. destruct (Nat.eqb_spec h c) as [->|]; [|apply (proj1 Ss); auto].
        rewrite run_edata in Ed. injection Ed as <-. exact O1.
      - intros j h u Eu. unfold set in Eu. destruct (Nat.eqb_spec j c) as [->|].
        + destruct (run_eupd ord c v Sv Hc h u Eu) as (Hh & d & Ed & U). split; [lia|].
          destruct (Bv h d Ed) as (d' & Ed' & G). exists d'. split; [|eapply UInv_mono; eauto].
          unfold set. destruct (Nat.eqb_spec h c); [lia|auto].
        + destruct (proj2 Ss j h u Eu) as (Hh & d & Ed & U). split; auto. destruct (B h d Ed) as (d' & Ed' & G). exists d'.
          split; auto. eapply UInv_mono; eauto. }
    split; auto. intros w [<-|Hw]; [split; auto; apply below_refl|]. destruct (IH w Hw) as (Sw & Bw). split; auto. eapply below_trans; eauto.
  - specialize (IH s l eq_refl). destruct IH as (Ss & IH).
    assert (Ed : forall i, edata (drop s c h i) = edata (s i)) by (intros i; unfold drop, set; destruct (Nat.eqb_spec i c) as [->|]; reflexivity).
    assert (B : below s (drop s c h)) by (intros i d E; rewrite Ed; exists d; split; auto; apply grows_refl).
    assert (S' : SInv (drop s c h)).
    { split.
      - intros i d Hi E. rewrite Ed in E. now apply (proj1 Ss).
      - intros j i u Eu. assert (Eu' : eupd (s j) i = Some u).
        { unfold drop, set in Eu. destruct (Nat.eqb_spec j c) as [->|]; auto. cbn [eupd] in Eu. destruct (i =? h); [discriminate|auto]. }
        rewrite Ed. now apply (proj2 Ss). }
    split; auto. intros w [<-|Hw]; [split; auto; apply below_refl|]. destruct (IH w Hw) as (Sw & Bw). split; auto. eapply below_trans; eauto.
Qed.

(** *** the wake data that are used *)
Definition tabs_ok (f : nat) (l : list (nat * table)) := forall k n t, nth_error l k = Some (n, t) -> n = size (f + k) /\ sound (off (f + k)) n t.
Lemma concat_sound : forall l f s a x, tabs_ok f l -> concat_tabs l s a = Some x -> a < M /\ x = pt (off f + s) a.
Proof.
  induction l as [|(n, t) l IH]; intros f s a x T E; cbn [concat_tabs] in E; [discriminate|].
  destruct (T 0 n t eq_refl) as (E1 & E2). rewrite Nat.add_0_r in *. destruct (Nat.ltb_spec s n) as [G|G].
  - now apply E2.
  - destruct (IH (S f) (s - n) a x) as (H1 & H2); auto.
    + intros k n' t' Ek. replace (S f + k) with (f + S k) by lia. now apply T.
    + split; auto. rewrite H2. f_equal. rewrite off_S. lia.
Qed.
Lemma calc_tabs ord c v : SInv v -> c < length ns ->
  let l := fst (fst (calc_wakes M L dt wind rotor ns ord c v)) in
  1 <= length l <= S c /\
  (forall k n t, nth_error l k = Some (n, t) -> n = size (S c - length l + k) /\ DInv (S c - length l + k) t /\
     forall d, edata (v (S c - length l + k)) = Some d -> grows n d t) /\
  ((forall i, i < c -> edata (v i) <> None) -> length l = S c).
Proof.
  intros S Hc. unfold calc_wakes. pose proof (past_inv c v S Hc c (eupd (v c)) ltac:(lia)) as P.
  destruct (own_inv ord c v S Hc) as (O1 & O2).
  destruct (past c c v (eupd (v c))) as [[l ups] b]. destruct P as (_ & P2 & P3 & P4 & _).
  { intros j w E. destruct (proj2 S c j w E) as ((H1 & H2) & d & E' & U). split; auto. exists d. auto. }
  cbn [fst]. rewrite app_length. cbn [length]. split; [lia|]. split.
  - intros k n t E. destruct (Nat.lt_ge_cases k (length l)) as [G|G].
    + rewrite nth_error_app1 in E by auto. replace (Datatypes.S c - (length l + 1) + k) with (c - length l + k) by lia.
      destruct (P3 k n t E) as (-> & d & Ed & ->). split; auto.
      assert (D : DInv (c - length l + k) d) by (apply (proj1 S); auto; lia).
      destruct (DInv_continued c (c - length l + k) d ltac:(lia) D) as (U & G' & Em). split.
      * eapply DInv_ext; [|apply (DInv_merge c); eauto; lia]. intros s a Hs. symmetry. now apply Em.
      * intros d' Ed'. rewrite Ed in Ed'. injection Ed' as <-. exact G'.
    + rewrite nth_error_app2 in E by auto. destruct (k - length l) as [|m] eqn:Ek; [|destruct m; discriminate].
      cbn in E. injection E as <- <-. replace (Datatypes.S c - (length l + 1) + k) with c by lia. auto.
  - intros G. rewrite P4 by auto. lia.
Qed.
Theorem wdata_sound : forall s l, history M L dt wind rotor ns (s :: l) -> forall ord c i a p q, c < length ns ->
  wdata M L dt wind rotor ns ord c s i a = Some (p, q) ->
  a < M /\ p = traj (wi0 M L dt wind rotor ns ord c s + i) a /\ q = tlen (wi0 M L dt wind rotor ns ord c s + i) a.
Proof.
  intros s l H ord c i a p q Hc E. destruct (history_inv _ H s l eq_refl) as (S & _).
  destruct (calc_tabs ord c s S Hc) as (H1 & H2 & _). unfold wdata in E. unfold wi0. set (t := fst (fst _)) in *.
  destruct (concat_sound t (Datatypes.S c - length t) i a (p, q)) as (G1 & G2); auto.
  - intros k n t' Ek. destruct (H2 k n t' Ek) as (-> & D & _). split; auto. apply D.
  - unfold pt in G2. injection G2 as -> ->. auto.
Qed.

(** *** completeness when convergence is not blocked *)
Lemma news_false n d u s a : news M n d u = false -> s < n -> a < M -> d s a = None -> u s a = None.
Proof using M. clear HM.
  intros H Hs Ha E. unfold news in H. destruct (u s a) eqn:Eu; auto. exfalso.
  assert (T : existsb (fun s => existsb (fun a => negb (known d s a) && known u s a) (seq 0 M)) (seq 0 n) = true).
  { apply existsb_exists. exists s. split; [apply in_seq; lia|]. apply existsb_exists. exists a. split; [apply in_seq; lia|].
    unfold known. now rewrite E, Eu. }
  congruence.
Qed.
Lemma quiet_data ord s : SInv s -> (forall c, c < length ns -> blocked M L dt wind rotor ns ord c s = false) ->
  forall c, c < length ns -> exists d, edata (s c) = Some d.
Proof.
  intros S H c Hc. specialize (H c Hc). unfold blocked, calc_wakes in H.
  destruct (past c c s (eupd (s c))) as [[l ups] b]. cbn [snd] in H. apply orb_false_iff in H as (H & _).
  destruct (edata (s c)) as [d|] eqn:E; [eauto|]. exfalso.
  destruct (apply_updates_inv ord c s S Hc (start_data M L dt wind rotor ns c, true)) as (_ & _ & T).
  - apply DInv_start.
  - intros d' E'. rewrite E in E'. discriminate.
  - unfold DynWakes_Model.own in H. rewrite E in H. rewrite T in H; [discriminate|reflexivity].
Qed.
Lemma quiet_starts ord s : SInv s -> (forall c, c < length ns -> blocked M L dt wind rotor ns ord c s = false) ->
  forall h c d i, h < c < length ns -> edata (s h) = Some d -> i < size h -> starts c h d i = false.
Proof.
  intros S H h c d i Hc Ed Hi. pose proof (quiet_data ord s S H) as QD. pose proof (H c ltac:(lia)) as Hb.
  unfold blocked, calc_wakes in Hb. pose proof (past_inv c s S ltac:(lia) c (eupd (s c)) ltac:(lia)) as P.
  destruct (past c c s (eupd (s c))) as [[l ups] b]. cbn [snd] in Hb. apply orb_false_iff in Hb as (_ & ->).
  destruct P as (_ & _ & _ & P4 & P5).
  { intros j w E. destruct (proj2 S c j w E) as ((H1 & H2) & d' & E' & U). split; auto. exists d'. auto. }
  rewrite P4 in P5 by (intros k Hk; destruct (QD k ltac:(lia)) as (d' & ->); discriminate).
  destruct (P5 eq_refl h ltac:(lia)) as (d' & Ed' & N). rewrite Ed in Ed'. injection Ed' as <-.
  destruct (starts c h d i) eqn:Es; auto. exfalso.
  assert (D : DInv h d) by (apply (proj1 S); auto; lia).
  apply starts_true in Es as F; auto; [|apply D]. destruct F as (F1 & F2 & F3 & F4). pose proof (size_pos c ltac:(lia)).
  pose proof (news_false _ _ _ i (Datatypes.S (a0 c h i)) N Hi ltac:(lia) F3) as C.
  rewrite continued_spec in C by (auto; apply D). rewrite Es in C.
  destruct (Nat.ltb_spec (a0 c h i) (Datatypes.S (a0 c h i))); [|lia]. destruct (Nat.leb_spec (Datatypes.S (a0 c h i)) (a0 c h i + size c)); [|lia].
  destruct (Nat.leb_spec (Datatypes.S (a0 c h i)) (M - 1)); [|lia]. discriminate.
Qed.
Lemma quiet_known ord s : SInv s -> (forall c, c < length ns -> blocked M L dt wind rotor ns ord c s = false) ->
  forall h d i, h < length ns -> edata (s h) = Some d -> i < size h ->
  forall a, a < M -> off h + i + a <= off (length ns) -> (a = 0 \/ (tlen (off h + i) (a - 1) < L)%R) -> kn d i a.
Proof.
  intros S H h d i Hh Ed Hi. pose proof (proj1 S h d Hh Ed) as D. pose proof D as (D1 & D2 & D3 & D4 & D5).
  induction a as [|a IH]; intros Ha Hn Hl; [auto|]. destruct Hl as [Hl|Hl]; [discriminate|]. replace (Datatypes.S a - 1) with a in Hl by lia.
  assert (K : kn d i a).
  { apply IH; try lia. destruct a as [|a]; [now left|]. right. replace (Datatypes.S a - 1) with a by lia.
    pose proof (tlen_mono (off h + i) a (Datatypes.S a) ltac:(lia)). lra. }
  destruct (Nat.lt_ge_cases (i + a) (size h)) as [G|G]; [now apply D4|].
  destruct (find_chunk (off h + i + a)) as (c & Hc & Hc2); [lia|].
  assert (Hhc : h < c).
  { destruct (Nat.lt_ge_cases h c) as [|B]; auto. pose proof (off_mono c h B). destruct (Nat.eq_dec c h) as [->|Ne]; [lia|].
    pose proof (off_lt c h ltac:(lia)). lia. }
  pose proof (off_lt h c Hhc) as Ho. unfold a0 in *.
  destruct (Nat.eq_dec (off h + i + a) (off c)) as [Eq|Ne].
  - assert (Ea : a = a0 c h i) by (unfold a0; lia). destruct (kn_dec d i (Datatypes.S a)) as [K'|K']; auto. exfalso.
    assert (starts c h d i = true) by (apply starts_true; auto; rewrite <- Ea; repeat split; auto; [lia|lra]).
    rewrite (quiet_starts ord s S H h c d i) in H0; auto. discriminate.
  - assert (Kb : kn d i (Datatypes.S (a0 c h i))).
    { destruct (kn_dec d i (Datatypes.S (a0 c h i))) as [K'|K']; auto. exfalso. apply K.
      apply (cont_none d h D i _ a Hi K'). unfold a0. lia. }
    replace (Datatypes.S a) with (a0 c h i + (Datatypes.S a - a0 c h i)) by (unfold a0; lia).
    apply (proj2 (D5 c i ltac:(lia) Hi Kb)); unfold a0; lia.
Qed.

Lemma concat_known : forall l f i a h, (forall k n t, nth_error l k = Some (n, t) -> n = size (f + k)) ->
  f <= h < f + length l -> i < size h -> exists t, nth_error l (h - f) = Some (size h, t) /\ concat_tabs l (off h + i - off f) a = t i a.
Proof using ns. clear HM.
  induction l as [|(n, t) l IH]; intros f i a h T Hh Hi; cbn [length] in Hh; [lia|].
  pose proof (T 0 n t eq_refl) as E. rewrite Nat.add_0_r in E. cbn [concat_tabs].
  destruct (Nat.eq_dec f h) as [->|Ne].
  - rewrite Nat.sub_diag. exists t. split; [cbn; congruence|]. replace (off h + i - off h) with i by lia. destruct (Nat.ltb_spec i n); [auto|lia].
  - destruct (IH (S f) i a h) as (t' & H1 & H2); auto; [|lia|].
    + intros k n' t' Ek. replace (S f + k) with (f + S k) by lia. now apply (T (S k) n' t').
    + exists t'. replace (h - f) with (S (h - S f)) by lia. split; auto. pose proof (off_mono (S f) h ltac:(lia)) as Ho. rewrite off_S in *.
      destruct (Nat.ltb_spec (off h + i - off f) n); [lia|]. rewrite <- H2. f_equal. lia.
Qed.
Theorem wdata_complete : forall s l, history M L dt wind rotor ns (s :: l) -> forall ord,
  (forall c, c < length ns -> blocked M L dt wind rotor ns ord c s = false) ->
  forall c st a, c < length ns -> wi0 M L dt wind rotor ns ord c s = 0 /\ wlen M L dt wind rotor ns ord c s = off (S c) /\
  (st < off (S c) -> a < M -> st + a <= off (length ns) -> (a = 0 \/ (tlen st (a - 1) < L)%R) ->
   wdata M L dt wind rotor ns ord c s st a = Some (traj st a, tlen st a)).
Proof.
  intros s l H ord Q c st a Hc. destruct (history_inv _ H s l eq_refl) as (S & _).
  destruct (calc_tabs ord c s S Hc) as (H1 & H2 & H3). pose proof (quiet_data ord s S Q) as QD.
  unfold wdata, wi0, wlen. set (t := fst (fst _)) in *.
  assert (El : length t = Datatypes.S c) by (apply H3; intros i Hi; destruct (QD i ltac:(lia)) as (d & ->); discriminate).
  rewrite El in *. rewrite Nat.sub_diag in *. split; [reflexivity|]. split.
  { assert (G : forall (tl : list (nat * table)) f, (forall k n t, nth_error tl k = Some (n, t) -> n = size (f + k)) -> off f + fold_right Nat.add 0 (map fst tl) = off (f + length tl)).
    { induction tl as [|(n, t') l0 IH]; intros f T; cbn [map fold_right length fst]; [now rewrite !Nat.add_0_r|].
      pose proof (T 0 n t' eq_refl) as E. rewrite Nat.add_0_r in E. subst n. rewrite Nat.add_assoc, <- off_S.
      replace (f + Datatypes.S (length l0)) with (Datatypes.S f + length l0) by lia. rewrite <- IH; auto.
      intros k n t'' Ek. replace (Datatypes.S f + k) with (f + Datatypes.S k) by lia. now apply (T (Datatypes.S k) n t''). }
    specialize (G t 0). rewrite El in G. cbn [Nat.add] in G. rewrite <- G; [reflexivity|]. intros k n t' Ek. now apply (H2 k n t'). }
  intros Hst Ha Hn Hl.
  assert (Hg : st < off (length ns)). { pose proof (off_mono (Datatypes.S c) (length ns) ltac:(lia)). lia. }
  destruct (find_chunk st Hg) as (h & Hh & Hh2).
  assert (Hhc : h <= c). { destruct (Nat.le_gt_cases h c) as [|B]; auto. pose proof (off_mono (Datatypes.S c) h ltac:(lia)). lia. }
  destruct (concat_known t 0 (st - off h) a h) as (t' & E1 & E2); [|rewrite El; lia|lia|].
  { intros k n t' Ek. now apply (H2 k n t'). }
  replace (off h + (st - off h) - off 0) with st in E2 by (change (off 0) with 0; lia). rewrite E2. rewrite Nat.sub_0_r in E1.
  destruct (H2 h _ _ E1) as (_ & D & G). cbn [Nat.add] in *. destruct (QD h Hh) as (d & Ed).
  assert (K : kn t' (st - off h) a).
  { apply (G d Ed); [lia|]. apply (quiet_known ord s S Q h d (st - off h) Hh Ed); auto; try lia.
    - now replace (off h + (st - off h)) with st by lia. }
  unfold kn in K. destruct (t' (st - off h) a) as [x|] eqn:Ex; [|now elim K].
  destruct D as (D1 & _). destruct (D1 (st - off h) a x ltac:(lia) Ex) as (_ & ->). unfold pt. replace (off h + (st - off h)) with st by lia. reflexivity.
Qed.
End P.
