(** Proofs about dynamic wakes: how many iterations are needed. *)
From Verif Require Import RBase WindDir_Model DynWakes_Model DynWakes_Spec DynWakes_Proofs.
Local Open Scope nat_scope.

Section P.
Variable M : nat.
Variable L : R.
Variable dt : nat -> R.
Variable wind : nat -> vec3 -> R * R.
Variable rotor : nat -> vec3.
Variable ns : list nat.
Hypothesis HM : 1 <= M.
Hypothesis Hns : Forall (fun n => 1 <= n) ns.
Variable ord : list nat.
Hypothesis Hord : forall j, j < length ns -> In j ord.
Notation traj := (traj dt wind rotor).
Notation tlen := (tlen dt wind rotor).
Notation off := (off ns).
Notation size := (size ns).
Notation own := (own M L dt wind rotor ns).
Notation past := (past M L dt wind ns).
Notation run := (run M L dt wind rotor ns).
Notation continued := (continued M L dt wind ns).
Notation iteration := (iteration M L dt wind rotor ns ord).
Notation iterate := (iterate M L dt wind rotor ns ord).
Notation SInv := (SInv M L dt wind rotor ns).
Notation DInv := (DInv M L dt wind rotor ns).
Notation UInv := (UInv M L dt wind rotor ns).
Notation starts := (starts M L ns).
Notation a0 := (a0 ns).

Lemma fold_set (s v : store) : forall n k c, fold_left (fun s' c => set s' c (run ord c s)) (seq k n) v c =
  if (k <=? c) && (c <? k + n) then run ord c s else v c.
Proof.
  induction n as [|n IH] using nat_ind; intros k c.
  - cbn [seq fold_left]. destruct (Nat.leb_spec k c); destruct (Nat.ltb_spec c (k + 0)); cbn [andb]; auto; lia.
  - rewrite seq_S, fold_left_app. cbn [fold_left]. unfold set at 1. rewrite IH.
    destruct (Nat.eqb_spec c (k + n)) as [Ec|Ne]; destruct (Nat.leb_spec k c); destruct (Nat.ltb_spec c (k + n)); destruct (Nat.ltb_spec c (k + S n));
      cbn [andb]; auto; try lia; subst; reflexivity.
Qed.
Lemma iteration_at s c : iteration s c = if c <? length ns then run ord c s else s c.
Proof. unfold DynWakes_Model.iteration. rewrite fold_set. reflexivity. Qed.

Lemma history_fold s l : history M L dt wind rotor ns (s :: l) -> forall n, n <= length ns ->
  exists l', history M L dt wind rotor ns (fold_left (fun s' c => set s' c (run ord c s)) (seq 0 n) s :: l') /\
             In s (fold_left (fun s' c => set s' c (run ord c s)) (seq 0 n) s :: l').
Proof.
  intros H. induction n as [|n IH]; intros Hn.
  - exists l. split; auto. now left.
  - destruct IH as (l' & H1 & H2); [lia|]. rewrite seq_S, fold_left_app. cbn [fold_left Nat.add].
    exists (fold_left (fun s' c => set s' c (run ord c s)) (seq 0 n) s :: l'). split; [|right; exact H2].
    constructor; auto. rewrite fold_set. destruct (Nat.leb_spec 0 n); [|lia]. destruct (Nat.ltb_spec n (0 + n)); [lia|]. reflexivity.
Qed.
Lemma iterate_history t : exists l, history M L dt wind rotor ns (iterate t :: l).
Proof.
  induction t as [|t (l & IH)]; [exists []; constructor|]. cbn [DynWakes_Model.iterate].
  destruct (history_fold _ l IH (length ns)) as (l' & H & _); auto. exists l'. exact H.
Qed.
Lemma iterate_SInv t : SInv (iterate t).
Proof. destruct (iterate_history t) as (l & H). exact (proj1 (history_inv M L dt wind rotor ns HM Hns _ H _ l eq_refl)). Qed.

Lemma apply_kn c v s a : forall o db, kn (fst (apply_updates M ns o c v db)) s a <->
  kn (fst db) s a \/ exists j u, In j o /\ c < j /\ eupd (v j) c = Some u /\ kn u s a.
Proof.
  induction o as [|j o IH]; intros db; cbn [apply_updates fold_left].
  - split; [now left|]. intros [H|(j & u & [] & _)]. exact H.
  - unfold apply_updates in IH. rewrite IH. destruct (Nat.ltb_spec c j) as [Hj|Hj].
    + destruct (eupd (v j) c) as [u|] eqn:Eu.
      * cbn [fst]. rewrite kn_merge. split.
        -- intros [[H|H]|(j' & u' & H1 & H2)]; [now left| |].
           ++ right. exists j, u. split; [now left|]. auto.
           ++ right. exists j', u'. split; [now right|]. auto.
        -- intros [H|(j' & u' & [<-|H1] & H2 & H3 & H4)]; [tauto| |].
           ++ rewrite Eu in H3. injection H3 as <-. tauto.
           ++ right. exists j', u'. auto.
      * split; intros [H|(j' & u' & H1 & H2 & H3 & H4)]; [now left| |now left|].
        -- right. exists j', u'. split; [now right|]. auto.
        -- destruct H1 as [<-|H1]; [congruence|]. right. exists j', u'. auto.
    + split; intros [H|(j' & u' & H1 & H2 & H3 & H4)]; [now left| |now left|].
      * right. exists j', u'. split; [now right|]. auto.
      * destruct H1 as [<-|H1]; [lia|]. right. exists j', u'. auto.
Qed.
Lemma past_ups c v : forall h ups, (forall i, i < h -> exists d, edata (v i) = Some d) -> forall i,
  snd (fst (past c h v ups)) i =
  if i <? h then match edata (v i) with Some d => if news M (size i) d (continued c i d) then Some (diff d (continued c i d)) else ups i | None => None end
  else ups i.
Proof.
  induction h as [|h IH]; intros ups Hd i; [reflexivity|]. cbn [DynWakes_Model.past]. destruct (Hd h ltac:(lia)) as (d & Ed). rewrite Ed.
  set (ups1 := if news M (size h) d (continued c h d) then _ else ups).
  specialize (IH ups1 ltac:(intros; apply Hd; lia) i). destruct (past c h v ups1) as [[l ups2] b]. cbn [fst snd] in *. rewrite IH. unfold ups1.
  destruct (Nat.ltb_spec i h); destruct (Nat.ltb_spec i (S h)); try lia.
  - destruct (edata (v i)); [|reflexivity]. destruct (news M (size i) t (continued c i t)); auto.
    destruct (news M (size h) d (continued c h d)); auto. destruct (Nat.eqb_spec i h); [lia|auto].
  - assert (i = h) by lia. subst i. rewrite Ed. destruct (news M (size h) d (continued c h d)); auto. now rewrite Nat.eqb_refl.
  - destruct (news M (size h) d (continued c h d)); auto. destruct (Nat.eqb_spec i h); [lia|auto].
Qed.
Lemma run_eupd_at c v i : (forall i, i < c -> exists d, edata (v i) = Some d) -> i < c ->
  eupd (run ord c v) i = match edata (v i) with Some d => if news M (size i) d (continued c i d) then Some (diff d (continued c i d)) else eupd (v c) i | None => None end.
Proof.
  intros Hd Hi. unfold DynWakes_Model.run, calc_wakes. pose proof (past_ups c v c (eupd (v c)) Hd i) as P.
  destruct (past c c v (eupd (v c))) as [[l ups] b]. cbn [fst snd eupd] in *. rewrite P. destruct (Nat.ltb_spec i c); [reflexivity|lia].
Qed.

(** everything that has been continued through the chunks h + 1, ..., h + j is in the data of chunk h *)
Definition Done (s : store) (h j : nat) := forall c d i, h < c <= h + j -> c < length ns -> edata (s h) = Some d -> i < size h -> starts c h d i = false.
Lemma starts_ext c h d d' i : DInv h d -> DInv h d' -> i < size h ->
  (kn d i (a0 c h i) <-> kn d' i (a0 c h i)) -> (kn d i (S (a0 c h i)) <-> kn d' i (S (a0 c h i))) -> starts c h d i = starts c h d' i.
Proof.
  intros D D' Hi E1 E2. apply eq_true_iff_eq. rewrite !(starts_true M L dt wind rotor ns) by (auto; first [apply D|apply D']).
  assert (N : forall d, d i (S (a0 c h i)) = None <-> ~ kn d i (S (a0 c h i))).
  { intros e. unfold kn. destruct (e i (S (a0 c h i))); split; [discriminate|intros H; elim H; discriminate|intros _ G; now apply G|reflexivity]. }
  rewrite (N d), (N d'). tauto.
Qed.
Lemma updates_merged s h j : SInv s -> Done s h j -> forall c u d i a, eupd (s c) h = Some u -> c <= h + j -> edata (s h) = Some d -> i < size h ->
  kn u i a -> kn d i a.
Proof.
  intros S D c u d i a Eu Hc Ed Hi K. destruct (proj2 S c h u Eu) as (Hhc & d' & Ed' & U1 & U2). rewrite Ed in Ed'. injection Ed' as <-.
  assert (DI : DInv h d) by (apply (proj1 S); auto; lia). destruct (U2 i a Hi K) as (V1 & V2 & V4 & _).
  assert (Ha : a < M) by (unfold kn in K; destruct (u i a) eqn:E; [apply (U1 i a p Hi E)|now elim K]).
  assert (K' : kn d i (Datatypes.S (a0 c h i))).
  { destruct (kn_dec d i (Datatypes.S (a0 c h i))) as [|N]; auto. exfalso.
    assert (T : starts c h d i = true) by (apply (starts_true M L dt wind rotor ns); auto; [apply DI|]; repeat split; auto; lia).
    rewrite (D c d i) in T; auto; [discriminate| |]; lia. }
  destruct DI as (_ & _ & _ & _ & D5). replace a with (a0 c h i + (a - a0 c h i)) by lia. apply (proj2 (D5 c i Hhc Hi K')); lia.
Qed.
Lemma present t : 1 <= t -> forall c, c < length ns -> exists d, edata (iterate t c) = Some d.
Proof.
  intros Ht c Hc. destruct t as [|t]; [lia|]. cbn [DynWakes_Model.iterate]. rewrite iteration_at. destruct (Nat.ltb_spec c (length ns)); [|lia].
  rewrite run_edata. eauto.
Qed.
(** data after one more iteration *)
Lemma next_data t h d : 1 <= t -> h < length ns -> edata (iterate t h) = Some d -> exists d', edata (iterate (S t) h) = Some d' /\
  forall i a, i < size h -> (kn d' i a <-> kn d i a \/ exists c u, h < c < length ns /\ eupd (iterate t c) h = Some u /\ kn u i a).
Proof.
  intros Ht Hh Ed. cbn [DynWakes_Model.iterate]. rewrite iteration_at. destruct (Nat.ltb_spec h (length ns)); [|lia]. rewrite run_edata.
  exists (fst (own ord h (iterate t))). split; auto. intros i a Hi. unfold DynWakes_Model.own. rewrite Ed, apply_kn. cbn [fst].
  split; intros [K|(c & u & H1)]; [now left| |now left|].
  - right. exists c, u. destruct H1 as (_ & H1 & H2 & H3). pose proof (proj2 (iterate_SInv t) c h u H2) as ((G & G') & _). repeat split; auto.
  - right. exists c, u. destruct H1 as ((H1 & H1') & H2 & H3). split; [now apply Hord|]. auto.
Qed.
Lemma done_stable t h j d d' : 1 <= t -> h < length ns -> Done (iterate t) h j -> edata (iterate t h) = Some d -> edata (iterate (S t) h) = Some d' ->
  forall i a, i < size h -> off h + i + a <= off (h + j + 1) -> (kn d' i a <-> kn d i a).
Proof.
  intros Ht Hh D Ed Ed' i a Hi Ha. destruct (next_data t h d Ht Hh Ed) as (d'' & E & N). rewrite Ed' in E. injection E as <-.
  rewrite N by auto. split; [|now left]. intros [K|(c & u & H1 & H2 & H3)]; auto.
  destruct (Nat.le_gt_cases c (h + j)) as [G|G].
  - apply (updates_merged (iterate t) h j (iterate_SInv t) D c u); auto.
  - exfalso. destruct (proj2 (iterate_SInv t) c h u H2) as (_ & d0 & _ & _ & U2). destruct (U2 i a Hi H3) as (V1 & _). unfold DynWakes_Proofs.a0 in V1.
    pose proof (off_mono ns (h + j + 1) c ltac:(lia)). lia.
Qed.
Lemma done_step t h j : 1 <= t -> h < length ns -> Done (iterate t) h j -> Done (iterate (S t)) h j.
Proof.
  intros Ht Hh D c d' i Hc Hc' Ed' Hi. destruct (present t Ht h Hh) as (d & Ed). rewrite <- (D c d i) by auto.
  pose proof (off_lt ns h c ltac:(lia)). pose proof (off_mono ns (S c) (h + j + 1) ltac:(lia)) as Ho. rewrite off_S in Ho. pose proof (size_pos ns Hns c Hc').
  apply starts_ext; auto; [apply (proj1 (iterate_SInv (S t))); auto|apply (proj1 (iterate_SInv t)); auto| |];
    apply (done_stable t h j d d'); auto; unfold DynWakes_Proofs.a0; lia.
Qed.
Lemma done_two t h j : 1 <= t -> h < length ns -> Done (iterate t) h j -> Done (iterate (S (S t))) h (S j).
Proof.
  intros Ht Hh D. pose proof (done_step t h j Ht Hh D) as D1. pose proof (done_step (S t) h j ltac:(lia) Hh D1) as D2.
  intros c d2 i Hc Hc' Ed2 Hi. destruct (Nat.eq_dec c (h + S j)) as [Ec|Ne]; [|apply D2; auto; lia].
  destruct (present t Ht h Hh) as (d & Ed). destruct (present (S t) ltac:(lia) h Hh) as (d1 & Ed1).
  pose proof (proj1 (iterate_SInv t) h d Hh Ed) as DI. pose proof (proj1 (iterate_SInv (S t)) h d1 Hh Ed1) as DI1.
  pose proof (proj1 (iterate_SInv (S (S t))) h d2 Hh Ed2) as DI2.
  pose proof (off_lt ns h c ltac:(lia)) as Ho. pose proof (size_pos ns Hns c Hc') as Hp.
  assert (Ha0 : kn d2 i (a0 c h i) <-> kn d i (a0 c h i)).
  { rewrite (done_stable (S t) h j d1 d2), (done_stable t h j d d1) by (auto; try lia; unfold DynWakes_Proofs.a0; replace (h + j + 1) with c by lia; lia). tauto. }
  destruct (next_data t h d Ht Hh Ed) as (d1' & E1 & N1). rewrite Ed1 in E1. injection E1 as <-.
  destruct (next_data (S t) h d1 ltac:(lia) Hh Ed1) as (d2' & E2 & N2). rewrite Ed2 in E2. injection E2 as <-.
  destruct (starts c h d2 i) eqn:Es; auto. exfalso. apply (starts_true M L dt wind rotor ns) in Es; auto; [|apply DI2].
  destruct Es as (F1 & F2 & F3 & F4).
  assert (NK : ~ kn d2 i (S (a0 c h i))) by (unfold kn; rewrite F3; auto).
  assert (Nd : d i (S (a0 c h i)) = None).
  { destruct (kn_dec d i (S (a0 c h i))) as [K|]; auto. elim NK. apply N2; auto. left. apply N1; auto. }
  assert (Es : starts c h d i = true) by (apply (starts_true M L dt wind rotor ns); auto; [apply DI|]; repeat split; auto; now apply Ha0).
  assert (Kc : kn (continued c h d) i (S (a0 c h i))).
  { unfold kn. rewrite (continued_spec M L dt wind rotor ns HM Hns c h d) by (auto; first [apply DI|lia]). rewrite Es.
    destruct (Nat.ltb_spec (a0 c h i) (S (a0 c h i))); [|lia]. destruct (Nat.leb_spec (S (a0 c h i)) (a0 c h i + size c)); [|lia].
    destruct (Nat.leb_spec (S (a0 c h i)) (M - 1)); [|lia]. discriminate. }
  assert (Nw : news M (size h) d (continued c h d) = true).
  { destruct (news M (size h) d (continued c h d)) eqn:E; auto. exfalso. apply Kc.
    apply (news_false M (size h) d _ i (S (a0 c h i)) E); auto. lia. }
  assert (Eu : eupd (iterate (S t) c) h = Some (diff d (continued c h d))).
  { cbn [DynWakes_Model.iterate]. rewrite iteration_at. destruct (Nat.ltb_spec c (length ns)); [|lia].
    rewrite run_eupd_at, Ed, Nw; [reflexivity| |lia]. intros k Hk. apply present; auto. lia. }
  apply NK. apply N2; auto. right. exists c, (diff d (continued c h d)). split; [lia|]. split; auto.
  unfold kn, diff. rewrite Nd. exact Kc.
Qed.
Lemma done_all : forall j t h, h < length ns -> 1 + 2 * j <= t -> Done (iterate t) h j.
Proof.
  assert (St : forall k t h j, 1 <= t -> h < length ns -> Done (iterate t) h j -> Done (iterate (k + t)) h j).
  { induction k as [|k IH]; intros t h j Ht Hh D; auto. cbn [Nat.add]. apply done_step; auto. lia. }
  assert (B : forall j h, h < length ns -> Done (iterate (1 + 2 * j)) h j).
  { induction j as [|j IH]; intros h Hh; [intros c d i Hc; lia|]. replace (1 + 2 * S j) with (S (S (1 + 2 * j))) by lia. apply done_two; auto. lia. }
  intros j t h Hh Ht. replace t with (t - (1 + 2 * j) + (1 + 2 * j)) by lia. apply St; auto. lia.
Qed.
Lemma past_quiet c v : forall h ups, (forall i d, i < h -> edata (v i) = Some d -> news M (size i) d (continued c i d) = false) -> snd (past c h v ups) = false.
Proof.
  induction h as [|h IH]; intros ups H; [reflexivity|]. cbn [DynWakes_Model.past]. destruct (edata (v h)) as [d|] eqn:Ed; [|reflexivity].
  rewrite (H h d) by (auto; lia). specialize (IH ups ltac:(intros; apply H; auto; lia)). destruct (past c h v ups) as [[l u] b]. cbn [snd] in *. exact IH.
Qed.
Lemma updates_quiet c v : forall o d, (forall j u s a, c < j -> eupd (v j) c = Some u -> s < size c -> kn u s a -> kn d s a) ->
  snd (apply_updates M ns o c v (d, false)) = false.
Proof.
  induction o as [|j o IH]; intros d H; [reflexivity|]. cbn [apply_updates fold_left]. unfold apply_updates in IH.
  destruct (Nat.ltb_spec c j) as [Hj|]; [|now apply IH]. destruct (eupd (v j) c) as [u|] eqn:Eu; [|now apply IH]. cbn [fst snd orb].
  assert (N : news M (size c) d u = false).
  { destruct (news M (size c) d u) eqn:E; auto. exfalso. unfold news in E. apply existsb_exists in E as (s & Hs & E). apply in_seq in Hs.
    apply existsb_exists in E as (a & _ & E). apply andb_true_iff in E as (E1 & E2). unfold known in E1, E2.
    assert (K : kn d s a) by (apply (H j u s a); auto; [lia|]; unfold kn; destruct (u s a); [discriminate|discriminate]).
    unfold kn in K. destruct (d s a); [discriminate|now elim K]. }
  rewrite N. apply IH. intros j' u' s a H1 H2 H3 H4. apply kn_merge. left. eauto.
Qed.
Theorem settles : forall t, 2 * length ns - 1 <= t -> 1 <= t -> forall c, c < length ns -> blocked M L dt wind rotor ns ord c (iterate t) = false.
Proof.
  intros t Ht Ht1 c Hc. set (v := iterate t). pose proof (iterate_SInv t : SInv v) as S.
  assert (D : forall h, h < length ns -> Done v h (length ns - 1 - h)) by (intros h Hh; apply done_all; auto; lia).
  unfold blocked, calc_wakes.
  assert (P : snd (past c c v (eupd (v c))) = false).
  { apply past_quiet. intros h d Hh Ed. destruct (news M (size h) d (continued c h d)) eqn:E; auto. exfalso.
    unfold news in E. apply existsb_exists in E as (s & Hs & E). apply in_seq in Hs.
    apply existsb_exists in E as (a & _ & E). apply andb_true_iff in E as (E1 & E2). unfold known in E1, E2.
    rewrite (continued_spec M L dt wind rotor ns HM Hns c h d) in E2; [|apply (proj1 S); auto; lia|lia|lia].
    rewrite (D h ltac:(lia) c d s) in E2 by (auto; lia). cbn [andb] in E2. destruct (d s a); discriminate. }
  destruct (past c c v (eupd (v c))) as [[l ups] b]. cbn [snd] in *. subst b. rewrite orb_false_r.
  unfold DynWakes_Model.own. destruct (present t Ht1 c Hc) as (d & Ed). fold v in Ed. rewrite Ed. apply updates_quiet.
  intros j u s a Hj Eu Hs K. destruct (proj2 S j c u Eu) as ((_ & Hj') & _).
  apply (updates_merged v c (length ns - 1 - c) S (D c Hc) j u d); auto. lia.
Qed.

(** *** the other direction: what cannot be known yet *)
Lemma slow t : 
  (forall h d i a, h < length ns -> edata (iterate (S t) h) = Some d -> i < size h -> kn d i a -> off h + i + a <= off (h + 1 + Nat.div2 t)) /\
  (forall c h u i a, eupd (iterate (S t) c) h = Some u -> i < size h -> kn u i a -> c <= h + 1 + Nat.div2 (t - 1) /\ 1 <= t).
Proof.
  induction t as [|t (IH1 & IH2)].
  - split.
    + intros h d i a Hh Ed Hi K. cbn [DynWakes_Model.iterate] in Ed. rewrite iteration_at in Ed. destruct (Nat.ltb_spec h (length ns)); [|lia].
      rewrite run_edata in Ed. injection Ed as <-. unfold DynWakes_Model.own in K. cbn [DynWakes_Model.iterate empty edata] in K.
      apply apply_kn in K. cbn [fst] in K. destruct K as [K|(j & u & _ & _ & E & _)]; [|discriminate].
      destruct (start_data_spec M L dt wind rotor ns HM h) as (B & _ & E & _). unfold kn in K. rewrite E in K. unfold Dcol in K.
      cbn [Nat.div2]. replace (h + 1 + 0) with (S h) by lia. rewrite off_S.
      destruct (Nat.ltb_spec i (size h)); [|lia]. destruct (Nat.leb_spec (i + a) (size h)); [lia|]. rewrite andb_false_r in K. now elim K.
    + intros c h u i a Eu _ _. exfalso. cbn [DynWakes_Model.iterate] in Eu. rewrite iteration_at in Eu. destruct (Nat.ltb_spec c (length ns)); [|discriminate].
      pose proof (run_eupd M L dt wind rotor ns HM Hns ord c empty) as G. 
      assert (Se : SInv empty) by (split; intros; discriminate).
      destruct (G Se ltac:(lia) h u Eu) as (_ & d & Ed & _). discriminate.
  - assert (U : forall c h u i a, eupd (iterate (S (S t)) c) h = Some u -> i < size h -> kn u i a -> c <= h + 1 + Nat.div2 t).
    { intros c h u i a Eu Hi K. destruct (proj2 (iterate_SInv (S (S t))) c h u Eu) as (Hc & _).
      pose proof Eu as Eu'.
      change (iterate (S (S t))) with (iteration (iterate (S t))) in Eu'. rewrite iteration_at in Eu'. destruct (Nat.ltb_spec c (length ns)); [|lia].
      rewrite run_eupd_at in Eu' by (try lia; intros k Hk; apply present; lia). destruct (present (S t) ltac:(lia) h ltac:(lia)) as (d & Ed). rewrite Ed in Eu'.
      destruct (news M (size h) d (continued c h d)).
      - injection Eu' as <-. pose proof (proj1 (iterate_SInv (S t)) h d ltac:(lia) Ed) as DI.
        destruct (DInv_continued M L dt wind rotor ns HM Hns c h d Hc DI) as ((_ & U2) & _ & _). destruct (U2 i a Hi K) as (_ & V2 & _).
        pose proof (IH1 h d i _ ltac:(lia) Ed Hi V2) as B. unfold DynWakes_Proofs.a0 in B. pose proof (off_lt ns h c ltac:(lia)).
        destruct (Nat.le_gt_cases c (h + 1 + Nat.div2 t)) as [|G]; auto. exfalso.
        pose proof (off_lt ns (h + 1 + Nat.div2 t) c G). pose proof (size_pos ns Hns (h + 1 + Nat.div2 t) ltac:(lia)). lia.
      - destruct (IH2 c h u i a Eu' Hi K) as (H1 & H2). assert (Nat.div2 (t - 1) <= Nat.div2 t); [|lia].
        rewrite !Nat.div2_div. apply Nat.div_le_mono; lia. }
    split.
    + intros h d' i a Hh Ed' Hi K. destruct (present (S t) ltac:(lia) h Hh) as (d & Ed). destruct (next_data (S t) h d ltac:(lia) Hh Ed) as (d'' & E & N).
      rewrite Ed' in E. injection E as <-. apply N in K; auto.
      assert (Mo : Nat.div2 t <= Nat.div2 (S t)) by (rewrite !Nat.div2_div; apply Nat.div_le_mono; lia).
      destruct K as [K|(c & u & Hc & Eu & K)].
      * pose proof (IH1 h d i a Hh Ed Hi K). pose proof (off_mono ns (h + 1 + Nat.div2 t) (h + 1 + Nat.div2 (S t)) ltac:(lia)). lia.
      * destruct (IH2 c h u i a Eu Hi K) as (B & Bt). destruct (proj2 (iterate_SInv (S t)) c h u Eu) as (_ & d0 & _ & _ & U2).
        destruct (U2 i a Hi K) as (V1 & _). unfold DynWakes_Proofs.a0 in V1. pose proof (off_lt ns h c ltac:(lia)).
        assert (Es : Nat.div2 (S t) = S (Nat.div2 (t - 1))) by (destruct t as [|t]; [lia|]; replace (S t - 1) with t by lia; reflexivity).
        pose proof (off_mono ns (S c) (h + 1 + Nat.div2 (S t)) ltac:(lia)) as Ho. rewrite off_S in Ho. lia.
    + intros c h u i a Eu Hi K. split; [|lia]. replace (S t - 1) with t by lia. eapply U; eauto.
Qed.
(** in the t-th iteration, chunk c sees no wake points of chunk h beyond its own begin if c - h > t / 2 *)
Theorem slow_wdata : forall t c i a, c < length ns -> 1 <= t ->
  kn (wdata M L dt wind rotor ns ord c (iterate t)) i a ->
  forall h, h < c -> off h <= wi0 M L dt wind rotor ns ord c (iterate t) + i < off (S h) -> h + 1 + Nat.div2 (t - 1) < c ->
  wi0 M L dt wind rotor ns ord c (iterate t) + i + a < off c.
Proof.
  intros t c i a Hc Ht K h Hh Hi Hlt. destruct t as [|t]; [lia|]. replace (S t - 1) with t in Hlt by lia.
  pose proof (iterate_SInv (S t)) as S. set (v := iterate (Datatypes.S t)) in *.
  assert (Pr : forall k, k < length ns -> exists d, edata (v k) = Some d) by (intros; apply present; auto; lia).
  unfold wdata, wi0 in *. set (tb := fst (fst (calc_wakes M L dt wind rotor ns ord c v))) in *.
  destruct (calc_tabs M L dt wind rotor ns HM Hns ord c v S Hc) as (H1 & H2 & H3). fold tb in H1, H2, H3.
  assert (El : length tb = Datatypes.S c) by (apply H3; intros k Hk; destruct (Pr k ltac:(lia)) as (d & ->); discriminate).
  rewrite El in *. rewrite Nat.sub_diag in *. change (off 0) with 0 in *. cbn [Nat.add] in *.
  assert (Tb : forall k n t', nth_error tb k = Some (n, t') -> n = size (0 + k)) by (intros k n t' Ek; now apply (H2 k n t')).
  rewrite off_S in Hi.
  destruct (concat_known ns tb 0 (i - off h) a h Tb ltac:(rewrite El; lia) ltac:(lia)) as (t' & E1 & E2).
  change (off 0) with 0 in E2. replace (off h + (i - off h) - 0) with i in E2 by lia. unfold kn in K. rewrite E2 in K. rewrite Nat.sub_0_r in E1.
  assert (Et : exists d, edata (v h) = Some d /\ t' = continued c h d).
  { unfold tb, calc_wakes in E1. pose proof (past_inv M L dt wind rotor ns HM Hns c v S Hc c (eupd (v c)) ltac:(lia)) as P.
    destruct (past c c v (eupd (v c))) as [[l ups] b] eqn:Ep. destruct P as (_ & P2 & P3 & P4 & _).
    { intros j w E. destruct (proj2 S c j w E) as ((G1 & G2) & d & E' & U). split; auto. exists d. auto. }
    cbn [fst] in E1. assert (Ll : length l = c) by (apply P4; intros k Hk; destruct (Pr k ltac:(lia)) as (d & ->); discriminate).
    rewrite nth_error_app1 in E1 by lia. destruct (P3 h _ _ E1) as (_ & d & Ed & ->). rewrite Ll, Nat.sub_diag in *. cbn [Nat.add] in *. exists d. auto. }
  destruct Et as (d & Ed & ->). pose proof (proj1 S h d ltac:(lia) Ed) as DI.
  assert (Kd : forall b, kn d (i - off h) b -> off h + (i - off h) + b < off c).
  { intros b Kb. pose proof (proj1 (slow t) h d (i - off h) b ltac:(lia) Ed ltac:(lia) Kb) as B.
    pose proof (off_lt ns (h + 1 + Nat.div2 t) c Hlt). pose proof (size_pos ns Hns (h + 1 + Nat.div2 t) ltac:(lia)). lia. }
  assert (Kda : kn d (i - off h) a).
  { unfold kn. rewrite (continued_spec M L dt wind rotor ns HM Hns c h d) in K; [|apply DI|lia|lia].
    destruct (starts c h d (i - off h)) eqn:Es; [|exact K]. exfalso.
    apply (starts_true M L dt wind rotor ns) in Es; [|apply DI|lia]. destruct Es as (_ & G & _). apply Kd in G.
    unfold DynWakes_Proofs.a0 in G. pose proof (off_lt ns h c Hh). lia. }
  specialize (Kd a Kda). lia.
Qed.
End P.
