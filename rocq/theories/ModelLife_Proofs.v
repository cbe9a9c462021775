From Verif Require Import Base ModelLife_Model ModelLife_Spec.

Section P.
  Context {V : Type}.
  Variable subs : nat -> list nat.
  Variable name : nat -> nat.
  Hypothesis Hac : acyclic subs.
  Hypothesis Hinj : injective name.
  Notation mst := (@mst V).

  Lemma upd_same {A} (f : nat -> A) i a : upd f i a i = a.
  Proof. unfold upd. now rewrite Nat.eqb_refl. Qed.
  Lemma upd_other {A} (f : nat -> A) i j a : j <> i -> upd f i a j = f j.
  Proof. unfold upd. intros H. destruct (Nat.eqb_spec j i); congruence. Qed.

  (** ** set_running *)
  Record set_post (i : nat) (s s' : mst) : Prop := {
    sp_desc : forall j, desc subs i j -> running s' j = true;
    sp_old : forall j, running s j = true -> running s' j = true /\ data s' j = data s j /\ stash s' (name j) = stash s (name j);
    sp_new : forall j, running s' j = true -> running s j = false ->
       desc subs i j /\ data s' j = None /\ stash s' (name j) = Some (data s j);
    sp_not : forall j, running s' j = false -> data s' j = data s j;
    sp_init : inited s' = inited s;
    sp_down : down_closed subs (running s')
  }.

  (** the same for a list of models, all of which are set *)
  Record set_posts (l : list nat) (s s' : mst) : Prop := {
    sps_desc : forall m j, In m l -> desc subs m j -> running s' j = true;
    sps_old : forall j, running s j = true -> running s' j = true /\ data s' j = data s j /\ stash s' (name j) = stash s (name j);
    sps_new : forall j, running s' j = true -> running s j = false ->
       (exists m, In m l /\ desc subs m j) /\ data s' j = None /\ stash s' (name j) = Some (data s j);
    sps_not : forall j, running s' j = false -> data s' j = data s j;
    sps_init : inited s' = inited s;
    sps_down : down_closed subs (running s')
  }.

  Lemma down_closed_desc flag i j : down_closed subs flag -> flag i = true -> desc subs i j -> flag j = true.
  Proof. intros Hd Hi H. induction H; [exact Hi|]. apply IHdesc. eapply Hd; eauto. Qed.

  Lemma set_posts_nil s : down_closed subs (running s) -> set_posts [] s s.
  Proof. intros H. constructor; auto; try (intros; contradiction). intros j H1 H2; congruence. Qed.

  Lemma set_posts_cons m l s s1 s2 :
    set_post m s s1 -> set_posts l s1 s2 -> set_posts (m :: l) s s2.
  Proof.
    intros A B. constructor.
    - intros m' j [<-|Hin] Hd.
      + apply (sps_old _ _ _ B). now apply (sp_desc _ _ _ A).
      + eapply (sps_desc _ _ _ B); eauto.
    - intros j Hj. destruct (sp_old _ _ _ A j Hj) as (A1 & A2 & A3).
      destruct (sps_old _ _ _ B j A1) as (B1 & B2 & B3). repeat split; congruence.
    - intros j H2 H0. destruct (running s1 j) eqn:E1.
      + destruct (sp_new _ _ _ A j E1 H0) as (A1 & A2 & A3).
        destruct (sps_old _ _ _ B j E1) as (B1 & B2 & B3).
        split; [exists m; split; [now left|exact A1]|]. split; congruence.
      + destruct (sps_new _ _ _ B j H2 E1) as ((m' & Hm' & Hd) & B2 & B3).
        split; [exists m'; split; [now right|exact Hd]|]. split; [exact B2|].
        rewrite B3. f_equal. now apply (sp_not _ _ _ A).
    - intros j H2. destruct (running s1 j) eqn:E1.
      + destruct (sps_old _ _ _ B j E1) as (B1 & _). congruence.
      + rewrite (sps_not _ _ _ B j H2). now apply (sp_not _ _ _ A).
    - rewrite (sps_init _ _ _ B). apply (sp_init _ _ _ A).
    - apply (sps_down _ _ _ B).
  Qed.

  Lemma set_posts_skip m l s s2 :
    running s m = true -> down_closed subs (running s) -> set_posts l s s2 -> set_posts (m :: l) s s2.
  Proof.
    intros Hm Hd B. constructor; try apply B.
    - intros m' j [<-|Hin] Hj; [|eapply (sps_desc _ _ _ B); eauto].
      apply (sps_old _ _ _ B). eapply down_closed_desc; eauto.
    - intros j H2 H0. destruct (sps_new _ _ _ B j H2 H0) as ((m' & Hm' & Hj) & B2).
      split; [exists m'; split; [now right|exact Hj]|exact B2].
  Qed.

  Lemma foreach_set f l s :
    (forall s m, In m l -> down_closed subs (running s) -> running s m = false ->
       exists s', set_running subs name f s m = (s', Ok tt) /\ set_post m s s') ->
    down_closed subs (running s) ->
    exists s', foreach (fun s m => if running s m then (s, Ok tt) else set_running subs name f s m) l s = (s', Ok tt)
      /\ set_posts l s s'.
  Proof.
    revert s; induction l as [|m l IH]; intros s Hf Hd.
    - exists s. split; [reflexivity|now apply set_posts_nil].
    - cbn [foreach]. destruct (running s m) eqn:E.
      + destruct (IH s) as (s' & E' & P); auto. { intros; apply Hf; auto. now right. }
        exists s'. split; [exact E'|]. now apply set_posts_skip.
      + destruct (Hf s m ltac:(now left) Hd E) as (s1 & E1 & P1). rewrite E1.
        destruct (IH s1) as (s' & E' & P); [intros; apply Hf; auto; now right|apply P1|].
        exists s'. split; [exact E'|]. eapply set_posts_cons; eauto.
  Qed.

  Lemma not_desc_lt i j : desc subs i j -> j <= i.
  Proof. induction 1; [lia|]. apply Hac in H. lia. Qed.

  Lemma set_running_ok fuel i s :
    i < fuel -> down_closed subs (running s) -> running s i = false ->
    exists s', set_running subs name fuel s i = (s', Ok tt) /\ set_post i s s'.
  Proof.
    revert i s; induction fuel as [|f IH]; intros i s Hf Hd Hr; [lia|].
    cbn [set_running]. rewrite Hr.
    destruct (foreach_set f (subs i) s) as (s1 & E1 & P).
    { intros s' m Hm Hd' Hr'. apply IH; auto. apply Hac in Hm. lia. }
    { exact Hd. }
    rewrite E1. eexists; split; [reflexivity|].
    assert (Hi1 : running s1 i = false).
    { destruct (running s1 i) eqn:E; [|reflexivity].
      destruct (sps_new _ _ _ P i E Hr) as ((m & Hm & Hj) & _).
      apply not_desc_lt in Hj. apply Hac in Hm. lia. }
    unfold stash_away. constructor; cbn.
    - intros j Hj. unfold upd. destruct (Nat.eqb_spec j i); [reflexivity|].
      inversion Hj; subst; [congruence|]. eapply (sps_desc _ _ _ P); eauto.
    - intros j Hj. assert (j <> i) by congruence. rewrite !upd_other by auto.
      destruct (sps_old _ _ _ P j Hj) as (A & B & C). repeat split; auto.
    - intros j Hj Hj0. unfold upd at 1 in Hj. destruct (Nat.eqb_spec j i) as [Eji|Hn]; [subst j|].
      + split; [constructor|]. rewrite !upd_same. split; [reflexivity|]. f_equal. now apply (sps_not _ _ _ P).
      + destruct (sps_new _ _ _ P j Hj Hj0) as ((m & Hm & Hd') & B & C).
        split; [econstructor; eauto|]. rewrite upd_other by auto. split; [exact B|].
        rewrite upd_other; auto.
    - intros j Hj. unfold upd in Hj. destruct (Nat.eqb_spec j i) as [Eji|Hn]; [subst j; discriminate|].
      rewrite upd_other by auto. now apply (sps_not _ _ _ P).
    - apply (sps_init _ _ _ P).
    - intros j m Hj Hm. unfold upd in *. destruct (Nat.eqb_spec m i) as [Eji|Hn]; [subst m; reflexivity|].
      destruct (Nat.eqb_spec j i) as [Eji|Hn2]; [subst j|].
      + eapply (sps_desc _ _ _ P); [exact Hm|constructor].
      + eapply (sps_down _ _ _ P); eauto.
  Qed.

  (** setting a list of roots none of which is running when reached *)
  Lemma foreach_set_roots fuel l s :
    (forall m, In m l -> m < fuel) -> NoDup l ->
    (forall a b, In a l -> In b l -> a <> b -> ~ desc subs a b) ->
    (forall m, In m l -> running s m = false) ->
    down_closed subs (running s) ->
    exists s', foreach (set_running subs name fuel) l s = (s', Ok tt) /\ set_posts l s s'.
  Proof.
    revert s; induction l as [|m l IH]; intros s Hf ND Hdis Hr Hd.
    - exists s. split; [reflexivity|now apply set_posts_nil].
    - cbn [foreach]. inversion ND as [|? ? Hni ND']; subst.
      destruct (set_running_ok fuel m s) as (s1 & E1 & P1).
      { apply Hf; now left. } { exact Hd. } { apply Hr; now left. }
      rewrite E1. destruct (IH s1) as (s' & E' & P).
      + intros; apply Hf; now right.
      + exact ND'.
      + intros a b Ha Hb. apply Hdis; now right.
      + intros m' Hm'. destruct (running s1 m') eqn:E; [|reflexivity].
        destruct (sp_new _ _ _ P1 m' E (Hr m' ltac:(now right))) as (Hde & _).
        exfalso. eapply Hdis; [now left|right; exact Hm'| |exact Hde]. congruence.
      + apply P1.
      + exists s'. split; [exact E'|]. eapply set_posts_cons; eauto.
  Qed.

  (** ** unset_running *)
  (** [dom]: models for which, when not running, no sub-model is running *)
  Definition up_closed_on (dom : nat -> Prop) (s : mst) : Prop :=
    forall j m, dom j -> running s j = false -> In m (subs j) -> running s m = false.
  Record unset_post (d0 : nat -> option V) (l : list nat) (s s' : mst) : Prop := {
    up_desc : forall m j, In m l -> desc subs m j -> running s' j = false;
    up_run : forall j, running s' j = true -> running s j = true /\ stash s' (name j) = stash s (name j) /\ data s' j = data s j;
    up_new : forall j, running s' j = false -> running s j = true -> (exists m, In m l /\ desc subs m j) /\ data s' j = d0 j;
    up_old : forall j, running s j = false -> running s' j = false /\ data s' j = data s j;
    up_init : inited s' = inited s
  }.
  Definition stashed (d0 : nat -> option V) (s : mst) : Prop :=
    forall j, running s j = true -> stash s (name j) = Some (d0 j).
  (** domain on which up-closedness is maintained: descendants of some root set *)
  Definition dclosed (dom : nat -> Prop) : Prop := forall j m, dom j -> In m (subs j) -> dom m.

  Lemma unset_post_trans d0 l1 l2 s s1 s2 :
    unset_post d0 l1 s s1 -> unset_post d0 l2 s1 s2 -> unset_post d0 (l1 ++ l2) s s2.
  Proof.
    intros A B. constructor.
    - intros m j Hm Hj. apply in_app_or in Hm. destruct Hm as [Hm|Hm].
      + apply (up_old _ _ _ _ B). eapply (up_desc _ _ _ _ A); eauto.
      + eapply (up_desc _ _ _ _ B); eauto.
    - intros j Hj. destruct (up_run _ _ _ _ B j Hj) as (B1 & B2 & B3).
      destruct (up_run _ _ _ _ A j B1) as (A1 & A2 & A3). repeat split; congruence.
    - intros j H2 H0. destruct (running s1 j) eqn:E.
      + destruct (up_new _ _ _ _ B j H2 E) as ((m & Hm & Hj) & B2).
        split; [exists m; split; [apply in_or_app; now right|exact Hj]|exact B2].
      + destruct (up_new _ _ _ _ A j E H0) as ((m & Hm & Hj) & A2).
        destruct (up_old _ _ _ _ B j E) as (_ & B2).
        split; [exists m; split; [apply in_or_app; now left|exact Hj]|congruence].
    - intros j H0. destruct (up_old _ _ _ _ A j H0) as (A1 & A2).
      destruct (up_old _ _ _ _ B j A1) as (B1 & B2). split; congruence.
    - rewrite (up_init _ _ _ _ B). apply (up_init _ _ _ _ A).
  Qed.

  Lemma not_running_desc dom s i j : dclosed dom -> up_closed_on dom s -> dom i -> running s i = false ->
    desc subs i j -> running s j = false.
  Proof.
    intros Hdc Hu Hi Hr H. induction H; [exact Hr|]. apply IHdesc; [eapply Hdc; eauto|].
    eapply Hu; eauto.
  Qed.

  Lemma unset_post_nil d0 s : unset_post d0 [] s s.
  Proof. constructor; auto; try (intros; contradiction). intros; congruence. Qed.

  Lemma unset_stashed d0 l s s' : unset_post d0 l s s' -> stashed d0 s -> stashed d0 s'.
  Proof. intros A H j Hj. destruct (up_run _ _ _ _ A j Hj) as (A1 & A2 & _). rewrite A2. auto. Qed.

  Lemma unset_up_closed d0 l s s' dom : unset_post d0 l s s' -> dclosed dom -> up_closed_on dom s -> up_closed_on dom s'.
  Proof.
    intros A Hdc Hu j m Hj Hr Hm. destruct (running s j) eqn:E.
    - destruct (up_new _ _ _ _ A j Hr E) as ((k & Hk & Hd) & _).
      eapply (up_desc _ _ _ _ A); [exact Hk|].
      clear -Hd Hm. induction Hd; [econstructor; [exact Hm|constructor]|econstructor; eauto].
    - apply (up_old _ _ _ _ A). eapply Hu; eauto.
  Qed.

  Lemma unset_running_ok d0 dom : dclosed dom -> forall fuel i s,
    i < fuel -> dom i -> up_closed_on dom s -> stashed d0 s -> running s i = true ->
    exists s', unset_running subs name fuel s i = (s', Ok tt) /\ unset_post d0 [i] s s'.
  Proof.
    intros Hdc. induction fuel as [|f IH]; intros i s Hf Hi Hu Hst Hr; [lia|].
    cbn [unset_running]. rewrite Hr.
    assert (Hloop : forall l s, (forall m, In m l -> In m (subs i)) -> up_closed_on dom s -> stashed d0 s ->
      exists s', foreach (fun s m => if running s m then unset_running subs name f s m else (s, Ok tt)) l s = (s', Ok tt)
        /\ unset_post d0 l s s').
    { induction l as [|m l IHl]; intros s0 Hl Hu0 Hs0.
      - exists s0. split; [reflexivity|apply unset_post_nil].
      - cbn [foreach]. assert (Hm : In m (subs i)) by (apply Hl; now left).
        destruct (running s0 m) eqn:E.
        + destruct (IH m s0) as (s1 & E1 & P1); auto.
          { apply Hac in Hm. lia. } { eapply Hdc; eauto. }
          rewrite E1. destruct (IHl s1) as (s2 & E2 & P2).
          { intros; apply Hl; now right. } { eapply unset_up_closed; eauto. } { eapply unset_stashed; eauto. }
          exists s2. split; [exact E2|]. change (m :: l) with ([m] ++ l). eapply unset_post_trans; eauto.
        + destruct (IHl s0) as (s2 & E2 & P2); auto. { intros; apply Hl; now right. }
          exists s2. split; [exact E2|]. change (m :: l) with ([m] ++ l).
          eapply unset_post_trans; [|exact P2].
          constructor; auto.
          * intros m' j [<-|[]] Hj. eapply not_running_desc; [exact Hdc|exact Hu0| |exact E|exact Hj]. eapply Hdc; eauto.
          * intros j H1 H2; congruence. }
    destruct (Hloop (subs i) s ltac:(auto) Hu Hst) as (s1 & E1 & P). rewrite E1.
    assert (Hi1 : running s1 i = true).
    { destruct (running s1 i) eqn:E; [reflexivity|].
      destruct (up_new _ _ _ _ P i E Hr) as ((m & Hm & Hj) & _).
      apply not_desc_lt in Hj. apply Hac in Hm. lia. }
    unfold restore. rewrite (unset_stashed _ _ _ _ P Hst i Hi1).
    eexists; split; [reflexivity|]. constructor; cbn.
    - intros m j [<-|[]] Hj. unfold upd. destruct (Nat.eqb_spec j i); [reflexivity|].
      inversion Hj; subst; [congruence|]. eapply (up_desc _ _ _ _ P); eauto.
    - intros j Hj. unfold upd in Hj. destruct (Nat.eqb_spec j i) as [Eji|Hn]; [subst j; discriminate|].
      destruct (up_run _ _ _ _ P j Hj) as (A & B & C). rewrite !upd_other by auto.
      repeat split; auto.
    - intros j Hj Hj0. unfold upd at 1 in Hj. destruct (Nat.eqb_spec j i) as [Eji|Hn]; [subst j|].
      + split; [exists i; split; [now left|constructor]|]. now rewrite upd_same.
      + destruct (up_new _ _ _ _ P j Hj Hj0) as ((m & Hm & Hd) & B).
        split; [exists i; split; [now left|econstructor; eauto]|]. now rewrite upd_other.
    - intros j Hj. assert (j <> i) by congruence. rewrite !upd_other by auto. now apply (up_old _ _ _ _ P).
    - apply (up_init _ _ _ _ P).
  Qed.

  Lemma foreach_unset_roots d0 dom fuel l s :
    dclosed dom -> (forall m, In m l -> m < fuel /\ dom m) -> NoDup l ->
    (forall a b, In a l -> In b l -> a <> b -> ~ desc subs a b) ->
    (forall m, In m l -> running s m = true) ->
    up_closed_on dom s -> stashed d0 s ->
    exists s', foreach (unset_running subs name fuel) l s = (s', Ok tt) /\ unset_post d0 l s s'.
  Proof.
    intros Hdc. revert s; induction l as [|m l IH]; intros s Hf ND Hdis Hr Hu Hst.
    - exists s. split; [reflexivity|apply unset_post_nil].
    - cbn [foreach]. inversion ND as [|? ? Hni ND']; subst.
      destruct (unset_running_ok d0 dom Hdc fuel m s) as (s1 & E1 & P1); auto; try apply Hf; try (now left).
      { apply Hr; now left. }
      rewrite E1. destruct (IH s1) as (s' & E' & P); auto.
      + intros; apply Hf; now right.
      + intros a b Ha Hb. apply Hdis; now right.
      + intros m' Hm'. destruct (running s1 m') eqn:E; [reflexivity|].
        destruct (up_new _ _ _ _ P1 m' E (Hr m' ltac:(now right))) as ((k & [<-|[]] & Hde) & _).
        exfalso. eapply Hdis; [now left|right; exact Hm'| |exact Hde]. congruence.
      + eapply unset_up_closed; eauto.
      + eapply unset_stashed; eauto.
      + exists s'. split; [exact E'|]. change (m :: l) with ([m] ++ l). eapply unset_post_trans; eauto.
  Qed.

  (** the complete round trip of calc_farm *)
  Lemma calc_farm_roundtrip fuel algo args (s : mst) :
    (forall m, In m (algo :: args) -> m < fuel) -> NoDup (algo :: args) ->
    (forall a b, In a (algo :: args) -> In b (algo :: args) -> a <> b -> ~ desc subs a b) ->
    (forall j, running s j = false) ->
    exists s', calc_farm subs name fuel algo args true s = (s', Ok tt) /\ same_lifecycle s s'.
  Proof.
    intros Hf ND Hdis Hr. unfold calc_farm. rewrite Hr.
    set (l := algo :: args) in *.
    assert (Hd : down_closed subs (running (clear_stash s))). { intros i m Hi. cbn in Hi. rewrite Hr in Hi. discriminate. }
    destruct (foreach_set_roots fuel l (clear_stash s) Hf ND Hdis (fun m _ => Hr m) Hd) as (s1 & E1 & P1).
    rewrite E1.
    set (dom := fun j => exists m, In m l /\ desc subs m j).
    assert (Hdc : dclosed dom).
    { intros j m (k & Hk & Hj) Hm. exists k; split; [exact Hk|].
      clear -Hj Hm. induction Hj; [econstructor; [exact Hm|constructor]|econstructor; eauto]. }
    destruct (foreach_unset_roots (data s) dom fuel l s1) as (s2 & E2 & P2); auto.
    - intros m Hm. split; [auto|]. exists m; split; [exact Hm|constructor].
    - intros m Hm. eapply (sps_desc _ _ _ P1); [exact Hm|constructor].
    - intros j m (k & Hk & Hj) Hrj Hm. rewrite (sps_desc _ _ _ P1 k j Hk Hj) in Hrj. discriminate.
    - intros j Hj. destruct (sps_new _ _ _ P1 j Hj (Hr j)) as (_ & _ & C). exact C.
    - exists s2. split; [exact E2|].
      assert (Hnr : forall j, running s2 j = false).
      { intros j. destruct (running s2 j) eqn:E; [|reflexivity].
        destruct (up_run _ _ _ _ P2 j E) as (R1 & _).
        destruct (sps_new _ _ _ P1 j R1 (Hr j)) as ((m & Hm & Hj) & _).
        rewrite (up_desc _ _ _ _ P2 m j Hm Hj) in E. discriminate. }
      split; [|split].
      + intros j. rewrite (up_init _ _ _ _ P2), (sps_init _ _ _ P1). reflexivity.
      + intros j. now rewrite Hnr, Hr.
      + intros j. destruct (running s1 j) eqn:E1'.
        * apply (up_new _ _ _ _ P2 j (Hnr j) E1').
        * destruct (up_old _ _ _ _ P2 j E1') as (_ & ->). apply (sps_not _ _ _ P1 j E1').
  Qed.

  (** ** a raising calculation *)
  Lemma calc_farm_raise fuel algo args (s : mst) :
    (forall m, In m (algo :: args) -> m < fuel) -> NoDup (algo :: args) ->
    (forall a b, In a (algo :: args) -> In b (algo :: args) -> a <> b -> ~ desc subs a b) ->
    (forall j, running s j = false) ->
    exists s', calc_farm subs name fuel algo args false s = (s', Err ValueError)
      /\ running s' algo = true /\ data s' algo = None
      /\ (forall j, desc subs algo j -> running s' j = true).
  Proof.
    intros Hf ND Hdis Hr. unfold calc_farm. rewrite Hr.
    set (l := algo :: args) in *.
    assert (Hd : down_closed subs (running (clear_stash s))). { intros i m Hi. cbn in Hi. rewrite Hr in Hi. discriminate. }
    destruct (foreach_set_roots fuel l (clear_stash s) Hf ND Hdis (fun m _ => Hr m) Hd) as (s1 & E1 & P1).
    rewrite E1. exists s1. split; [reflexivity|].
    assert (Ha : running s1 algo = true). { eapply (sps_desc _ _ _ P1); [now left|constructor]. }
    split; [exact Ha|]. split; [apply (sps_new _ _ _ P1 algo Ha (Hr algo))|].
    intros j Hj. eapply (sps_desc _ _ _ P1); [now left|exact Hj].
  Qed.

  Lemma stuck fuel algo (s : mst) c : 0 < fuel -> running s algo = true -> do_call subs name fuel algo s c = (s, Err ValueError).
  Proof.
    intros Hf Hr. destruct fuel; [lia|]. destruct c; cbn; try unfold calc_farm; rewrite Hr; reflexivity.
  Qed.
  Lemma stuck_forever fuel algo (s : mst) cs : 0 < fuel -> running s algo = true ->
    fold_left (fun s c => fst (do_call subs name fuel algo s c)) cs s = s /\
    forall c, In c cs -> snd (do_call subs name fuel algo s c) = Err ValueError.
  Proof.
    intros Hf Hr. split.
    - induction cs as [|c cs IH]; cbn [fold_left]; [reflexivity|]. rewrite stuck by auto. exact IH.
    - intros c _. now rewrite stuck by auto.
  Qed.

  (** ** initialize and finalize *)
  Record init_post (l : list nat) (s s' : mst) : Prop := {
    ip_mono : forall j, inited s j = true -> inited s' j = true;
    ip_new : forall j, inited s' j = true -> inited s j = false -> exists m, In m l /\ desc subs m j;
    ip_frame : running s' = running s /\ data s' = data s /\ stash s' = stash s;
    ip_down : down_closed subs (inited s')
  }.
  Lemma init_post_refl l s : down_closed subs (inited s) -> init_post l s s.
  Proof. intros H. constructor; auto. intros; congruence. Qed.
  Lemma init_post_trans l1 l2 s s1 s2 : init_post l1 s s1 -> init_post l2 s1 s2 -> init_post (l1 ++ l2) s s2.
  Proof.
    intros A B. constructor.
    - intros j Hj. apply (ip_mono _ _ _ B), (ip_mono _ _ _ A), Hj.
    - intros j H2 H0. destruct (inited s1 j) eqn:E.
      + destruct (ip_new _ _ _ A j E H0) as (m & Hm & Hd). exists m; split; [apply in_or_app; now left|exact Hd].
      + destruct (ip_new _ _ _ B j H2 E) as (m & Hm & Hd). exists m; split; [apply in_or_app; now right|exact Hd].
    - destruct (ip_frame _ _ _ A) as (A1 & A2 & A3), (ip_frame _ _ _ B) as (B1 & B2 & B3). repeat split; congruence.
    - apply (ip_down _ _ _ B).
  Qed.

  (** holds for every outcome, including load failures at any model (crash points) *)
  Lemma initialize_any load fuel : forall i (s : mst), i < fuel -> down_closed subs (inited s) ->
    let '(s', o) := initialize subs load fuel s i in
    init_post [i] s s' /\
    (o = Ok tt -> inited s' i = true) /\
    ((forall j, desc subs i j -> running s j = false) -> (forall j, desc subs i j -> load j = true) -> o = Ok tt) /\
    o <> Err OutOfFuel.
  Proof.
    induction fuel as [|f IH]; intros i s Hf Hd; [lia|]. cbn [initialize].
    destruct (running s i) eqn:Er.
    { split; [now apply init_post_refl|]. split; [discriminate|]. split; [|discriminate].
      intros H _. rewrite (H i ltac:(constructor)) in Er. discriminate. }
    destruct (inited s i) eqn:Ei.
    { split; [now apply init_post_refl|]. split; [auto|]. split; [auto|discriminate]. }
    assert (Hloop : forall l s0, (forall m, In m l -> In m (subs i)) -> down_closed subs (inited s0) ->
      let '(s', o) := foreach (fun s m => if inited s m then (s, Ok tt) else initialize subs load f s m) l s0 in
      init_post l s0 s' /\ (o = Ok tt -> forall m, In m l -> inited s' m = true) /\
      ((forall m j, In m l -> desc subs m j -> running s0 j = false) -> (forall m j, In m l -> desc subs m j -> load j = true) -> o = Ok tt)
      /\ o <> Err OutOfFuel).
    { induction l as [|m l IHl]; intros s0 Hl Hd0.
      - cbn. split; [now apply init_post_refl|]. split; [intros; contradiction|]. split; [auto|discriminate].
      - cbn [foreach]. destruct (inited s0 m) eqn:Em.
        + specialize (IHl s0 ltac:(intros; apply Hl; now right) Hd0).
          destruct (foreach _ l s0) as [s' o]. destruct IHl as (P & Q1 & Q2 & Q3).
          split; [|split; [|split; [|exact Q3]]].
          * change (m :: l) with ([m] ++ l). eapply init_post_trans; [apply init_post_refl; exact Hd0|exact P].
          * intros Ho m' [<-|Hm']; [now apply (ip_mono _ _ _ P)|auto].
          * intros H1 H2. apply Q2; intros m' j Hm'; [apply H1|apply H2]; now right.
        + assert (Hm : m < f). { specialize (Hl m ltac:(now left)). apply Hac in Hl. lia. }
          specialize (IH m s0 Hm Hd0). destruct (initialize subs load f s0 m) as [s1 [[]|e]] eqn:E1.
          * destruct IH as (P1 & A1 & A2 & A3).
            specialize (IHl s1 ltac:(intros; apply Hl; now right) (ip_down _ _ _ P1)).
            destruct (foreach _ l s1) as [s' o]. destruct IHl as (P & Q1 & Q2 & Q3).
            split; [|split; [|split; [|exact Q3]]].
            -- change (m :: l) with ([m] ++ l). eapply init_post_trans; eauto.
            -- intros Ho m' [<-|Hm']; [apply (ip_mono _ _ _ P); auto|auto].
            -- intros H1 H2. apply Q2; intros m' j Hm'; [|apply H2; now right].
               destruct (ip_frame _ _ _ P1) as (F & _ & _). rewrite F. apply H1; now right.
          * destruct IH as (P1 & A1 & A2 & A3).
            split; [|split; [discriminate|split; [|congruence]]].
            -- change (m :: l) with ([m] ++ l). eapply init_post_trans; [exact P1|apply init_post_refl, P1].
            -- intros H1 H2. assert (Err e = Ok tt) as X; [|discriminate X].
               apply A2; intros j Hj; [apply (H1 m)|apply (H2 m)]; auto; now left. }
    specialize (Hloop (subs i) s ltac:(auto) Hd).
    destruct (foreach _ (subs i) s) as [s1 [[]|e]].
    - destruct Hloop as (P & Q1 & Q2 & Q3).
      assert (Hnew : forall j, inited s1 j = true -> inited s j = false -> desc subs i j).
      { intros j H1 H0. destruct (ip_new _ _ _ P j H1 H0) as (m & Hm & Hj). econstructor; eauto. }
      destruct (load i) eqn:El.
      + split; [|split; [cbn; intros; apply upd_same|split; [auto|discriminate]]].
        constructor; cbn.
        * intros j Hj. unfold upd. destruct (j =? i); [reflexivity|now apply (ip_mono _ _ _ P)].
        * intros j Hj H0. exists i; split; [now left|]. unfold upd in Hj.
          destruct (Nat.eqb_spec j i) as [Eji|Hn]; [subst j; constructor|auto].
        * apply (ip_frame _ _ _ P).
        * intros j m Hj Hm. unfold upd in *. destruct (Nat.eqb_spec m i) as [Eji|Hn]; [subst m; reflexivity|].
          destruct (Nat.eqb_spec j i) as [Eji|Hn2]; [subst j; now apply Q1|]. eapply (ip_down _ _ _ P); eauto.
      + split; [|split; [discriminate|split; [|discriminate]]].
        * constructor; try apply P. intros j H1 H0. exists i; split; [now left|auto].
        * intros _ H2. rewrite (H2 i ltac:(constructor)) in El. discriminate.
    - destruct Hloop as (P & Q1 & Q2 & Q3).
      split; [|split; [discriminate|split; [|congruence]]].
      + constructor; try apply P. intros j H1 H0. destruct (ip_new _ _ _ P j H1 H0) as (m & Hm & Hj).
        exists i; split; [now left|econstructor; eauto].
      + intros H1 H2. assert (Err e = Ok tt) as X; [|discriminate X].
        apply Q2; intros m j Hm Hj; [apply H1|apply H2]; econstructor; eauto.
  Qed.

  Record fin_post (l : list nat) (s s' : mst) : Prop := {
    fp_mono : forall j, inited s j = false -> inited s' j = false;
    fp_new : forall j, inited s' j = false -> inited s j = true -> exists m, In m l /\ desc subs m j;
    fp_frame : running s' = running s /\ data s' = data s /\ stash s' = stash s;
  }.
  Lemma fin_post_refl l s : fin_post l s s.
  Proof. constructor; auto. intros; congruence. Qed.
  Lemma fin_post_trans l1 l2 s s1 s2 : fin_post l1 s s1 -> fin_post l2 s1 s2 -> fin_post (l1 ++ l2) s s2.
  Proof.
    intros A B. constructor.
    - intros j Hj. apply (fp_mono _ _ _ B), (fp_mono _ _ _ A), Hj.
    - intros j H2 H0. destruct (inited s1 j) eqn:E.
      + destruct (fp_new _ _ _ B j H2 E) as (m & Hm & Hd). exists m; split; [apply in_or_app; now right|exact Hd].
      + destruct (fp_new _ _ _ A j E H0) as (m & Hm & Hd). exists m; split; [apply in_or_app; now left|exact Hd].
    - destruct (fp_frame _ _ _ A) as (A1 & A2 & A3), (fp_frame _ _ _ B) as (B1 & B2 & B3). repeat split; congruence.
  Qed.
  (** finalizing a model whose subtree is fully initialized clears the whole subtree *)
  Lemma finalize_all fuel : forall i (s : mst), i < fuel -> (forall j, desc subs i j -> running s j = false) ->
    (forall j m, desc subs i j -> inited s j = false -> In m (subs j) -> inited s m = false) ->
    exists s', finalize subs fuel s i = (s', Ok tt) /\ fin_post [i] s s' /\
      forall j, desc subs i j -> inited s' j = false.
  Proof.
    induction fuel as [|f IH]; intros i s Hf Hr Hup; [lia|]. cbn [finalize].
    rewrite (Hr i ltac:(constructor)). destruct (inited s i) eqn:Ei.
    2:{ exists s. split; [reflexivity|]. split; [apply fin_post_refl|].
        intros j Hj. clear IH Hf Hr. induction Hj; [exact Ei|]. apply IHHj.
        - intros j' m' Hd'. apply Hup. econstructor; eauto.
        - eapply Hup; [constructor|exact Ei|exact H]. }
    assert (Hloop : forall l s0, (forall m, In m l -> In m (subs i)) ->
       (forall m j, In m l -> desc subs m j -> running s0 j = false) ->
       (forall j m, desc subs i j -> j <> i -> inited s0 j = false -> In m (subs j) -> inited s0 m = false) ->
       exists s', foreach (finalize subs f) l s0 = (s', Ok tt) /\ fin_post l s0 s' /\ forall m j, In m l -> desc subs m j -> inited s' j = false).
    { induction l as [|m l IHl]; intros s0 Hl Hr0 Hup0.
      - exists s0. split; [reflexivity|]. split; [apply fin_post_refl|intros; contradiction].
      - cbn [foreach]. assert (Hm : In m (subs i)) by (apply Hl; now left). pose proof (Hac _ _ Hm) as Hlt.
        destruct (IH m s0) as (s1 & E1 & P1 & Q1).
        { lia. } { intros j Hj. apply (Hr0 m); auto; now left. }
        { intros j m' Hj. apply Hup0; [econstructor; eauto|]. apply not_desc_lt in Hj. lia. }
        rewrite E1. destruct (IHl s1) as (s' & E' & P & Q).
        { intros; apply Hl; now right. }
        { intros m' j Hm' Hj. destruct (fp_frame _ _ _ P1) as (F & _). rewrite F. apply (Hr0 m'); auto; now right. }
        { intros j m' Hj Hji H1 Hm'. destruct (inited s0 j) eqn:Ej.
          - destruct (fp_new _ _ _ P1 j H1 Ej) as (k & [<-|[]] & Hk).
            apply Q1. clear -Hk Hm'. induction Hk; [econstructor; [exact Hm'|constructor]|econstructor; eauto].
          - apply (fp_mono _ _ _ P1). eapply Hup0; eauto. }
        exists s'. split; [exact E'|]. split; [change (m :: l) with ([m] ++ l); eapply fin_post_trans; eauto|].
        intros m' j [<-|Hm'] Hj; [apply (fp_mono _ _ _ P); auto|eauto]. }
    destruct (Hloop (subs i) s ltac:(auto)) as (s1 & E1 & P & Q).
    { intros m j Hm Hj. apply Hr. econstructor; eauto. }
    { intros j m Hj _. now apply Hup. }
    rewrite E1. eexists; split; [reflexivity|]. split.
    - constructor; cbn.
      + intros j Hj. unfold upd. destruct (j =? i); [reflexivity|now apply (fp_mono _ _ _ P)].
      + intros j Hj H0. exists i; split; [now left|]. unfold upd in Hj.
        destruct (Nat.eqb_spec j i) as [Eji|Hn]; [subst j; constructor|].
        destruct (fp_new _ _ _ P j Hj H0) as (m & Hm & Hd). econstructor; eauto.
      + apply (fp_frame _ _ _ P).
    - intros j Hj. cbn. unfold upd. destruct (Nat.eqb_spec j i); [reflexivity|].
      inversion Hj; subst; [congruence|]. eauto.
  Qed.
End P.

Lemma initialize_spec : forall V subs, acyclic subs -> forall load fuel i (s : @mst V),
  i < fuel -> down_closed subs (inited s) ->
  let '(s', o) := initialize subs load fuel s i in
  down_closed subs (inited s') /\
  (forall j, inited s j = true -> inited s' j = true) /\
  (forall j, inited s' j = true -> inited s j = false -> desc subs i j) /\
  running s' = running s /\ data s' = data s /\
  (o = Ok tt -> forall j, desc subs i j -> inited s' j = true) /\
  ((forall j, desc subs i j -> running s j = false /\ load j = true) -> o = Ok tt) /\
  o <> Err OutOfFuel.
Proof.
  intros V subs Hac load fuel i s Hi Hd. pose proof (initialize_any subs Hac load fuel i s Hi Hd) as H.
  destruct (initialize subs load fuel s i) as [s' o]. destruct H as (P & H1 & H2 & H3).
  destruct (ip_frame _ _ _ _ P) as (F1 & F2 & _).
  split; [apply P|]. split; [apply P|]. split.
  { intros j A B. destruct (ip_new _ _ _ _ P j A B) as (m & [<-|[]] & D). exact D. }
  split; [exact F1|]. split; [exact F2|]. split.
  { intros Ho j Hj. specialize (H1 Ho). eapply down_closed_desc; [apply P|exact H1|exact Hj]. }
  split; [|exact H3]. intros H. apply H2; intros j Hj; apply H; exact Hj.
Qed.

Lemma initialize_idem : forall V subs load fuel i (s : @mst V),
  0 < fuel -> running s i = false -> inited s i = true -> initialize subs load fuel s i = (s, Ok tt).
Proof. intros V subs load [|f] i s Hf Hr Hi; [lia|]. cbn. now rewrite Hr, Hi. Qed.
Lemma running_rejects : forall V subs load fuel i (s : @mst V),
  0 < fuel -> running s i = true ->
  initialize subs load fuel s i = (s, Err ValueError) /\ finalize subs fuel s i = (s, Err ValueError).
Proof. intros V subs load [|f] i s Hf Hr; [lia|]. cbn. now rewrite Hr. Qed.

Lemma finalize_spec : forall V subs, acyclic subs -> forall fuel i (s : @mst V),
  i < fuel ->
  (forall j, desc subs i j -> running s j = false) ->
  (forall j m, desc subs i j -> inited s j = false -> In m (subs j) -> inited s m = false) ->
  exists s', finalize subs fuel s i = (s', Ok tt) /\
    (forall j, desc subs i j -> inited s' j = false) /\
    (forall j, ~ desc subs i j -> inited s' j = inited s j) /\
    running s' = running s /\ data s' = data s.
Proof.
  intros V subs Hac fuel i s Hi Hr Hup.
  destruct (finalize_all subs Hac fuel i s Hi Hr Hup) as (s' & E & P & Q).
  exists s'. split; [exact E|]. split; [exact Q|]. destruct (fp_frame _ _ _ _ P) as (F1 & F2 & _).
  split; [|auto]. intros j Hj. destruct (inited s j) eqn:A, (inited s' j) eqn:B; auto.
  - destruct (fp_new _ _ _ _ P j B A) as (m & [<-|[]] & D). contradiction.
  - apply (fp_mono _ _ _ _ P) in A. congruence.
Qed.

Lemma shared_refuted :
  exists (subs : nat -> list nat) (s : @mst unit) (fuel a b c : nat),
    acyclic subs /\ down_closed subs (inited s) /\ (forall j, running s j = false) /\
    In c (subs a) /\ In c (subs b) /\ a <> b /\
    inited s a = true /\ inited s b = true /\ inited s c = true /\
    exists s', finalize subs fuel s a = (s', Ok tt) /\ inited s' b = true /\ inited s' c = false.
Proof.
  exists (fun i => if (i =? 1) || (i =? 2) then [0] else []),
         (mkmst (fun j => j <? 3) (fun _ => false) (fun _ => None) (fun _ => None)), 3, 1, 2, 0.
  split. { intros i m H. destruct i as [|[|[|i]]]; cbn in H; intuition lia. }
  split. { intros i m H H'. destruct i as [|[|[|i]]]; cbn in *; intuition (subst; auto). }
  repeat (split; [cbn; auto; lia|]). eexists. split; [reflexivity|]. split; reflexivity.
Qed.

Lemma roundtrip_spec : forall V subs name,
  acyclic subs -> injective name ->
  forall fuel algo args (s : @mst V),
  (forall m, In m (algo :: args) -> m < fuel) ->
  independent_roots subs (algo :: args) ->
  (forall j, running s j = false) ->
  exists s', calc_farm subs name fuel algo args true s = (s', Ok tt) /\ same_lifecycle s s'.
Proof. intros V subs name Hac Hinj fuel algo args s Hf (ND & Hd) Hr. now apply calc_farm_roundtrip. Qed.

Lemma clash_refuted :
  exists (subs : nat -> list nat) (name : nat -> nat) (fuel algo : nat) (args : list nat) (s : @mst nat),
    acyclic subs /\ (forall m, In m (algo :: args) -> m < fuel) /\
    independent_roots subs (algo :: args) /\ (forall j, running s j = false) /\
    snd (calc_farm subs name fuel algo args true s) <> Ok tt /\
    exists j, data s j <> None /\ data (fst (calc_farm subs name fuel algo args true s)) j <> data s j.
Proof.
  exists (fun _ => []), (fun _ => 0), 2, 0, [1], (mkmst (fun _ => true) (fun _ => false) (fun i => Some i) (fun _ => None)).
  split. { intros i m []. } split. { cbn; intuition lia. }
  split. { split; [repeat constructor; cbn; intuition lia|].
    intros a b _ _ Hne H. inversion H; subst; [congruence|]. contradiction. }
  split; [reflexivity|]. split; [vm_compute; discriminate|]. exists 0. split; vm_compute; discriminate.
Qed.

Lemma stuck_spec : forall V subs name,
  acyclic subs -> injective name ->
  forall fuel algo args (s : @mst V),
  (forall m, In m (algo :: args) -> m < fuel) ->
  independent_roots subs (algo :: args) ->
  (forall j, running s j = false) ->
  exists s', calc_farm subs name fuel algo args false s = (s', Err ValueError) /\
    running s' algo = true /\ data s' algo = None /\
    forall cs, fold_left (fun s c => fst (do_call subs name fuel algo s c)) cs s' = s' /\
      forall c, In c cs -> snd (do_call subs name fuel algo s' c) = Err ValueError.
Proof.
  intros V subs name Hac Hinj fuel algo args s Hf (ND & Hd) Hr.
  destruct (calc_farm_raise subs name Hac Hinj fuel algo args s Hf ND Hd Hr) as (s' & E & R & D & _).
  exists s'. split; [exact E|]. split; [exact R|]. split; [exact D|].
  intros cs. apply stuck_forever; [|exact R]. specialize (Hf algo ltac:(now left)). lia.
Qed.
