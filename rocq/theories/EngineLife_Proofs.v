From Verif Require Import Base EngineLife_Model.

Definition Inv (s : st) : Prop :=
  (forall i, inited s i = true <-> glob s = Some i) /\ (forall i, inited s i = true -> entered s i = true).
(** weaker invariant holding between the two halves of __exit__ *)
Definition Inv0 (s : st) : Prop := forall i, inited s i = true <-> glob s = Some i.

Lemma upd_same f i b : upd f i b i = b.
Proof. unfold upd. now rewrite Nat.eqb_refl. Qed.
Lemma upd_other f i j b : i <> j -> upd f i b j = f j.
Proof. unfold upd. intros H. destruct (Nat.eqb_spec j i); congruence. Qed.

Lemma init_entered_inv s i : Inv s -> entered s i = true -> Inv (fst (init_entered s i)).
Proof.
  intros (H1 & H2) He. unfold init_entered. destruct (inited s i) eqn:Ei; [split; auto|].
  destruct (glob s) as [g|] eqn:Eg; [split; auto; intros j; rewrite H1; cbn; rewrite Eg; reflexivity|].
  split; cbn.
  - intros j. unfold upd. destruct (Nat.eqb_spec j i) as [->|Hn].
    + split; auto.
    + rewrite H1. split; [discriminate|]. intros [= ->]. congruence.
  - intros j. unfold upd. destruct (Nat.eqb_spec j i) as [->|Hn]; auto.
Qed.
Lemma set_entered_inv s i : Inv s -> Inv (set_entered s i true).
Proof.
  intros (H1 & H2). split; cbn; [exact H1|]. intros j Hj. unfold upd.
  destruct (j =? i); auto.
Qed.
Lemma enter_inv s i : Inv s -> Inv (fst (enter s i)).
Proof.
  intros H. unfold enter. destruct (entered s i) eqn:E; [exact H|]. cbn zeta.
  pose proof (set_entered_inv s i H) as H'.
  destruct (inited (set_entered s i true) i); [exact H'|].
  apply init_entered_inv; [exact H'|]. cbn. apply upd_same.
Qed.
Lemma initialize_inv s i : Inv s -> Inv (fst (initialize s i)).
Proof.
  intros H. unfold initialize. destruct (entered s i) eqn:E; [now apply init_entered_inv|now apply enter_inv].
Qed.
Lemma exit_inv s i : Inv s -> Inv (fst (exit_ s i)).
Proof.
  intros (H1 & H2). unfold exit_. destruct (entered s i) eqn:E; [|split; auto]. cbn zeta.
  unfold fin_not_entered. cbn [inited set_entered].
  destruct (inited s i) eqn:Ei; cbn.
  - split; cbn.
    + intros j. unfold upd. destruct (Nat.eqb_spec j i) as [->|Hn]; [split; discriminate|].
      apply H1 in Ei. split; [|discriminate]. intros Hj. apply H1 in Hj. congruence.
    + intros j. unfold upd. destruct (Nat.eqb_spec j i) as [->|Hn]; [discriminate|auto].
  - split; cbn; [exact H1|]. intros j Hj. unfold upd. destruct (Nat.eqb_spec j i) as [->|Hn]; [congruence|auto].
Qed.
Lemma fin_not_entered_inv s i : Inv s -> entered s i = false -> Inv (fst (fin_not_entered s i)).
Proof.
  intros (H1 & H2) He. unfold fin_not_entered. destruct (inited s i) eqn:E; [|split; auto].
  rewrite (H2 i E) in He. discriminate.
Qed.
Lemma finalize_inv s i : Inv s -> Inv (fst (finalize s i)).
Proof.
  intros H. unfold finalize. destruct (entered s i) eqn:E; [now apply exit_inv|now apply fin_not_entered_inv].
Qed.
Lemma run_default_inv s i j ok : Inv s -> Inv (fst (run_default s i j ok)).
Proof.
  intros H. unfold run_default.
  pose proof (finalize_inv s i H) as H1. destruct (finalize s i) as [s1 [[]|e1]]; cbn in H1; [|exact H1].
  pose proof (enter_inv s1 j H1) as H2. destruct (enter s1 j) as [s2 [[]|e2]]; cbn in H2; [|exact H2].
  pose proof (exit_inv s2 j H2) as H3. destruct (exit_ s2 j) as [s3 [[]|e3]]; cbn in H3; [|exact H3].
  destruct ok; [now apply initialize_inv|exact H3].
Qed.
Lemma step_inv s o : Inv s -> Inv (fst (step s o)).
Proof.
  intros H. destruct o; cbn [step].
  - now apply enter_inv.
  - now apply exit_inv.
  - now apply initialize_inv.
  - now apply finalize_inv.
  - unfold del. destruct (inited s i); [now apply finalize_inv|exact H].
  - unfold reset. destruct (glob s); [now apply finalize_inv|exact H].
  - unfold get_engine. destruct (glob s) eqn:E; [exact H|].
    pose proof (initialize_inv s i H). destruct (initialize s i) as [s' o]; exact H0.
  - now apply run_default_inv.
Qed.
Lemma st0_inv : Inv st0.
Proof. split; cbn; [|discriminate]. intros i; split; discriminate. Qed.
Lemma fold_inv ops s : Inv s -> Inv (fold_left (fun s o => fst (step s o)) ops s).
Proof. revert s; induction ops; cbn; intros s H; [exact H|]. apply IHops. now apply step_inv. Qed.
Lemma run_inv ops : Inv (run ops).
Proof. apply fold_inv, st0_inv. Qed.

Lemma C05_unique_lemma ops :
  (forall i, inited (run ops) i = true <-> glob (run ops) = Some i) /\
  (forall i j, inited (run ops) i = true -> inited (run ops) j = true -> i = j).
Proof.
  destruct (run_inv ops) as (H1 & H2). split; [exact H1|].
  intros i j Hi Hj. apply H1 in Hi. apply H1 in Hj. congruence.
Qed.

Lemma C05_get_engine_lemma ops i :
  let '(s', o, e) := get_engine (run ops) i in
  (forall g, glob (run ops) = Some g -> s' = run ops /\ e = Some g) /\
  (glob (run ops) = None -> o = Ok tt -> e = Some i /\ glob s' = Some i).
Proof.
  destruct (run_inv ops) as (H1 & H2). set (s := run ops) in *. unfold get_engine.
  destruct (glob s) as [g|] eqn:E.
  - split; [intros g' [= <-]; auto|discriminate].
  - destruct (initialize s i) as [s' o] eqn:Ei. split; [discriminate|]. intros _ ->. split; [reflexivity|].
    unfold initialize, enter, init_entered in Ei.
    assert (Hni : inited s i = false).
    { destruct (inited s i) eqn:X; [|reflexivity]. apply H1 in X. congruence. }
    cbn in Ei. rewrite Hni, E in Ei. destruct (entered s i); injection Ei as <- ; reflexivity.
Qed.

Lemma C05_second_rejected_lemma ops i j :
  glob (run ops) = Some i -> i <> j -> entered (run ops) j = false ->
  let '(s', o) := enter (run ops) j in
  o = Err ValueError /\ glob s' = Some i /\ (forall k, inited s' k = inited (run ops) k)
  /\ (forall k, k <> j -> entered s' k = entered (run ops) k).
Proof.
  destruct (run_inv ops) as (H1 & H2). set (s := run ops) in *. intros Hg Hn He.
  assert (Hni : inited s j = false).
  { destruct (inited s j) eqn:X; [|reflexivity]. apply H1 in X. congruence. }
  unfold enter, init_entered. rewrite He. cbn. rewrite Hni, Hg. cbn.
  repeat split; auto. intros k Hk. apply upd_other; auto.
Qed.

(** after the failed entry the engine cannot be entered again, even when no engine is active *)
Lemma C05_poison_lemma ops i j :
  glob (run ops) = Some i -> i <> j -> entered (run ops) j = false -> entered (run ops) i = true ->
  let s1 := fst (enter (run ops) j) in
  let s2 := fst (exit_ s1 i) in
  glob s2 = None /\ snd (enter s2 j) = Err ValueError.
Proof.
  destruct (run_inv ops) as (H1 & H2). set (s := run ops) in *. intros Hg Hn He Hei.
  assert (Hni : inited s j = false).
  { destruct (inited s j) eqn:X; [|reflexivity]. apply H1 in X. congruence. }
  assert (Hii : inited s i = true) by now apply H1.
  cbn zeta. unfold enter at 1 3, init_entered. rewrite He. cbn. rewrite Hni, Hg. cbn.
  unfold exit_. cbn. rewrite upd_other by auto. rewrite Hei. cbn. rewrite Hii. unfold fin_not_entered. cbn.
  rewrite Hii. cbn. split; [reflexivity|]. unfold enter. cbn.
  rewrite upd_other by auto. rewrite upd_same. reflexivity.
Qed.

Lemma C05_with_lemma ops i :
  glob (run ops) = None -> entered (run ops) i = false ->
  let '(s1, o1) := enter (run ops) i in
  let '(s2, o2) := exit_ s1 i in
  o1 = Ok tt /\ glob s1 = Some i /\ o2 = Ok tt /\ glob s2 = None
  /\ (forall k, inited s2 k = inited (run ops) k) /\ (forall k, entered s2 k = entered (run ops) k).
Proof.
  destruct (run_inv ops) as (H1 & H2). set (s := run ops) in *. intros Hg He.
  assert (Hni : inited s i = false).
  { destruct (inited s i) eqn:X; [|reflexivity]. apply H1 in X. congruence. }
  unfold enter, init_entered. rewrite He. cbn. rewrite Hni, Hg. cbn.
  unfold exit_. cbn. rewrite upd_same. cbn. rewrite upd_same. unfold fin_not_entered. cbn. rewrite upd_same. cbn.
  repeat split; auto.
  - intros k. unfold upd. destruct (Nat.eqb_spec k i) as [->|]; congruence.
  - intros k. unfold upd. destruct (Nat.eqb_spec k i) as [->|]; congruence.
Qed.

(** the delegating default engine *)
Lemma C05_default_lemma ops i j ok :
  glob (run ops) = Some i -> i <> j -> entered (run ops) j = false ->
  let '(s', o) := run_default (run ops) i j ok in
  (ok = true -> o = Ok tt /\ glob s' = Some i) /\
  (ok = false -> glob s' = None /\ snd (exit_ s' i) = Err ValueError).
Proof.
  destruct (run_inv ops) as (H1 & H2). set (s := run ops) in *. intros Hg Hn He.
  assert (Hii : inited s i = true) by now apply H1.
  assert (Hei : entered s i = true) by now apply H2.
  assert (Hni : inited s j = false).
  { destruct (inited s j) eqn:X; [|reflexivity]. apply H1 in X. congruence. }
  assert (E1 : finalize s i = (mkst None (upd (entered s) i false) (upd (inited s) i false), Ok tt)).
  { unfold finalize, exit_. rewrite Hei. cbn. rewrite Hii. unfold fin_not_entered. cbn. rewrite Hii. reflexivity. }
  unfold run_default. rewrite E1.
  unfold enter at 1. cbn. rewrite (upd_other (entered s) i j) by auto. rewrite He. cbn.
  rewrite (upd_other (inited s) i j) by auto. rewrite Hni. unfold init_entered. cbn.
  rewrite (upd_other (inited s) i j) by auto. rewrite Hni.
  unfold exit_ at 1. cbn. rewrite upd_same. cbn. rewrite upd_same. unfold fin_not_entered. cbn. rewrite upd_same. cbn.
  destruct ok.
  - unfold initialize. cbn. rewrite ?(upd_other _ j i) by auto. rewrite ?upd_same.
    unfold enter, init_entered. cbn. rewrite ?(upd_other _ j i) by auto. rewrite ?upd_same. cbn.
    rewrite ?(upd_other _ j i) by auto. rewrite ?upd_same. cbn.
    split; [auto|discriminate].
  - split; [discriminate|]. intros _. split; [reflexivity|].
    unfold exit_. cbn. rewrite ?(upd_other _ j i) by auto. rewrite ?upd_same. reflexivity.
Qed.
