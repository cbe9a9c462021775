(** Proofs about the farm controller. *)
From Verif Require Import Base Controller_Model Controller_Spec.

Fixpoint rem (st : list tstate) : nat := match st with [] => 0 | p :: st' => (length (fst p) - snd p) + rem st' end.
Definition stepped (m : nat) (st : list tstate) := map (fun p => fst (emit1 m p)) st.

Lemma emit1_fst m p : fst (fst (emit1 m p)) = fst p.
Proof. unfold emit1. destruct (cur p) as [m'|]; [|reflexivity]. now destruct (m' =? m). Qed.
Lemma emit1_le m p : snd p <= length (fst p) -> snd p <= snd (fst (emit1 m p)) <= length (fst p).
Proof.
  unfold emit1, cur. destruct p as [l k]; cbn. intros H. destruct (nth_error l k) as [m'|] eqn:E; [|cbn; lia].
  assert (k < length l) by (apply nth_error_Some; congruence). destruct (m' =? m); cbn; lia.
Qed.
Lemma rem_cons p st : rem (p :: st) = (length (fst p) - snd p) + rem st.
Proof. reflexivity. Qed.
Lemma stepped_cons m p st : stepped m (p :: st) = fst (emit1 m p) :: stepped m st.
Proof. reflexivity. Qed.
Lemma emit1_ge m p : snd p <= snd (fst (emit1 m p)).
Proof. unfold emit1. destruct (cur p) as [m'|]; [|cbn; lia]. destruct (m' =? m); cbn; lia. Qed.
Lemma rem_step_le m st : rem (stepped m st) <= rem st.
Proof.
  induction st as [|p st IH]; [cbn; lia|]. rewrite stepped_cons, !rem_cons, emit1_fst. pose proof (emit1_ge m p). lia.
Qed.
Lemma rem_step_lt m st p : In p st -> cur p = Some m -> rem (stepped m st) < rem st.
Proof.
  induction st as [|q st IH]; intros Hin Hc; [destruct Hin|]. rewrite stepped_cons, !rem_cons, emit1_fst.
  destruct Hin as [E|Hin].
  - subst q. unfold emit1. rewrite Hc, Nat.eqb_refl. cbn. unfold cur in Hc.
    assert (snd p < length (fst p)) by (apply nth_error_Some; congruence). pose proof (rem_step_le m st). lia.
  - specialize (IH Hin Hc). pose proof (emit1_ge m q). lia.
Qed.
Lemma find_next_some all : forall rest ti m, find_next all ti rest = Some m ->
  exists k p, nth_error rest k = Some p /\ cur p = Some m /\ existsb (blocks (ti + k) m) (combine (seq 0 (length all)) all) = false.
Proof.
  induction rest as [|p rest IH]; intros ti m; cbn [find_next]; [discriminate|].
  destruct (cur p) as [m'|] eqn:E.
  - destruct (existsb (blocks ti m') _) eqn:B.
    + intros H. destruct (IH _ _ H) as (k & q & A1 & A2 & A3). exists (S k), q. rewrite Nat.add_succ_r. auto.
    + intros H. injection H as <-. exists 0, p. rewrite Nat.add_0_r. auto.
  - intros H. destruct (IH _ _ H) as (k & q & A1 & A2 & A3). exists (S k), q. rewrite Nat.add_succ_r. auto.
Qed.
Lemma find_next_none all : forall rest ti, find_next all ti rest = None ->
  forall k p m, nth_error rest k = Some p -> cur p = Some m ->
  existsb (blocks (ti + k) m) (combine (seq 0 (length all)) all) = true.
Proof.
  induction rest as [|p rest IH]; intros ti H k q m Hk Hc; [destruct k; discriminate|]. cbn [find_next] in H.
  destruct k as [|k]; cbn in Hk.
  - injection Hk as ->. rewrite Hc in H. rewrite Nat.add_0_r. destruct (existsb (blocks ti m) _) eqn:B; [reflexivity|discriminate].
  - rewrite Nat.add_succ_r. apply (IH (S ti)) with q; auto.
    destruct (cur p) as [m'|]; [|exact H]. destruct (existsb (blocks ti m') _); [exact H|discriminate].
Qed.
Lemma find_next_in st m : find_next st 0 st = Some m -> exists p, In p st /\ cur p = Some m.
Proof.
  intros H. destruct (find_next_some _ _ _ _ H) as (k & p & A & B & _). exists p. split; [eapply nth_error_In; eauto|exact B].
Qed.
Lemma rem_init ls : rem (map (fun l => (l, 0)) ls) = total ls.
Proof. induction ls as [|l ls IH]; [reflexivity|]. cbn [map]. rewrite rem_cons, IH. unfold total. cbn [fold_right fst snd]. lia. Qed.

Lemma analyze_ok : forall fuel st, rem st <= fuel -> exists r, analyze fuel st = Ok r.
Proof.
  induction fuel as [|f IH]; intros st H; cbn [analyze]; destruct (find_next st 0 st) as [m|] eqn:E; eauto.
  - destruct (find_next_in _ _ E) as (p & Hp & Hc). pose proof (rem_step_lt m st p Hp Hc). lia.
  - destruct (find_next_in _ _ E) as (p & Hp & Hc). pose proof (rem_step_lt m st p Hp Hc).
    destruct (IH (stepped m st)) as (r & Er); [lia|]. unfold stepped in Er. rewrite Er. cbn. eauto.
Qed.
Lemma merge_total ls : merge ls <> Err OutOfFuel.
Proof.
  unfold merge. destruct (analyze_ok (total ls) (map (fun l => (l, 0)) ls)) as (r & E); [rewrite rem_init; lia|].
  rewrite E. cbn. match goal with |- (if ?b then _ else _) <> _ => destruct b end; discriminate.
Qed.

(** soundness *)
Lemma analyze_sound : forall fuel st r, analyze fuel st = Ok r ->
  length (snd r) = length st /\
  Forall (fun e => length (snd e) = length st) (fst r) /\
  forall j p, nth_error st j = Some p -> snd p <= length (fst p) ->
    exists k', nth_error (snd r) j = Some (fst p, k') /\ snd p <= k' <= length (fst p) /\
      applied_models j (fst r) = firstn (k' - snd p) (skipn (snd p) (fst p)) /\
      applied_sels j (fst r) = seq (snd p) (k' - snd p).
Proof.
  induction fuel as [|f IH]; intros st r E; cbn [analyze] in E; destruct (find_next st 0 st) as [m|] eqn:N.
  - discriminate.
  - injection E as <-. cbn. repeat split; auto. intros j p Hp Hle. exists (snd p).
    rewrite Nat.sub_diag. cbn. destruct p; cbn in *. repeat split; auto.
  - apply bind_ok in E. destruct E as (q & E & X). injection X as <-. apply IH in E. destruct E as (L & Fl & G). cbn.
    rewrite map_length in L, Fl. split; [exact L|]. split; [constructor; [cbn; now rewrite map_length|exact Fl]|].
    intros j p Hp Hle.
    pose proof (emit1_le m p Hle) as Hle2.
    destruct (G j (fst (emit1 m p))) as (k' & A1 & A2 & A3 & A4).
    { now apply map_nth_error with (f := fun p => fst (emit1 m p)) in Hp. }
    { rewrite emit1_fst. lia. }
    rewrite emit1_fst in A1, A2, A3. exists k'. split; [exact A1|]. split; [lia|].
    assert (Hj : nth j (map (fun p0 => snd (emit1 m p0)) st) None = snd (emit1 m p)).
    { apply nth_error_nth. now apply map_nth_error with (f := fun p => snd (emit1 m p)) in Hp. }
    unfold applied_models, applied_sels. cbn [flat_map fst snd]. rewrite Hj.
    fold (applied_models j (fst q)) (applied_sels j (fst q)). rewrite A3, A4. clear A3 A4 Hj.
    unfold emit1 in *. destruct (cur p) as [m'|] eqn:C; [|cbn in *; split; reflexivity].
    destruct (Nat.eqb_spec m' m) as [Em|]; [subst m'|cbn; split; reflexivity]. cbn [fst snd app] in *.
    destruct p as [l k]. unfold cur in C. cbn [fst snd] in *. split.
    + replace (k' - k) with (S (k' - S k)) by lia.
      assert (Hs : skipn k l = m :: skipn (S k) l).
      { clear -C. revert l C; induction k as [|k IHk]; intros [|x l] C; cbn in *; try discriminate; [now injection C as ->|]. rewrite IHk by exact C. reflexivity. }
      rewrite Hs. reflexivity.
    + replace (k' - k) with (S (k' - S k)) by lia. reflexivity.
  - injection E as <-. cbn. repeat split; auto. intros j p Hp Hle. exists (snd p).
    rewrite Nat.sub_diag. cbn. destruct p; cbn in *. repeat split; auto.
Qed.

Lemma merge_sound ls ems : merge ls = Ok ems ->
  Forall (fun e => length (snd e) = length ls) ems /\
  forall j l, nth_error ls j = Some l -> applied_models j ems = l /\ applied_sels j ems = seq 0 (length l).
Proof.
  unfold merge. intros E. apply bind_ok in E. destruct E as (r & E & X).
  match type of X with (if ?b then _ else _) = _ => destruct b eqn:F end; [|discriminate]. injection X as <-.
  apply analyze_sound in E. destruct E as (L & Fl & G). rewrite map_length in *. split; [exact Fl|].
  intros j l Hj. destruct (G j (l, 0)) as (k' & A1 & A2 & A3 & A4); [now apply map_nth_error with (f := fun l => (l, 0)) in Hj|cbn; lia|].
  rewrite forallb_forall in F. pose proof (F _ (nth_error_In _ _ A1)) as K. cbn in K. apply Nat.eqb_eq in K. subst k'.
  cbn in A3, A4. rewrite Nat.sub_0_r in A3, A4. rewrite firstn_all in A3. auto.
Qed.

(** every entry is applied to at least one turbine, and emitted names are distinct for repetition-free lists *)
Definition passed (m : nat) (p : tstate) : Prop := exists i, i < snd p /\ nth_error (fst p) i = Some m.
(** a model passed by one turbine is passed by all turbines having it *)
Definition inv (st : list tstate) : Prop :=
  Forall (fun p => NoDup (fst p) /\ snd p <= length (fst p)) st /\
  forall p q m, In p st -> In q st -> passed m p -> In m (fst q) -> passed m q.
Lemma mem_in m l : mem m l = true <-> In m l.
Proof.
  unfold mem. rewrite existsb_exists. split.
  - intros (x & Hx & E). apply Nat.eqb_eq in E. now subst.
  - intros H. exists m. split; auto. apply Nat.eqb_refl.
Qed.
Lemma not_blocked st ti m : existsb (blocks ti m) (combine (seq 0 (length st)) st) = false ->
  forall j q m', nth_error st j = Some q -> j <> ti -> In m (fst q) -> cur q = Some m' -> m' = m.
Proof.
  intros H j q m' Hj Hne Hin Hc. destruct (Nat.eq_dec m' m); auto. exfalso.
  assert (X : existsb (blocks ti m) (combine (seq 0 (length st)) st) = true); [|congruence].
  apply existsb_exists. exists (j, q). split.
  - assert (Z : forall (l : list tstate) s k x, nth_error l k = Some x -> In (s + k, x) (combine (seq s (length l)) l)).
    { clear. induction l as [|y l IH]; intros s [|k] x E; cbn in *; try discriminate.
      - injection E as ->. left. f_equal. lia.
      - right. replace (s + S k) with (S s + k) by lia. auto. }
    apply (Z st 0 j q Hj).
  - unfold blocks. cbn. rewrite Hc. apply Nat.eqb_neq in Hne. rewrite Hne. apply mem_in in Hin. rewrite Hin. apply Nat.eqb_neq in n. now rewrite n.
Qed.
Lemma passed_step m m' p : passed m' (fst (emit1 m p)) <-> passed m' p \/ (m' = m /\ cur p = Some m).
Proof.
  unfold passed. rewrite emit1_fst. unfold emit1. destruct (cur p) as [c|] eqn:C.
  - destruct (Nat.eqb_spec c m) as [E|E]; [subst c|]; cbn.
    + split.
      * intros (i & Hi & E). destruct (Nat.eq_dec i (snd p)) as [->|]; [right; split; auto; unfold cur in C; congruence|].
        left. exists i. split; [lia|exact E].
      * intros [(i & Hi & E)|(-> & _)]; [exists i; split; [lia|exact E]|]. exists (snd p). split; [lia|exact C].
    + split; [auto|]. intros [H|(_ & H)]; [exact H|congruence].
  - cbn. split; [auto|]. intros [H|(_ & H)]; [exact H|discriminate].
Qed.
Lemma nodup_pos (l : list nat) i j a : NoDup l -> nth_error l i = Some a -> nth_error l j = Some a -> i = j.
Proof.
  intros H E1 E2. assert (i < length l) by (apply nth_error_Some; congruence).
  rewrite NoDup_nth_error in H. apply H; auto. congruence.
Qed.
Lemma inv_step st m : inv st -> find_next st 0 st = Some m -> inv (stepped m st).
Proof.
  intros (F & G) N. destruct (find_next_some _ _ _ _ N) as (ti & p0 & Hti & Hc0 & B). cbn [Nat.add] in B. split.
  - unfold stepped. rewrite Forall_map. eapply Forall_impl; [|exact F]. intros p (A1 & A2). rewrite emit1_fst. split; auto.
    now apply emit1_le.
  - intros p q m' Hp Hq Hpa Hin. unfold stepped in Hp, Hq. apply in_map_iff in Hp, Hq.
    destruct Hp as (p1 & <- & Hp1), Hq as (q1 & <- & Hq1). rewrite emit1_fst in Hin.
    apply passed_step in Hpa. apply passed_step. destruct Hpa as [Hpa|(E & Hpa)].
    + left. eapply G; eauto.
    + subst m'. destruct (cur q1) as [c|] eqn:C.
      * right. split; auto. destruct (In_nth_error _ _ Hq1) as (j & Hj). destruct (Nat.eq_dec j ti) as [->|Hne]; [congruence|].
        f_equal. eapply not_blocked; eauto.
      * left. destruct (In_nth_error _ _ Hin) as (i & Hi). exists i. split; [|exact Hi].
        unfold cur in C. apply nth_error_None in C. apply Nat.lt_le_trans with (length (fst q1)); auto. apply nth_error_Some. congruence.
Qed.
Lemma inv_init ls : Forall (@NoDup nat) ls -> inv (map (fun l => (l, 0)) ls).
Proof.
  intros H. split.
  - rewrite Forall_map. eapply Forall_impl; [|exact H]. cbn. intros; split; auto; lia.
  - intros p q m Hp Hq (i & Hi & _). apply in_map_iff in Hp. destruct Hp as (l & <- & _). cbn in Hi. lia.
Qed.

(** completeness *)
Lemma unfinished_next rank st : inv st -> compatible rank (map fst st) ->
  (exists p m, In p st /\ cur p = Some m) -> exists m, find_next st 0 st = Some m.
Proof.
  intros (F & G) Hr (p0 & m0 & Hp0 & Hc0).
  destruct (find_next st 0 st) as [m|] eqn:N; [eauto|exfalso].
  (* a current model of minimal rank *)
  assert (Hmin : exists p m, In p st /\ cur p = Some m /\ forall q m', In q st -> cur q = Some m' -> rank m <= rank m').
  { clear G Hr N F. revert p0 m0 Hp0 Hc0.
    assert (W : forall n p m, rank m <= n -> In p st -> cur p = Some m ->
      exists p m, In p st /\ cur p = Some m /\ forall q m', In q st -> cur q = Some m' -> rank m <= rank m').
    { induction n as [|n IH]; intros p m Hn Hp Hc.
      - exists p, m. repeat split; auto. intros. lia.
      - destruct (existsb (fun q => match cur q with Some m' => rank m' <? rank m | None => false end) st) eqn:E.
        + apply existsb_exists in E. destruct E as (q & Hq & E). destruct (cur q) as [m'|] eqn:Cq; [|discriminate].
          apply Nat.ltb_lt in E. apply (IH q m'); auto. lia.
        + exists p, m. repeat split; auto. intros q m' Hq Cq. destruct (Nat.le_gt_cases (rank m) (rank m')); auto. exfalso.
          assert (existsb (fun q => match cur q with Some m' => rank m' <? rank m | None => false end) st = true); [|congruence].
          apply existsb_exists. exists q. split; auto. rewrite Cq. now apply Nat.ltb_lt. }
    intros p0 m0 Hp0 Hc0. apply (W (rank m0) p0 m0); auto. }
  destruct Hmin as (p & m & Hp & Hc & Hm). destruct (In_nth_error _ _ Hp) as (ti & Hti).
  pose proof (find_next_none _ _ _ N ti p m Hti Hc) as B. cbn [Nat.add] in B.
  apply existsb_exists in B. destruct B as ((j & q) & Hjq & B). unfold blocks in B. cbn in B.
  apply andb_true_iff in B. destruct B as (B & B3). apply andb_true_iff in B. destruct B as (B1 & B2).
  destruct (cur q) as [m'|] eqn:Cq; [|discriminate]. apply negb_true_iff, Nat.eqb_neq in B3. apply mem_in in B2.
  assert (Hq : In q st) by (eapply in_combine_r; eauto).
  specialize (Hm q m' Hq Cq). destruct (In_nth_error _ _ B2) as (i & Hi). unfold cur in Cq, Hc.
  destruct (lt_eq_lt_dec i (snd q)) as [[Hlt|Heq]|Hgt].
  - (* passed by q, still current in p *)
    assert (Pq : passed m p). { apply (G q p m); auto. exists i; auto. eapply nth_error_In; eauto. }
    destruct Pq as (i2 & Hi2 & E2). rewrite Forall_forall in F. destruct (F p Hp) as (ND & _).
    pose proof (nodup_pos _ _ _ _ ND E2 Hc). lia.
  - subst i. congruence.
  - specialize (Hr (fst q) ltac:(apply in_map; exact Hq) (snd q) i m' m Hgt Cq Hi). lia.
Qed.
Lemma map_fst_stepped m st : map fst (stepped m st) = map fst st.
Proof. unfold stepped. rewrite map_map. apply map_ext. intros; apply emit1_fst. Qed.
Lemma analyze_complete rank : forall fuel st r, inv st -> compatible rank (map fst st) -> analyze fuel st = Ok r ->
  forallb (fun p => snd p =? length (fst p)) (snd r) = true.
Proof.
  assert (Z : forall st, inv st -> compatible rank (map fst st) -> find_next st 0 st = None ->
     forallb (fun p : tstate => snd p =? length (fst p)) st = true).
  { intros st I C N. apply forallb_forall. intros p Hp. destruct (cur p) as [m|] eqn:E.
    - destruct (unfinished_next rank st I C) as (m' & X); [eauto|congruence].
    - unfold cur in E. apply nth_error_None in E. destruct I as (F & _). rewrite Forall_forall in F. destruct (F p Hp). apply Nat.eqb_eq. lia. }
  induction fuel as [|f IH]; intros st r I C E; cbn [analyze] in E; destruct (find_next st 0 st) as [m|] eqn:N.
  - discriminate.
  - injection E as <-. now apply Z.
  - apply bind_ok in E. destruct E as (q & E & X). injection X as <-. cbn [snd].
    apply (IH (stepped m st)); auto; [now apply inv_step|now rewrite map_fst_stepped].
  - injection E as <-. now apply Z.
Qed.
Lemma compatible_nodup rank ls : compatible rank ls -> Forall (@NoDup nat) ls.
Proof.
  intros H. apply Forall_forall. intros l Hl. apply NoDup_nth_error. intros i j Hi E.
  destruct (nth_error l i) as [a|] eqn:Ei; [|apply nth_error_None in Ei; lia]. symmetry in E.
  destruct (lt_eq_lt_dec i j) as [[Hlt|He]|Hgt]; [|exact He|].
  - specialize (H l Hl i j a a Hlt Ei E). lia.
  - specialize (H l Hl j i a a Hgt E Ei). lia.
Qed.
Lemma merge_complete rank ls : compatible rank ls -> exists ems, merge ls = Ok ems.
Proof.
  intros H. unfold merge. destruct (analyze_ok (total ls) (map (fun l => (l, 0)) ls)) as (r & E); [rewrite rem_init; lia|].
  rewrite E. cbn [bind]. rewrite (analyze_complete rank _ _ _ (inv_init _ (compatible_nodup _ _ H))) with (2 := E); [eauto|].
  rewrite map_map. cbn. now rewrite map_id.
Qed.

(** distinct names in the sequence *)
Lemma analyze_nodup : forall fuel st r, inv st -> analyze fuel st = Ok r ->
  NoDup (map fst (fst r)) /\ (forall m p, In m (map fst (fst r)) -> In p st -> ~ passed m p) /\
  Forall (fun e => exists j k, nth_error (snd e) j = Some (Some k)) (fst r).
Proof.
  induction fuel as [|f IH]; intros st r I E; cbn [analyze] in E; destruct (find_next st 0 st) as [m|] eqn:N.
  - discriminate.
  - injection E as <-. cbn. repeat split; constructor || intros; contradiction.
  - apply bind_ok in E. destruct E as (q & E & X). injection X as <-. cbn [fst map].
    destruct (IH (stepped m st) q (inv_step st m I N) E) as (A1 & A2 & A3).
    destruct (find_next_some _ _ _ _ N) as (ti & p0 & Hti & Hc0 & B). pose proof (nth_error_In _ _ Hti) as Hp0.
    assert (Hpm : passed m (fst (emit1 m p0))) by (apply passed_step; right; auto).
    assert (Hin0 : In (fst (emit1 m p0)) (stepped m st)) by (apply in_map_iff; exists p0; auto).
    split; [constructor; [intros Hm; eapply A2; eauto|exact A1]|]. split.
    + intros m' p [Em|Hm'] Hp Hpa.
      * subst m'. destruct I as (F & G). assert (passed m p0).
        { apply (G p p0 m Hp Hp0 Hpa). unfold cur in Hc0. eapply nth_error_In; eauto. }
        destruct H as (i & Hi & Ei). rewrite Forall_forall in F. destruct (F p0 Hp0) as (ND & _).
        pose proof (nodup_pos _ _ _ _ ND Ei Hc0). lia.
      * apply (A2 m' (fst (emit1 m p))); auto; [apply in_map_iff; exists p; auto|]. apply passed_step. now left.
    + constructor; [|exact A3]. cbn. exists ti, (snd p0).
      erewrite map_nth_error by exact Hti. unfold emit1. rewrite Hc0, Nat.eqb_refl. reflexivity.
  - injection E as <-. cbn. repeat split; constructor || intros; contradiction.
Qed.
Lemma merge_nodup ls ems : Forall (@NoDup nat) ls -> merge ls = Ok ems ->
  NoDup (map fst ems) /\ Forall (fun e => exists j k, nth_error (snd e) j = Some (Some k)) ems.
Proof.
  intros H E. unfold merge in E. apply bind_ok in E. destruct E as (r & E & X). match type of X with (if ?b then _ else _) = _ => destruct b end; [|discriminate]. injection X as <-.
  destruct (analyze_nodup _ _ _ (inv_init _ H) E) as (A & _ & B). auto.
Qed.

(** a successful merge of repetition-free lists yields a compatible ranking: the position *)
Fixpoint pos (m : nat) (l : list nat) : nat := match l with [] => 0 | x :: l' => if x =? m then 0 else S (pos m l') end.
Lemma pos_nth l i a : NoDup l -> nth_error l i = Some a -> pos a l = i.
Proof.
  revert i; induction l as [|x l IH]; intros [|i] H E; cbn in *; try discriminate.
  - injection E as ->. now rewrite Nat.eqb_refl.
  - inversion H; subst. destruct (Nat.eqb_spec x a) as [->|]; [exfalso; apply H2; eapply nth_error_In; eauto|]. f_equal. auto.
Qed.
Lemma applied_positions j ems : forall i i' a b, i < i' -> NoDup (map fst ems) ->
  nth_error (applied_models j ems) i = Some a -> nth_error (applied_models j ems) i' = Some b ->
  pos a (map fst ems) < pos b (map fst ems).
Proof.
  induction ems as [|e ems IH]; intros i i' a b Hi ND Ea Eb; [destruct i; discriminate|].
  cbn [applied_models flat_map] in Ea, Eb. fold (applied_models j ems) in Ea, Eb. cbn [map pos]. inversion ND; subst.
  assert (Hsub : forall x, In x (applied_models j ems) -> In x (map fst ems)).
  { clear. induction ems as [|e ems IH]; intros x H; [destruct H|]. cbn in H. apply in_app_iff in H. destruct H as [H|H].
    - left. destruct (nth j (snd e) None); [destruct H as [H|[]]; auto|destruct H].
    - right. auto. }
  destruct (nth j (snd e) None) as [k|]; cbn [app] in Ea, Eb.
  - destruct i' as [|i']; [lia|]. cbn in Eb. assert (Hb : In b (map fst ems)) by (apply Hsub; eapply nth_error_In; eauto).
    destruct (Nat.eqb_spec (fst e) b) as [X|X]; [exfalso; apply H1; now rewrite X|].
    destruct i as [|i]; cbn in Ea.
    + injection Ea as <-. rewrite Nat.eqb_refl. lia.
    + assert (Ha : In a (map fst ems)) by (apply Hsub; eapply nth_error_In; eauto).
      destruct (Nat.eqb_spec (fst e) a) as [Y|Y]; [exfalso; apply H1; now rewrite Y|].
      apply -> Nat.succ_lt_mono. apply (IH i i'); auto. lia.
  - assert (Hb : In b (map fst ems)) by (apply Hsub; eapply nth_error_In; eauto).
    assert (Ha : In a (map fst ems)) by (apply Hsub; eapply nth_error_In; eauto).
    destruct (Nat.eqb_spec (fst e) b) as [X|X]; [exfalso; apply H1; now rewrite X|].
    destruct (Nat.eqb_spec (fst e) a) as [Y|Y]; [exfalso; apply H1; now rewrite Y|].
    apply -> Nat.succ_lt_mono. now apply (IH i i').
Qed.
Lemma merge_gives_rank ls ems : Forall (@NoDup nat) ls -> merge ls = Ok ems -> compatible (fun m => pos m (map fst ems)) ls.
Proof.
  intros H E l Hl i j a b Hij Ea Eb. destruct (In_nth_error _ _ Hl) as (t & Ht).
  destruct (merge_sound ls ems E) as (_ & S). destruct (S t l Ht) as (S1 & _). destruct (merge_nodup ls ems H E) as (ND & _).
  rewrite <- S1 in Ea, Eb. eapply applied_positions; eauto.
Qed.
Lemma merge_iff ls : Forall (@NoDup nat) ls ->
  ((exists ems, merge ls = Ok ems) <-> (exists rank, compatible rank ls)) /\
  ((forall rank, ~ compatible rank ls) -> merge ls = Err ValueError).
Proof.
  intros H. split; [split|].
  - intros (ems & E). exists (fun m => pos m (map fst ems)). now apply merge_gives_rank.
  - intros (rank & R). now apply merge_complete with rank.
  - intros R. destruct (merge ls) as [ems|e] eqn:E; [exfalso; eapply R, merge_gives_rank; eauto|].
    f_equal. pose proof (merge_total ls) as T. rewrite E in T.
    unfold merge in E. destruct (analyze_ok (total ls) (map (fun l => (l, 0)) ls)) as (r & Er); [rewrite rem_init; lia|].
    rewrite Er in E. cbn in E. match type of E with (if ?b then _ else _) = _ => destruct b end; congruence.
Qed.

(** name lookup finds the entry itself *)
Lemma index_pos m l : In m l -> index_of m l = Some (pos m l).
Proof.
  induction l as [|x l IH]; intros H; [destruct H|]. cbn. destruct (Nat.eqb_spec x m); [reflexivity|].
  destruct H as [H|H]; [congruence|]. rewrite IH by exact H. reflexivity.
Qed.
Lemma index_self ls ems k e : Forall (@NoDup nat) ls -> merge ls = Ok ems -> nth_error ems k = Some e ->
  index_of (fst e) (map fst ems) = Some k.
Proof.
  intros H E Hk. destruct (merge_nodup ls ems H E) as (ND & _).
  assert (X : nth_error (map fst ems) k = Some (fst e)) by now apply map_nth_error.
  rewrite index_pos by (eapply nth_error_In; eauto). f_equal. now apply pos_nth.
Qed.

(** selections: pre- and post-rotor sub-lists *)
Lemma collect_single pre names : collect_turbine (fun n => [n]) pre names = Ok (filter pre names, filter (fun m => negb (pre m)) names).
Proof.
  unfold collect_turbine. replace (forallb _ names) with true.
  - cbn. replace (flat_map (fun n => [n]) names) with names; [reflexivity|]. induction names; cbn; congruence.
  - symmetry. apply forallb_forall. reflexivity.
Qed.

(** find_turbine_types *)
Definition types_in (istype : nat -> bool) (l : list nat) : list nat := filter istype l.
Lemma find_type_spec istype l : forall found,
  find_type istype found l =
  match found, types_in istype l with
  | None, [] => Ok None
  | None, [n] => Ok (Some n)
  | Some n, [] => Ok (Some n)
  | _, _ => Err TypeError
  end.
Proof.
  unfold types_in. induction l as [|n l IH]; intros found; cbn; [now destruct found|].
  destruct (istype n) eqn:E; [|exact (IH found)]. destruct found as [f|]; [reflexivity|].
  rewrite IH. destruct (filter istype l); reflexivity.
Qed.
Lemma find_types_spec istype ts : forall ti,
  match find_turbine_types istype ti ts with
  | inl (Ok l) => map (fun n => [n]) l = map (types_in istype) ts
  | inl (Err _) => False
  | inr (tj, e) => exists t, ti <= tj /\ nth_error ts (tj - ti) = Some t /\ length (types_in istype t) <> 1 /\
                   (forall k t', k < tj - ti -> nth_error ts k = Some t' -> length (types_in istype t') = 1) /\
                   (e = ValueError <-> types_in istype t = [])
  end.
Proof.
  induction ts as [|t ts IH]; intros ti; cbn [find_turbine_types]; [reflexivity|].
  rewrite find_type_spec. destruct (types_in istype t) as [|n [|n2 l]] eqn:E.
  - exists t. rewrite Nat.sub_diag. cbn. rewrite E. repeat split; auto; try lia; discriminate.
  - specialize (IH (S ti)). destruct (find_turbine_types istype (S ti) ts) as [[l|e]|[tj e]]; [|exact IH|].
    + cbn. now rewrite E, IH.
    + destruct IH as (t' & A1 & A2 & A3 & A4 & A5). exists t'. replace (tj - ti) with (S (tj - S ti)) by lia.
      repeat split; auto; try lia; try apply A5.
      intros k t0 Hk Ek. destruct k; cbn in Ek; [injection Ek as <-; now rewrite E|]. apply (A4 k); auto. lia.
  - exists t. rewrite Nat.sub_diag. cbn. rewrite E. repeat split; auto; try lia; discriminate.
Qed.

Lemma collect_all_single pre ts : collect_all (fun n => [n]) pre ts =
  Ok (map (filter pre) ts, map (filter (fun m => negb (pre m))) ts).
Proof.
  induction ts as [|t ts IH]; [reflexivity|]. cbn [collect_all]. rewrite collect_single. cbn [bind]. rewrite IH. reflexivity.
Qed.
Lemma collect_models_single pre ts ep eq : collect_models (fun n => [n]) pre ts = Ok (ep, eq) ->
  merge (map (filter pre) ts) = Ok ep /\ merge (map (filter (fun m => negb (pre m))) ts) = Ok eq.
Proof.
  unfold collect_models. rewrite collect_all_single. cbn [bind fst snd]. intros H.
  apply bind_ok in H. destruct H as (a & Ha & H). apply bind_ok in H. destruct H as (b & Hb & H).
  destruct (a ++ b); [discriminate|]. injection H as E1 E2. subst. auto.
Qed.
Lemma filter_pos (f : nat -> bool) (l : list nat) i m : nth_error l i = Some m -> f m = true ->
  nth_error (filter f l) (length (filter f (firstn i l))) = Some m.
Proof.
  revert i; induction l as [|x l IH]; intros [|i] E F; cbn in *; try discriminate.
  - injection E as E. subst x. rewrite F. reflexivity.
  - destruct (f x); cbn; auto.
Qed.
Lemma seq_nth_error s n i : i < n -> nth_error (seq s n) i = Some (s + i).
Proof.
  revert s i; induction n as [|n IH]; intros s [|i] H; cbn; try lia; [f_equal; lia|]. rewrite IH by lia. f_equal. lia.
Qed.
Lemma group_used (f : nat -> bool) ts ems : merge (map (filter f) ts) = Ok ems ->
  forall j names i m, nth_error ts j = Some names -> nth_error names i = Some m -> f m = true ->
  let c := length (filter f (firstn i names)) in
  nth_error (applied_models j ems) c = Some m /\ nth_error (applied_sels j ems) c = Some c.
Proof.
  intros E j names i m Hj Hi Hf c. destruct (merge_sound _ _ E) as (_ & S).
  destruct (S j (filter f names)) as (S1 & S2); [now apply map_nth_error|].
  rewrite S1, S2. pose proof (filter_pos f names i m Hi Hf) as P. split; [exact P|].
  apply seq_nth_error. apply nth_error_Some. unfold c. congruence.
Qed.
Lemma filter_all_len {A} (f : A -> bool) l : forallb f l = true -> length (filter f l) = length l.
Proof. induction l as [|x l IH]; cbn; [reflexivity|]. destruct (f x); cbn; [intros; f_equal; auto|discriminate]. Qed.

Lemma group_ok_some pre b ms : group_ok pre (Some b) ms = b || forallb (fun m => negb (pre m)) ms.
Proof.
  induction ms as [|m ms IH]; cbn; [now rewrite orb_true_r|]. rewrite IH. destruct b, (pre m); reflexivity.
Qed.
Lemma group_ok_none pre ms : group_ok pre None ms =
  match ms with [] => true | m :: ms' => pre m || forallb (fun m => negb (pre m)) ms' end.
Proof. destruct ms as [|m ms]; [reflexivity|]. cbn. apply group_ok_some. Qed.

Lemma looked_up_self ls ems k e : Forall (@NoDup nat) ls -> merge ls = Ok ems -> nth_error ems k = Some e -> looked_up ems k = Some e.
Proof.
  intros H E Hk. unfold looked_up. rewrite Hk, (index_self ls ems k e H E Hk). exact Hk.
Qed.
