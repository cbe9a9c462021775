(** Proofs for DBook_Model. *)
From Coq Require Import String.
From Verif Require Import Base DBook_Model DBook_Spec.
Lemma dget_dset {A} k j (a : A) d : dget k (dset j a d) = if String.eqb k j then Some a else dget k d.
Proof.
  induction d as [|[i b] d IH]; cbn.
  - reflexivity.
  - destruct (String.eqb_spec j i) as [->|N]; cbn.
    + destruct (String.eqb_spec k i); reflexivity.
    + destruct (String.eqb_spec k i) as [->|N'].
      * now rewrite (proj2 (String.eqb_neq i j)) by congruence.
      * exact IH.
Qed.
(** path of a name in a context *)
Definition find_path (b : book) (c n : string) : option string := match dget c b with Some d => dget n d | None => None end.
Lemma find_with b c c' n : find_path (with_context c b) c' n = find_path b c' n.
Proof.
  unfold with_context, find_path. destruct (dget c b) eqn:E; [reflexivity|]. rewrite dget_dset. destruct (String.eqb_spec c' c) as [->|]; [now rewrite E|reflexivity].
Qed.
Lemma has_with b c : dget c (with_context c b) <> None.
Proof. unfold with_context. destruct (dget c b) eqn:E; [congruence|]. rewrite dget_dset, String.eqb_refl. discriminate. Qed.
Lemma dget_with b c c' : dget c' (with_context c b) = None <-> dget c' b = None /\ c' <> c.
Proof.
  unfold with_context. destruct (dget c b) eqn:E.
  - split; [intros H; split; [exact H|congruence]|tauto].
  - rewrite dget_dset. destruct (String.eqb_spec c' c) as [->|N]; split; intros H; try discriminate; try tauto.
Qed.
Lemma find_store b c n p c' n' : dget c b <> None -> find_path (store c n p b) c' n' = if String.eqb c' c && String.eqb n' n then Some p else find_path b c' n'.
Proof.
  intros H. unfold store, find_path. destruct (dget c b) as [d|] eqn:E; [|congruence]. rewrite dget_dset. destruct (String.eqb_spec c' c) as [->|N]; cbn; [|reflexivity].
  rewrite dget_dset, E. reflexivity.
Qed.
Lemma dget_store b c n p c' : dget c' (store c n p b) = None <-> dget c' b = None.
Proof.
  unfold store. destruct (dget c b) as [d|] eqn:E; [|reflexivity]. rewrite dget_dset. destruct (String.eqb_spec c' c) as [->|N]; [|reflexivity]. rewrite E. split; discriminate.
Qed.
Section P.
  Variable is_file : string -> bool.
  Variable base_name : string -> string.
  Notation adds := (adds is_file base_name).
  (** the path after a list of additions *)
  Definition pick (l : list (string * string * string)) (c n : string) (o : option string) : option string :=
    fold_left (fun o t => let '(c', n', p) := t in if String.eqb c c' && String.eqb n n' then Some p else o) l o.
  Definition put_all (l : list (string * string * string)) (b : book) : book := fold_left (fun b t => let '(c, n, p) := t in store c n p b) l b.
  Lemma put_all_context l : forall b c, dget c (put_all l b) = None <-> dget c b = None.
  Proof. induction l as [|[[c n] p] l IH]; intros b c'; cbn; [reflexivity|]. unfold put_all in IH. rewrite IH. apply dget_store. Qed.
  Lemma put_all_find l : forall b, (forall c n p, In (c, n, p) l -> dget c b <> None) -> forall c n, find_path (put_all l b) c n = pick l c n (find_path b c n).
  Proof.
    induction l as [|[[c n] p] l IH]; intros b H c' n'; cbn; [reflexivity|]. unfold put_all in IH. rewrite IH.
    - rewrite find_store by (eapply H; now left). reflexivity.
    - intros a m q I. rewrite dget_store. eapply H. right. exact I.
  Qed.
  Lemma add_loop_put c ps : forall b, fst (add_loop is_file base_name c ps b) = put_all (map (fun p => (c, base_name p, p)) (files_before is_file ps)) b.
  Proof. induction ps as [|p ps IH]; intros b; cbn; [reflexivity|]. destruct (is_file p); [apply IH|reflexivity]. Qed.
  Lemma run_call_put b k : run_call is_file base_name b k = put_all (adds k) (with_context (context k) b).
  Proof.
    destruct k as [c ps|c ct s|c n [p|]]; cbn; try reflexivity.
    - apply add_loop_put.
    - unfold put_all. generalize (with_context c b) as b0. induction (filter _ ct) as [|f l IH]; intros b0; cbn; [reflexivity|]. apply IH.
  Qed.
  Lemma adds_context k c n p : In (c, n, p) (adds k) -> c = context k.
  Proof.
    destruct k as [c' ps|c' ct s|c' n' [q|]]; cbn; intros I.
    - apply in_map_iff in I as (x & E & _). now injection E.
    - apply in_map_iff in I as (x & E & _). now injection E.
    - destruct I as [E|[]]. now injection E.
    - destruct I.
  Qed.
  Lemma run_call_find b k c n : find_path (run_call is_file base_name b k) c n = pick (adds k) c n (find_path b c n).
  Proof.
    rewrite run_call_put, put_all_find, find_with; [reflexivity|]. intros a m q I. apply adds_context in I. subst. apply has_with.
  Qed.
  Lemma after_find h : forall b c n, find_path (fold_left (run_call is_file base_name) h b) c n = pick (flat_map adds h) c n (find_path b c n).
  Proof. induction h as [|k h IH]; intros b c n; cbn; [reflexivity|]. rewrite IH, run_call_find. unfold pick. now rewrite fold_left_app. Qed.
  Lemma after_context h : forall b c, dget c (fold_left (run_call is_file base_name) h b) = None <-> dget c b = None /\ forall k, In k h -> context k <> c.
  Proof.
    induction h as [|k h IH]; intros b c; cbn; [split; [intros H; split; [exact H|tauto]|tauto]|]. rewrite IH, run_call_put, put_all_context, dget_with. split.
    - intros ((H1 & H2) & H3). split; [exact H1|]. intros k' [<-|I]; [congruence|now apply H3].
    - intros (H1 & H2). split; [split; [exact H1|]|].
      + specialize (H2 k (or_introl eq_refl)). congruence.
      + intros k' I. apply H2. now right.
  Qed.
  Lemma pick_last (l : list (string * string * string)) c n p : (exists a b, l = (a ++ (c, n, p) :: b)%list /\ forall p', ~ In (c, n, p') b) -> forall o, pick l c n o = Some p.
  Proof.
    intros (a & b & -> & H) o. unfold pick. rewrite fold_left_app. cbn [fold_left]. rewrite !String.eqb_refl. cbn [andb].
    induction b as [|[[c' n'] q] b IH]; cbn [fold_left]; [reflexivity|]. destruct (String.eqb_spec c c') as [<-|]; cbn [andb]; [|apply IH; intros p' I; apply (H p'); now right].
    destruct (String.eqb_spec n n') as [<-|]; [exfalso; apply (H q); now left|]. apply IH. intros p' I. apply (H p'). now right.
  Qed.
  Lemma pick_none (l : list (string * string * string)) c n : (forall p, ~ In (c, n, p) l) -> forall o, pick l c n o = o.
  Proof.
    intros H. unfold pick. induction l as [|[[c' n'] q] l IH]; intros o; cbn [fold_left]; [reflexivity|].
    rewrite IH by (intros p I; apply (H p); now right). destruct (String.eqb_spec c c') as [<-|]; cbn [andb]; [|reflexivity]. destruct (String.eqb_spec n n') as [<-|]; [|reflexivity]. exfalso. apply (H q). now left.
  Qed.
  Lemma dget_in {A} n (d : list (string * A)) : dget n d <> None <-> In n (map fst d).
  Proof.
    induction d as [|[m a] d IH]; cbn; [tauto|]. destruct (String.eqb_spec n m) as [->|N]; [split; [now left|discriminate]|]. rewrite IH. split; [now right|]. intros [E|I]; [congruence|exact I].
  Qed.
  Lemma last_or_never (l : list (string * string * string)) c n : (exists p, exists a b, l = (a ++ (c, n, p) :: b)%list /\ forall p', ~ In (c, n, p') b) \/ forall p, ~ In (c, n, p) l.
  Proof.
    induction l as [|[[c' n'] q] l IH]; [right; intros p []|]. destruct IH as [(p & a & b & -> & H)|H]; [left; exists p, ((c', n', q) :: a), b; now split|].
    destruct (String.eqb_spec c c') as [<-|Nc]; [destruct (String.eqb_spec n n') as [<-|Nn]|].
    - left. exists q, [], l. now split.
    - right. intros p [E|I]; [injection E; congruence|now apply (H p)].
    - right. intros p [E|I]; [injection E; congruence|now apply (H p)].
  Qed.
End P.
