(** Property C176: the result labels of a parameter file. *)
From Coq Require Import Ascii String.
From Verif Require Import Base Labels_Model Labels_Spec Labels_Proofs.

(** C176. Whatever outputs are run: each function that was called got its plain arguments as they
    are, and for "$label" the value that was stored last under this label, for "$label[i,j]" the
    element of it. *)
Theorem C176_arguments_partial : forall V index item none vstr create call ret (os : list (target * list (func V))),
  let h := snd (fst (run_outputs index item none vstr create call ret os)) in
  forall a o f gs vs b, h = a ++ ECall o f gs vs :: b -> Forall2 (passed index vstr a) gs vs.
Proof.
  intros V index item none vstr create call ret os. cbv zeta. unfold run_outputs.
  pose proof (inv_list index item none vstr create call ([], []) os (inv_start index vstr)) as [_ S].
  destruct (run_list index item none vstr create call ([], []) os) as [st [l|e]]; exact S.
Qed.
(** The results of a function are stored under its labels: one label gets the whole result, a list
    of labels gets its entries. *)
Theorem C176_stored_partial : forall V index item none vstr call (st st' : state V) o f r,
  run_func index item none vstr call st o f = (st', Ok r) -> f_close f = false ->
  (forall k, f_labels f = LOne k -> ignored k = false -> stands_for (snd st') k = Some r)
  /\ (forall ks n k, f_labels f = LList ks -> NoDup ks -> nth_error ks n = Some k -> ignored k = false ->
        exists v, item r n = Ok v /\ stands_for (snd st') k = Some v)
  /\ exists vs, call (snd st) o (f_name f) vs = Ok r.
Proof.
  intros V index item none vstr call st st' o f r H C. unfold run_func in H.
  destruct (mapr (resolve index vstr (fst st)) (f_args f)) as [vs|e]; [|discriminate].
  destruct (call (snd st) o (f_name f) vs) as [r0|e] eqn:CA; [|discriminate]. rewrite C in H.
  set (st1 := (fst st, _)) in H.
  assert (R : r = r0 /\ match f_labels f with
      | LNone => (st1, Ok tt) | LOne k => set_label st1 k r0 | LList ks => set_labels item st1 0 ks r0 end
      = (st', Ok tt)).
  { destruct (match f_labels f with LNone => (st1, Ok tt) | LOne k => set_label st1 k r0
      | LList ks => set_labels item st1 0 ks r0 end) as [s2 [[]|e]]; [|discriminate].
    injection H as <- <-. split; reflexivity. }
  destruct R as [-> R]. split; [|split].
  - intros k E N. rewrite E in R. exact (set_label_stored _ _ _ _ R N).
  - intros ks n k E D EN N. rewrite E in R.
    exact (set_labels_stored item _ 0 ks r0 _ n k R D EN N).
  - exists vs. exact CA.
Qed.
(** A label that no earlier function stored is never passed on as a string: the function is not
    called. The same holds for a malformed label. *)
Theorem C176_unknown : forall V index item none vstr create call ret (os : list (target * list (func V))) st o f s,
  st = fst (run_outputs index item none vstr create call ret os) ->
  In (AStr s) (f_args f) -> plain s -> stands_for (snd st) s = None ->
  exists e, run_func index item none vstr call st o f = (st, Err e).
Proof.
  intros V index item none vstr create call ret os st o f s E I P N.
  assert (J : inv index vstr st).
  { subst st. unfold run_outputs.
    pose proof (inv_list index item none vstr create call ([], []) os (inv_start index vstr)) as J.
    destruct (run_list index item none vstr create call ([], []) os) as [st1 [l|e]]; exact J. }
  destruct J as [L _].
  assert (R : resolve index vstr (fst st) (AStr s) = Err KeyError).
  { destruct P as (H & A & B). destruct s as [|c r]; [discriminate|]. cbn in H. injection H as ->.
    cbn [resolve]. rewrite Ascii.eqb_refl, (get_plain index _ _ A B). unfold fetch. rewrite L, N. reflexivity. }
  destruct (mapr_fails _ _ _ _ I R) as (e & F). exists e. unfold run_func. rewrite F. reflexivity.
Qed.
(** Not everything is as documented. An empty string as argument makes the run fail. *)
Theorem C176_empty_refuted : forall V index item none vstr call (st : state V) o f,
  In (AStr []) (f_args f) -> exists e, run_func index item none vstr call st o f = (st, Err e).
Proof.
  intros V index item none vstr call st o f I.
  destruct (mapr_fails (resolve index vstr (fst st)) _ _ IndexError I eq_refl) as (e & F).
  exists e. unfold run_func. rewrite F. reflexivity.
Qed.
(** With plt_close the labels do not get the results but None. *)
Theorem C176_close_refuted : forall V index item none vstr call (st st' : state V) o f r k,
  run_func index item none vstr call st o f = (st', Ok r) -> f_close f = true ->
  f_labels f = LOne k -> ignored k = false -> r = none /\ stands_for (snd st') k = Some none.
Proof.
  intros V index item none vstr call st st' o f r k H C L N. unfold run_func in H.
  destruct (mapr (resolve index vstr (fst st)) (f_args f)) as [vs|e]; [|discriminate].
  destruct (call (snd st) o (f_name f) vs) as [r0|e] eqn:CA; [|discriminate]. rewrite C, L in H.
  destruct (set_label _ k none) as [s2 [[]|e]] eqn:S; [|discriminate]. injection H as <- <-.
  split; [reflexivity|]. exact (set_label_stored _ _ _ _ S N).
Qed.
(** The labels are returned also when they were not asked for. *)
Theorem C176_return_refuted : forall V index item none vstr create call ret (os : list (target * list (func V))) st r,
  run_outputs index item none vstr create call ret os = (st, Ok r) -> exists l, r = OutsAndLabels l (fst st).
Proof.
  intros V index item none vstr create call ret os st r. unfold run_outputs.
  destruct (run_list index item none vstr create call ([], []) os) as [st1 [l|e]]; [|discriminate].
  intros H. injection H as <- <-. eexists; reflexivity.
Qed.
Print Assumptions C176_arguments_partial.
Print Assumptions C176_stored_partial.
Print Assumptions C176_unknown.
Print Assumptions C176_empty_refuted.
Print Assumptions C176_close_refuted.
Print Assumptions C176_return_refuted.

(** objects of the example: numbers, strings, lists, None *)
Inductive obj := ONum (n : Z) | OStr (s : str) | OList (l : list obj) | ONone.
Definition ix (o : obj) (i : list Z) : result obj :=
  match o, i with OList l, [z] => match nth_error l (Z.to_nat z) with Some v => Ok v | None => Err IndexError end
  | _, _ => Err TypeError end.
Definition im (o : obj) (n : nat) : result obj := ix o [Z.of_nat n].
Definition s (x : string) : str := list_ascii_of_string x.
(** function 0 returns a list, all others nothing *)
Definition ca : list (event obj) -> obj -> nat -> list obj -> result obj :=
  fun _ _ f vs => Ok (if f =? 0 then OList [ONum 5; ONum 6; ONum 7] else ONone).
Definition cr : list (event obj) -> nat -> result obj := fun _ c => Ok (ONum (Z.of_nat c)).
Definition demo : list (target * list (func obj)) :=
  [(TNew 3, [mkfunc 0 [AStr (s "WS")] false (LOne (s "$a")); mkfunc 0 [] false (LList [s "$b"; s "_"; s "$c"])]);
   (TNew 4, [mkfunc 1 [AStr (s "$c"); AStr (s "$a[2]"); AObj ONone] false LNone])].
Example C176_case :
  snd (fst (run_outputs ix im ONone OStr cr ca false demo)) =
    [ENew 3 (ONum 3); ECall (ONum 3) 0 [AStr (s "WS")] [OStr (s "WS")];
     EStore (s "$a") (OList [ONum 5; ONum 6; ONum 7]);
     ECall (ONum 3) 0 [] []; EStore (s "$b") (ONum 5); EStore (s "$c") (ONum 7);
     ENew 4 (ONum 4); ECall (ONum 4) 1 [AStr (s "$c"); AStr (s "$a[2]"); AObj ONone] [ONum 7; ONum 7; ONone]]
  /\ plain (s "$c") /\ s "$a[2]" = element (s "$a") [mknum false [2]] /\ num_ok (mknum false [2]).
Proof. repeat split; try reflexivity; try discriminate; cbn; try (intuition discriminate). repeat constructor. Qed.
(** a title in mathematical notation is taken for a label *)
Example C176_math_case : exists e, run_func ix im ONone OStr ca ([], []) ONone
  (mkfunc 1 [AStr (s "$\alpha$")] false LNone) = (([], []), Err e) /\ plain (s "$\alpha$").
Proof. exists KeyError. repeat split; try reflexivity; cbn; intuition discriminate. Qed.
