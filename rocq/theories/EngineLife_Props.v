(** Property C05: engine lifecycle, over all histories of operations (including failing ones). *)
From Verif Require Import Base EngineLife_Model EngineLife_Proofs.

(** In every reachable state an engine is initialized exactly if it is the global engine;
    hence at most one is. *)
Theorem C05_at_most_one_engine : forall ops,
  (forall i, inited (run ops) i = true <-> glob (run ops) = Some i) /\
  (forall i j, inited (run ops) i = true -> inited (run ops) j = true -> i = j).
Proof. exact C05_unique_lemma. Qed.
Print Assumptions C05_at_most_one_engine.

(** get_engine returns the global engine without changing anything, or sets the default. *)
Theorem C05_get_engine_returns_active : forall ops i,
  let '(s', o, e) := get_engine (run ops) i in
  (forall g, glob (run ops) = Some g -> s' = run ops /\ e = Some g) /\
  (glob (run ops) = None -> o = Ok tt -> e = Some i /\ glob s' = Some i).
Proof. exact C05_get_engine_lemma. Qed.
Print Assumptions C05_get_engine_returns_active.

(** Entering a second engine is rejected and does not disturb the active one. *)
Theorem C05_second_engine_rejected : forall ops i j,
  glob (run ops) = Some i -> i <> j -> entered (run ops) j = false ->
  let '(s', o) := enter (run ops) j in
  o = Err ValueError /\ glob s' = Some i /\ (forall k, inited s' k = inited (run ops) k)
  /\ (forall k, k <> j -> entered s' k = entered (run ops) k).
Proof. exact C05_second_rejected_lemma. Qed.
Print Assumptions C05_second_engine_rejected.

(** A with-block on a fresh engine activates it and restores the previous situation. *)
Theorem C05_with_block : forall ops i,
  glob (run ops) = None -> entered (run ops) i = false ->
  let '(s1, o1) := enter (run ops) i in
  let '(s2, o2) := exit_ s1 i in
  o1 = Ok tt /\ glob s1 = Some i /\ o2 = Ok tt /\ glob s2 = None
  /\ (forall k, inited s2 k = inited (run ops) k) /\ (forall k, entered s2 k = entered (run ops) k).
Proof. exact C05_with_lemma. Qed.
Print Assumptions C05_with_block.

(** Finding: a rejected entry is not rolled back; after the active engine is closed the
    rejected engine still cannot be entered. *)
Theorem C63_rejected_engine_reusable_refuted : forall ops i j,
  glob (run ops) = Some i -> i <> j -> entered (run ops) j = false -> entered (run ops) i = true ->
  let s1 := fst (enter (run ops) j) in
  let s2 := fst (exit_ s1 i) in
  glob s2 = None /\ snd (enter s2 j) = Err ValueError.
Proof. exact C05_poison_lemma. Qed.
Print Assumptions C63_rejected_engine_reusable_refuted.

(** The delegating default engine is again the active engine after a successful calculation.
    Finding: after a raising one no engine is active, and leaving the with-block of the
    default engine raises a second error. *)
Theorem C05_default_engine_delegation : forall ops i j ok,
  glob (run ops) = Some i -> i <> j -> entered (run ops) j = false ->
  let '(s', o) := run_default (run ops) i j ok in
  (ok = true -> o = Ok tt /\ glob s' = Some i) /\
  (ok = false -> glob s' = None /\ snd (exit_ s' i) = Err ValueError).
Proof. exact C05_default_lemma. Qed.
Print Assumptions C05_default_engine_delegation.

(** The hypotheses are met: engine 0 active after one entry; 1 is not entered. *)
Example C05_nonvacuous :
  glob (run [OEnter 0]) = Some 0 /\ entered (run [OEnter 0]) 1 = false /\ entered (run [OEnter 0]) 0 = true
  /\ glob (run [OEnter 0; OEnter 1; OExit 0; OInit 2; OReset; OGet 3]) = Some 3
  /\ glob (run [OEnter 0; OExit 0]) = None.
Proof. repeat split. Qed.
