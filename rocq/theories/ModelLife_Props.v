(** Property theorems C07, C08, C09: model lifecycle. *)
From Verif Require Import Base ModelLife_Model ModelLife_Spec ModelLife_Proofs.

(** C07: initialize, whatever happens inside (including a failing data load at any model):
    keeps "initialized implies sub-models initialized", never un-initializes anything, touches only
    models below [i], changes no running flag or data; on success [i] is initialized (so, by
    closure, its whole tree); and it does succeed if nothing below runs and all loads succeed. *)
Theorem C07_initialize : forall V subs, acyclic subs -> forall load fuel i (s : @mst V),
  i < fuel -> down_closed subs (inited s) ->
  let '(s', o) := initialize subs load fuel s i in
  down_closed subs (inited s') /\
  (forall j, inited s j = true -> inited s' j = true) /\
  (forall j, inited s' j = true -> inited s j = false -> desc subs i j) /\
  running s' = running s /\ data s' = data s /\
  (o = Ok tt -> forall j, desc subs i j -> inited s' j = true) /\
  ((forall j, desc subs i j -> running s j = false /\ load j = true) -> o = Ok tt) /\
  o <> Err OutOfFuel.
Proof. exact initialize_spec. Qed.
Print Assumptions C07_initialize.

(** C07: a second initialize is a no-op, and a running model rejects both calls, unchanged. *)
Theorem C07_initialize_idempotent : forall V subs load fuel i (s : @mst V),
  0 < fuel -> running s i = false -> inited s i = true -> initialize subs load fuel s i = (s, Ok tt).
Proof. exact initialize_idem. Qed.
Print Assumptions C07_initialize_idempotent.

Theorem C07_running_rejects : forall V subs load fuel i (s : @mst V),
  0 < fuel -> running s i = true ->
  initialize subs load fuel s i = (s, Err ValueError) /\ finalize subs fuel s i = (s, Err ValueError).
Proof. exact running_rejects. Qed.
Print Assumptions C07_running_rejects.

(** C07: finalize of a model tree in which nothing runs clears the whole tree and nothing else,
    provided no initialized model hides below an un-initialized one. *)
Theorem C07_finalize : forall V subs, acyclic subs -> forall fuel i (s : @mst V),
  i < fuel ->
  (forall j, desc subs i j -> running s j = false) ->
  (forall j m, desc subs i j -> inited s j = false -> In m (subs j) -> inited s m = false) ->
  exists s', finalize subs fuel s i = (s', Ok tt) /\
    (forall j, desc subs i j -> inited s' j = false) /\
    (forall j, ~ desc subs i j -> inited s' j = inited s j) /\
    running s' = running s /\ data s' = data s.
Proof. exact finalize_spec. Qed.
Print Assumptions C07_finalize.

(** C64: sharing breaks the closure: finalizing one of two initialized models that share a
    sub-model leaves the other "initialized" with an un-initialized sub-model. *)
Theorem C64_shared_submodel_refuted :
  exists (subs : nat -> list nat) (s : @mst unit) (fuel a b c : nat),
    acyclic subs /\ down_closed subs (inited s) /\ (forall j, running s j = false) /\
    In c (subs a) /\ In c (subs b) /\ a <> b /\
    inited s a = true /\ inited s b = true /\ inited s c = true /\
    exists s', finalize subs fuel s a = (s', Ok tt) /\ inited s' b = true /\ inited s' c = false.
Proof. exact shared_refuted. Qed.
Print Assumptions C64_shared_submodel_refuted.

(** C08: a calculation that returns leaves every model exactly as it was: flags and large data. *)
Theorem C08_calculation_restores_models : forall V subs name,
  acyclic subs -> injective name ->
  forall fuel algo args (s : @mst V),
  (forall m, In m (algo :: args) -> m < fuel) ->
  independent_roots subs (algo :: args) ->
  (forall j, running s j = false) ->
  exists s', calc_farm subs name fuel algo args true s = (s', Ok tt) /\ same_lifecycle s s'.
Proof. exact roundtrip_spec. Qed.
Print Assumptions C08_calculation_restores_models.

(** C08 needs distinct model names: two models sharing a name lose data or crash. *)
Theorem C08_name_clash_refuted :
  exists (subs : nat -> list nat) (name : nat -> nat) (fuel algo : nat) (args : list nat) (s : @mst nat),
    acyclic subs /\ (forall m, In m (algo :: args) -> m < fuel) /\
    independent_roots subs (algo :: args) /\ (forall j, running s j = false) /\
    snd (calc_farm subs name fuel algo args true s) <> Ok tt /\
    exists j, data s j <> None /\ data (fst (calc_farm subs name fuel algo args true s)) j <> data s j.
Proof. exact clash_refuted. Qed.
Print Assumptions C08_name_clash_refuted.

(** C09 refuted: after any calculation that raises, the algorithm is left running with its
    data in the lost stash, and every later sequence of calls fails and changes nothing. *)
Theorem C09_usable_after_failure_refuted : forall V subs name,
  acyclic subs -> injective name ->
  forall fuel algo args (s : @mst V),
  (forall m, In m (algo :: args) -> m < fuel) ->
  independent_roots subs (algo :: args) ->
  (forall j, running s j = false) ->
  exists s', calc_farm subs name fuel algo args false s = (s', Err ValueError) /\
    running s' algo = true /\ data s' algo = None /\
    forall cs, fold_left (fun s c => fst (do_call subs name fuel algo s c)) cs s' = s' /\
      forall c, In c cs -> snd (do_call subs name fuel algo s' c) = Err ValueError.
Proof. exact stuck_spec. Qed.
Print Assumptions C09_usable_after_failure_refuted.

(** Non-vacuity: an algorithm 3 with sub-models 2 and 0 (2 has sub-model 0), argument model 4
    sharing sub-model 2. *)
Definition ex_subs (i : nat) : list nat :=
  match i with 2 => [0] | 3 => [2; 0] | 4 => [2] | _ => [] end.
Definition ex_state : @mst nat :=
  mkmst (fun _ => false) (fun _ => false) (fun i => Some (10 + i)) (fun _ => None).
Example ex_acyclic : acyclic ex_subs.
Proof. intros i m H. destruct i as [|[|[|[|[|i]]]]]; cbn in H; intuition lia. Qed.
Example ex_roots : independent_roots ex_subs [3; 4].
Proof.
  split; [repeat constructor; cbn; lia|].
  assert (D : forall a b, desc ex_subs a b -> b <= a).
  { intros a b H. induction H as [|i m j Hm _ IH]; [lia|]. apply ex_acyclic in Hm. lia. }
  intros a b Ha Hb Hne H. pose proof (D _ _ H) as Hle.
  assert (a = 4 /\ b = 3) as [-> ->] by (cbn in Ha, Hb; lia).
  inversion H as [|i m j Hm Hd]; subst. cbn in Hm. apply D in Hd. lia.
Qed.
Example ex_roundtrip_runs :
  snd (calc_farm ex_subs (fun i => i) 5 3 [4] true ex_state) = Ok tt /\
  (forall j, running ex_state j = false).
Proof. split; [vm_compute; reflexivity|reflexivity]. Qed.
Example ex_init_runs :
  snd (initialize ex_subs (fun i => negb (i =? 0)) 5 ex_state 3) = Err KeyError /\
  snd (initialize ex_subs (fun _ => true) 5 ex_state 3) = Ok tt.
Proof. split; vm_compute; reflexivity. Qed.
