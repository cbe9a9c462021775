(** Property theorems C10, C65, C66, C67: the chunk store. *)
From Verif Require Import Base ChunkStore_Model ChunkStore_Spec ChunkStore_Proofs.
Local Open Scope Z_scope.

(** C10: after any history, reading the current chunk gives the last value stored for its offsets
    and name since the last reset; otherwise KeyError (or None with error=False). *)
Theorem C10_read_last_stored : forall V (ops : list (@op V)) n g error,
  get (run ops) n g 0 0 error =
  match last_stored n (g_i0 g) (g_t0 g) (rev ops) with
  | Some v => Ok (Some v)
  | None => if error then Err KeyError else Ok None
  end.
Proof. exact @get_current. Qed.
Print Assumptions C10_read_last_stored.

(** C10: walking back [ps] state chunks and [pt] target chunks from chunk (a, b) of any chunk grid
    reaches chunk (a - ps, b - pt) and reads what was last stored there, provided the chunks passed
    on the way have been stored. *)
Theorem C10_walk_back : forall V (ss ts : list Z),
  Forall (fun x => 0 < x) ss -> (ts = [0] \/ Forall (fun x => 0 < x) ts) ->
  forall (ops : list (@op V)) n a b ps pt error,
  Forall (on_grid ss ts) ops ->
  (a < length ss)%nat -> (b < length ts)%nat -> (ps <= a)%nat -> (pt <= b)%nat ->
  (forall k, (b - pt <= k < b)%nat -> stored_chunk ss ts a k (run ops)) ->
  (forall k, (a - ps <= k < a)%nat -> stored_chunk ss ts k (b - pt) (run ops)) ->
  find_chunk (run ops) (grid ss ts a b) ps pt error = Ok (Some (grid ss ts (a - ps) (b - pt))) /\
  get (run ops) n (grid ss ts a b) ps pt error =
  match last_stored n (off ss (a - ps)) (off ts (b - pt)) (rev ops) with
  | Some v => Ok (Some v)
  | None => if error then Err KeyError else Ok None
  end.
Proof. exact @walk_back_spec. Qed.
Print Assumptions C10_walk_back.

(** C10: if the preceding state chunk was not stored (for instance because there is none), the
    read reports that and does not return another chunk's data. *)
Theorem C10_missing_predecessor : forall V (ss ts : list Z),
  Forall (fun x => 0 < x) ss ->
  forall (ops : list (@op V)) n a b error,
  Forall (on_grid ss ts) ops -> (a < length ss)%nat -> (b < length ts)%nat -> run ops <> [] ->
  (forall a', (S a' = a)%nat -> ~ stored_chunk ss ts a' b (run ops)) ->
  get (run ops) n (grid ss ts a b) 1 0 error = if error then Err KeyError else Ok None.
Proof. exact @get_missing. Qed.
Print Assumptions C10_missing_predecessor.

(** C10: reset hands back the old content and leaves an empty store; passing the old store back
    restores it. *)
Theorem C10_reset : forall V (s : @store V),
  snd (reset None s) = s /\ fst (reset None s) = [] /\
  fst (reset (Some (snd (reset None s))) (fst (reset None s))) = s /\
  forall n g error, get (fst (reset None s)) n g 0 0 error = if error then Err KeyError else Ok None.
Proof. exact @reset_spec. Qed.
Print Assumptions C10_reset.

(** C65 refuted: with error=False a look-back into an empty store still raises (IndexError); on a
    non-empty store it never raises. *)
Theorem C65_error_false_never_raises_refuted : forall V n g ps pt,
  (0 < ps \/ 0 < pt)%nat -> get ([] : @store V) n g ps pt false = Err IndexError.
Proof. exact @empty_raises. Qed.
Print Assumptions C65_error_false_never_raises_refuted.

Theorem C65_error_false_nonempty_partial : forall V (s : @store V) n g ps pt,
  s <> [] -> exists r, get s n g ps pt false = Ok r.
Proof. exact @nonempty_no_raise. Qed.
Print Assumptions C65_error_false_nonempty_partial.

(** C66: after an iterative run over isolated worker processes, the merged store holds for every
    chunk exactly what that chunk's worker stored last, whatever the earlier store content and for
    any number of chunks with distinct offsets, in any collection order. *)
Theorem C66_merge_keeps_all_chunks : forall V (ops : list (@op V)) chunks g adds n v error,
  NoDup (map (fun c => (g_i0 (fst c), g_t0 (fst c))) chunks) ->
  In (g, adds) chunks -> dget n (rev adds) = Some v ->
  get (merge_all (run ops) chunks) n g 0 0 error = Ok (Some v).
Proof. exact @merge_all_spec. Qed.
Print Assumptions C66_merge_keeps_all_chunks.

(** C67: with a thread pool, a non-iterative run never loses a chunk's stored data, for any number
    of workers and every interleaving; an iterative run can: some interleaving of two workers makes
    one of them fail with KeyError. *)
Theorem C67_threads_noniterative_partial : forall sched k,
  snd (texec false sched tinit (fun _ => P0)) k <> Bad.
Proof. exact threads_safe. Qed.
Print Assumptions C67_threads_noniterative_partial.

Theorem C67_threads_iterative_refuted : exists sched k,
  snd (texec true sched tinit (fun _ => P0)) k = Bad.
Proof. exact threads_race. Qed.
Print Assumptions C67_threads_iterative_refuted.

(** Non-vacuity: two state chunks (sizes 3, 2) and two target chunks (4, 1), all stored. *)
Definition ex_ss := [3; 2]. Definition ex_ts := [4; 1].
Definition ex_ops : list (@op nat) :=
  [Add 7 1%nat (grid ex_ss ex_ts 0 0); Add 7 2%nat (grid ex_ss ex_ts 0 1);
   Add 7 3%nat (grid ex_ss ex_ts 1 0); Add 7 4%nat (grid ex_ss ex_ts 1 1); Add 7 5%nat (grid ex_ss ex_ts 0 0)].
Example ex_on_grid : Forall (on_grid ex_ss ex_ts) ex_ops.
Proof. repeat constructor; cbn; [exists 0%nat, 0%nat|exists 0%nat, 1%nat|exists 1%nat, 0%nat|exists 1%nat, 1%nat|exists 0%nat, 0%nat]; auto. Qed.
Example ex_walk : get (run ex_ops) 7 (grid ex_ss ex_ts 1 1) 1 1 true = Ok (Some 5%nat)
  /\ get (run ex_ops) 7 (grid ex_ss ex_ts 1 1) 1 0 true = Ok (Some 2%nat)
  /\ get (run ex_ops) 7 (grid ex_ss ex_ts 0 1) 1 0 false = Ok None.
Proof. repeat split; vm_compute; reflexivity. Qed.
Example ex_stored : stored_chunk ex_ss ex_ts 1 0 (run ex_ops) /\ stored_chunk ex_ss ex_ts 0 0 (run ex_ops).
Proof.
  split; [exists (mkentry 3 2 0 4 [(7, 3)]%nat)|exists (mkentry 0 3 0 4 [(7, 5)]%nat)]; (split; [vm_compute; tauto|split; reflexivity]).
Qed.
Example ex_merge : get (merge_all [] [(grid ex_ss [0] 0 0, [(7, 1); (7, 2)]%nat); (grid ex_ss [0] 1 0, [(7, 3)]%nat)]) 7 (grid ex_ss [0] 0 0) 0 0 true = Ok (Some 2%nat).
Proof. vm_compute; reflexivity. Qed.
