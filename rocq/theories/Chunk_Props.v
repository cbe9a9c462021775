(** Properties C01, C02, C06: chunk sizes of the engines. *)
From Verif Require Import Base Chunk_Model Chunk_Spec Chunk_Proofs.
Local Open Scope Z_scope.

(** C01. For every admissible setting and every problem with at least one state, the
    computation returns (no exception, the while loop ends) chunk lists that partition the
    states and, if there are targets, the targets. (n_targets = 0 is the farm calculation:
    then the target chunk list is [0].) The fuel bound shows that the while loop runs at most
    n_states times. *)
Theorem C01_chunks_partition :
  forall np css csp ns nt fuel,
    valid_setting np css csp -> 1 <= ns -> 0 <= nt -> ns <= Z.of_nat fuel ->
    exists ls lt, calc_chunk_sizes fuel np css csp ns nt = Ok (ls, lt)
      /\ partitions ls ns
      /\ (1 <= nt -> partitions lt nt) /\ (nt = 0 -> lt = [0]).
Proof. exact C01_lemma. Qed.
Print Assumptions C01_chunks_partition.

Example C01_nonvacuous :
  valid_setting 4 None None /\
  calc_chunk_sizes 10 4 None None 10 1003 = Ok ([2; 2; 3; 3], [250; 251; 251; 251]).
Proof. split; [repeat split; try discriminate; lia | vm_compute; reflexivity]. Qed.
(** a case in which the while loop shrinks the state chunks from 250 to 4 *)
Example C01_nonvacuous_loop :
  calc_chunk_sizes 1000 4 None None 1000 1003
  = Ok (repeat 4 5 ++ repeat 5 196, [250; 251; 251; 251]).
Proof. vm_compute; reflexivity. Qed.

(** C02. Balanced, and at most one item above the requested size. *)
Theorem C02_chunks_balanced :
  forall np css csp ns nt fuel ls lt,
    valid_setting np css csp -> 1 <= ns -> 0 <= nt -> ns <= Z.of_nat fuel ->
    calc_chunk_sizes fuel np css csp ns nt = Ok (ls, lt) ->
    balanced ls /\ balanced lt
    /\ (forall c, css = Some c -> Forall (fun x => x <= c + 1) ls)
    /\ (forall c, csp = Some c -> Forall (fun x => x <= c + 1) lt).
Proof. exact C02_lemma. Qed.
Print Assumptions C02_chunks_balanced.

(** The stronger reading "no chunk exceeds the requested size" is false of the code. *)
Theorem C02_chunk_size_exceeded_refuted :
  exists np css ns ls lt, calc_chunk_sizes 100 np (Some css) None ns 0 = Ok (ls, lt) /\
    1 <= np /\ 1 <= css /\ Exists (fun x => css < x) ls.
Proof. exact chunk_bound_refuted. Qed.
Print Assumptions C02_chunk_size_exceeded_refuted.

(** C06. The state dimension is reported exactly when its chunk size is set; the point
    dimension is missed when only the point chunk size is set. *)
Theorem C06_loop_dims_states :
  forall css csp, In DState (loop_dims css csp) <-> css <> None.
Proof. exact loop_dims_states. Qed.
Print Assumptions C06_loop_dims_states.

Theorem C06_loop_dims_targets_refuted :
  forall csp, csp <> None -> ~ In DTarget (loop_dims None csp).
Proof. exact loop_dims_targets_missed. Qed.
Print Assumptions C06_loop_dims_targets_refuted.

Theorem C06_loop_dims_targets_partial :
  forall css csp, css <> None -> (In DTarget (loop_dims css csp) <-> csp <> None).
Proof. exact loop_dims_targets. Qed.
Print Assumptions C06_loop_dims_targets_partial.
