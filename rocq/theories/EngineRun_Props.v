(** Properties C03 and C04: parallel chunked evaluation. *)
From Verif Require Import Base EngineRun_Model EngineRun_Spec Chunk_Model Chunk_Spec EngineRun_Proofs.
From Coq Require Import Permutation.

(** C03. Point calculation: for every engine setting, the chunks computed by the engine, and
    every completion order [sched] of the submitted jobs, the pool result is the single-chunk
    result. *)
Theorem C03_points_chunked_eq_single :
  forall (X Y V : Type) (calc : list X -> list (list Y) -> list (list V)),
    per_pair calc ->
    forall np css csp xs ps nt ls lt fuel sched,
      valid_setting np css csp ->
      1 <= length xs -> 1 <= nt -> shape ps (length xs) nt ->
      length xs <= fuel ->
      calc_chunk_sizes fuel np css csp (Z.of_nat (length xs)) (Z.of_nat nt) = Ok (ls, lt) ->
      Permutation sched (submit (map Z.to_nat ls) (map Z.to_nat lt)) ->
      run_pool calc xs ps (map Z.to_nat ls) (map Z.to_nat lt) sched = run_single calc xs ps.
Proof. exact engine_points_lemma. Qed.
Print Assumptions C03_points_chunked_eq_single.

(** The same for an arbitrary partition, and against the plain unchunked model call. *)
Theorem C03_any_partition :
  forall (X Y V : Type) (calc : list X -> list (list Y) -> list (list V)),
    per_pair calc ->
    forall xs ps nt ls lt sched,
      shape ps (length xs) nt -> nsum ls = length xs -> nsum lt = nt -> lt <> [] ->
      Permutation sched (submit ls lt) ->
      run_pool calc xs ps ls lt sched = Ok (calc xs ps).
Proof. exact any_chunks_lemma. Qed.
Print Assumptions C03_any_partition.

(** Farm calculation: states are chunked, turbines of a state may interact arbitrarily. *)
Theorem C03_farm_chunked :
  forall (X V : Type) (calc : list X -> list V),
    per_state calc ->
    forall np css csp xs ls lt fuel sched,
      valid_setting np css csp -> 1 <= length xs -> length xs <= fuel ->
      calc_chunk_sizes fuel np css csp (Z.of_nat (length xs)) 0 = Ok (ls, lt) ->
      Permutation sched (submit (map Z.to_nat ls) (map Z.to_nat lt)) ->
      run_pool_farm calc xs (map Z.to_nat ls) sched = Ok (calc xs).
Proof. exact engine_farm_lemma. Qed.
Print Assumptions C03_farm_chunked.

(** 3 states, 4 targets, chunks [1;2] x [3;1], jobs completing in reverse order. *)
Example C03_nonvacuous :
  let calc := fun (xs : list nat) (ps : list (list nat)) =>
     map (fun xr => map (fun y => fst xr * 100 + y) (snd xr)) (combine xs ps) in
  per_pair calc /\
  run_pool calc [1; 2; 3] [[1;2;3;4]; [5;6;7;8]; [9;10;11;12]] [1; 2] [3; 1] (rev (submit [1; 2] [3; 1]))
  = Ok [[101;102;103;104]; [205;206;207;208]; [309;310;311;312]].
Proof. split; [exists (fun x y => x * 100 + y); reflexivity | vm_compute; reflexivity]. Qed.

(** C04. Engine.map of a pool engine returns what the sequential map returns. *)
Theorem C04_pool_map_eq_map :
  forall (A B : Type) (f : A -> B) (np : nat) (inputs : list A) (sched : list (nat * list A)),
    1 <= np -> Permutation sched (submit_map np inputs) ->
    pool_map f np inputs sched = Ok (map f inputs).
Proof. exact @pool_map_ok. Qed.
Print Assumptions C04_pool_map_eq_map.

Example C04_nonvacuous :
  submit_map 3 [1;2;3;4;5;6;7] = [(0, [1;2;3]); (1, [4;5]); (2, [6;7])] /\
  pool_map S 3 [1;2;3;4;5;6;7] [(2, [6;7]); (0, [1;2;3]); (1, [4;5])] = Ok [2;3;4;5;6;7;8].
Proof. split; vm_compute; reflexivity. Qed.
