(** The default engine (foxes/engines/default.py): its choice between a process pool and one chunk, and its runs. Exact reals for the floats of the rule. *)
From Verif Require Export RBase Chunk_Model EngineRun_Model.
Local Open Scope R_scope.

(** the choice, default.py:91-99; n_turbines = 0: ZeroDivisionError, default.py:91. True: "process", False: "single" *)
Definition choose_process (np nt ns : nat) (targets : option nat) : result bool :=
  if (nt =? 0)%nat then Err ZeroDivisionError
  else Ok (Rleb (sqrt (INR np) * Rpower (500 / INR nt) 1.5) (INR ns) || match targets with Some m => (10000 <? ns * m)%nat | None => false end).
Section Runs.
  Context {X Y V : Type}.
  (** point calculations: default.py:101-118, process: engines/pool.py:190-297, single: engines/single.py:121-171 *)
  Definition default_points (calc : list X -> list (list Y) -> list (list V)) (np nt : nat) (css csp : option Z) (xs : list X) (ps : list (list Y)) (sched : list job) : result (list (list V)) :=
    bind (choose_process np nt (length xs) (Some (length (hd [] ps)))) (fun b =>
    if b then bind (calc_chunk_sizes (length xs) (Z.of_nat np) css csp (Z.of_nat (length xs)) (Z.of_nat (length (hd [] ps)))) (fun ch => run_pool calc xs ps (map Z.to_nat (fst ch)) (map Z.to_nat (snd ch)) sched)
    else run_single calc xs ps).
  (** farm calculations: default.py:101-118 with point_data = None; the single chunk is combined as it is, engines/single.py:158-171 *)
  Definition default_farm (calc : list X -> list V) (np nt : nat) (css csp : option Z) (xs : list X) (sched : list job) : result (list V) :=
    bind (choose_process np nt (length xs) None) (fun b =>
    if b then bind (calc_chunk_sizes (length xs) (Z.of_nat np) css csp (Z.of_nat (length xs)) 0) (fun ch => run_pool_farm calc xs (map Z.to_nat (fst ch)) sched)
    else combine_farm [((0, 0)%nat, calc (slice 0 (length xs) xs))] 0 1).
End Runs.
