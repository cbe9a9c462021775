(** C124: recombination of results that have size one along the targets or turbines. *)
From Coq Require Import Permutation.
From Verif Require Import Base EngineRun_Model EngineRun_Spec Combine_Model Combine_Proofs.

(** A variable that depends on the state only and comes with one column per chunk (state weights): for every chunking and every completion
    order, the data set gives its value for every state and every target. *)
Theorem C124_broadcast_points : forall (X Y Z : Type) (d : Z) (f : X -> Z) xs (ps : list (list Y)) ls lt sched n_targets s t dX,
  nsum ls = length xs -> lt <> [] -> length lt <= n_targets -> Permutation sched (submit ls lt) -> s < length xs -> t < n_targets ->
  exists m, run_pool (fun xs _ => map (fun x => [f x]) xs) xs ps ls lt sched = Ok m /\ read d (reduce_targets d n_targets (length lt) m) s t = f (nth s xs dX).
Proof. exact @bcast_targets. Qed.
Print Assumptions C124_broadcast_points.
(** a variable with a value for each target is never reduced *)
Theorem C124_full_points : forall (Z : Type) (d : Z) n_targets nct m, m <> [] -> Forall (fun r => length r = n_targets) m ->
  reduce_targets d n_targets nct m = Full m.
Proof. exact @full_targets. Qed.
Print Assumptions C124_full_points.
Theorem C124_broadcast_farm : forall (X Z : Type) (d : Z) (f : X -> Z) xs n s t dX, s < length xs -> t < n ->
  read d (reduce_turbines d n (map (fun x => [f x]) xs)) s t = f (nth s xs dX).
Proof. exact @bcast_turbines. Qed.
Print Assumptions C124_broadcast_farm.
Theorem C124_full_farm : forall (Z : Type) (d : Z) n m, m <> [] -> Forall (fun r => length r = n) m -> reduce_turbines d n m = Full m.
Proof. exact @full_turbines. Qed.
Print Assumptions C124_full_farm.
(** two state chunks, two target chunks for three targets; jobs completing in reverse order *)
Example C124_nonvacuous : run_pool (fun xs (_ : list (list nat)) => map (fun x => [10 * x]) xs) [1; 2; 3] [[0; 0; 0]; [0; 0; 0]; [0; 0; 0]] [2; 1] [2; 1] (rev (submit [2; 1] [2; 1]))
    = Ok [[10; 10]; [20; 20]; [30; 30]] /\
  reduce_targets 0 3 2 [[10; 10]; [20; 20]; [30; 30]] = PerState [10; 20; 30] /\
  reduce_targets 0 2 2 [[10; 10]; [20; 20]; [30; 30]] = Full [[10; 10]; [20; 20]; [30; 30]].
Proof. repeat split; reflexivity. Qed.
