(** The main loop of the iterative algorithm.
    /repo/foxes/algorithms/iterative/iterative.py:162-244 (_collect_farm_models), 251-255, 270-345 (calc_farm).
    [R]: farm results of one run (all states). Each run starts from the farm results passed as
    farm_data ([None]: no previous results). Simplification: max_it >= 0. *)
From Verif Require Import Base FarmWakes_Model.

Section Loop.
  Context {R : Type}.

  (** The model lists: the initial one (outputs=False, i.e. without ReorderFarmOutput), only the wake
      calculation, only the re-ordering into farm order. -- algorithms/iterative/iterative.py:163-244 (_collect_farm_models) and 270-400 (calc_farm) *)
  Inductive mkind := MFull | MWakes | MReorder.
  (** lines 171-244; [amb]: [ambient or self._reamb]. *)
  Definition collect (it : nat) (final amb : bool) : mkind :=
    if it =? 0 then MFull else if amb then MFull else if final then MReorder else MWakes.

  Variable run : mkind -> option R -> R.
  (** eval_conv_block() after iteration [it]. *)
  Variable block : nat -> bool.
  (** conv_crit.check_converged(prev, results), if there is a criterion. *)
  Variable crit : option (option R -> R -> bool).
  Variable amb : bool.

  (** algorithms/iterative/iterative.py:270-400: the convergence test *)
  Definition stop (it : nat) (prev : option R) (r : R) : bool :=
    match crit with None => false | Some c => if block it then false else c prev r end.

  (** lines 296-326, [k] more iterations allowed after this one. Result: farm_data of the last iteration
      (self.__prev_farm_results), its results, its number. *)
  Fixpoint iter_loop (k it : nat) (fres : option R) : option R * R * nat :=
    let r := run (collect it false amb) fres in
    if stop it fres r then (fres, r, it)
    else match k with
         | O => (fres, r, it)
         | S k' => iter_loop k' (S it) (Some r)
         end.
  (** lines 296-345: (fres, fres_dwnd, iterations); the final run gets self.__prev_farm_results as farm_data. *)
  Definition calc_farm_iter (max_it : nat) : R * R * nat :=
    let '(prev, r, it) := iter_loop max_it 0 None in (run (collect it true amb) prev, r, it).
End Loop.

(** iterative.py:74: the default iteration limit for n turbines. *)
Definition default_max_it (n : nat) : nat := 2 + n * n.

(** The runs for one state: the full list ends with one sweep from ambient conditions; a wake run is one
    sweep from the given results; the final run only re-orders. -- algorithms/iterative/iterative.py:270-400, models/farm_wakes_calc.py:156-163 *)
Definition sweep_run {T F D W} (amb : T -> W) (ev : T -> W -> F) (reord : list F -> list F)
  (ws : list (@wmodel T F D W)) (ts : list T) (m : mkind) (prev : option (list F)) : list F :=
  match m, prev with
  | MFull, _ => sweeps amb ev ws ts 1
  | MWakes, Some r => sweep amb ev ws ts r
  | MReorder, Some r => reord r
  | _, None => []
  end.
