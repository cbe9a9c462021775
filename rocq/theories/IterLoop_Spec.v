(** Specification vocabulary for the iteration. *)
From Verif Require Import Base IterLoop_Model.

(** The results of iterations 0, 1, 2, ... if nothing stops the loop. *)
Fixpoint iterate {R} (run : mkind -> option R -> R) (amb : bool) (i : nat) : R :=
  match i with
  | O => run MFull None
  | S i' => run (if amb then MFull else MWakes) (Some (iterate run amb i'))
  end.
(** The previous results at iteration i. *)
Definition before {R} (run : mkind -> option R -> R) (amb : bool) (i : nat) : option R :=
  match i with O => None | S i' => Some (iterate run amb i') end.
(** The convergence check passes at iteration i: a criterion exists, nothing blocks, it accepts. *)
Definition passes {R} (run : mkind -> option R -> R) (block : nat -> bool) (crit : option (option R -> R -> bool)) (amb : bool) (i : nat) : Prop :=
  exists c, crit = Some c /\ block i = false /\ c (before run amb i) (iterate run amb i) = true.
