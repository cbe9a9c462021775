(** Specification vocabulary for file names. *)
From Coq Require Import String.
From Verif Require Import Base Paths_Model.

(** the file that a user names by [p], when relative names start at [base] *)
Definition meant (base p q : path) : Prop :=
  (p_abs p = true -> q = p)
  /\ (p_abs p = false -> p_abs q = p_abs base /\ p_parts q = (p_parts base ++ p_parts p)%list).
(** the last value that was given, in a list of optional values in the order of time *)
Fixpoint last_given {A} (l : list (option A)) : option A :=
  match l with
  | [] => None
  | x :: r => match last_given r with Some v => Some v | None => x end
  end.
(** a directory from which relative names can be resolved again and again *)
Definition stable (base : path) : Prop := p_abs base = true \/ p_parts base = [].
