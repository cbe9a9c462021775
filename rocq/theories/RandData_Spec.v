(** Specification vocabulary: random data. *)
From Coq Require Import String.
From Verif Require Import RBase.
Local Open Scope R_scope.
(** a generator of numbers from 0 (included) to 1 (excluded) *)
Definition generator {G} (draw : G -> R * G) : Prop := forall g, 0 <= fst (draw g) < 1.
(** all entries are numbers in the range *)
Definition numbers_in (lo hi : R) (l : list (option R)) : Prop := Forall (fun x => exists y, x = Some y /\ lo <= y <= hi) l.
(** the entries of a list without NaN *)
Definition values (l : list (option R)) : list R := flat_map (fun x => match x with Some y => [y] | None => [] end) l.
