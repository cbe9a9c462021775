(** Specification for C267. *)
From Verif Require Import Base Calculator_Model.
Local Open Scope nat_scope.

(** functions that treat every element alike, with no regard to the selection *)
Definition elementwise {A} (g : func A) (f : A -> A) : Prop := forall s l, g s l = map f l.
(** functions that change the selected elements only *)
Definition selective {A} (g : func A) (f : A -> A) : Prop :=
  (forall l, g None l = map f l) /\
  (forall k l, length (g (Some k) l) = length l /\ forall j d, j < length l -> nth j (g (Some k) l) d = if Nat.eq_dec j k then f (nth j l d) else nth j l d).
(** f applied n times *)
Fixpoint times {A} (n : nat) (f : A -> A) (x : A) : A := match n with 0 => x | S m => f (times m f x) end.
(** the value that the models before assign to the turbine at position k at last: the first turbine keeps the ambient value *)
Definition own {A} (amb : list A) (models : list (nat -> A)) (k : nat) (d : A) : A :=
  match k with 0 => nth 0 amb d | _ => last (map (fun w => w k) models) (nth k amb d) end.
