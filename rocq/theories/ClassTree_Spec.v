(** Specification vocabulary: inheritance (C248). *)
From Coq Require Import String.
From Verif Require Import Base ClassTree_Model.
(** a class is defined after its bases *)
Definition well_founded_tree (tr : tree) : Prop := forall c b, In b (bases_of tr c) -> b < c.
(** [d] is derived from [c], directly or over several steps *)
Inductive inherits (tr : tree) : nat -> nat -> Prop :=
| inh_direct d c : In c (bases_of tr d) -> inherits tr d c
| inh_step d b c : In b (bases_of tr d) -> inherits tr b c -> inherits tr d c.
(** an order of iteration over a set: every member occurs, nothing else does *)
Definition iterates (it : list nat) (s : nat -> Prop) : Prop := forall x, In x it <-> s x.
(** only one class derived from [base] has the name *)
Definition one_name (tr : tree) (base : nat) (n : string) : Prop := forall d e, inherits tr d base -> inherits tr e base -> name_of tr d = Some n -> name_of tr e = Some n -> d = e.
