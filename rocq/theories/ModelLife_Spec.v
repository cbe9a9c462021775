(** Specification vocabulary for model lifecycles. *)
From Verif Require Import Base ModelLife_Model.

(** [desc subs i j]: [j] is model [i] itself or one of its direct or indirect sub-models. *)
Inductive desc (subs : nat -> list nat) : nat -> nat -> Prop :=
| desc_refl i : desc subs i i
| desc_step i m j : In m (subs i) -> desc subs m j -> desc subs i j.

(** The sub-model relation is acyclic: sub-models exist before their parents. *)
Definition acyclic (subs : nat -> list nat) : Prop := forall i m, In m (subs i) -> m < i.

(** A flag is down-closed if it holds for all sub-models of a model it holds for. *)
Definition down_closed (subs : nat -> list nat) (flag : nat -> bool) : Prop :=
  forall i m, flag i = true -> In m (subs i) -> flag m = true.

Definition injective (f : nat -> nat) : Prop := forall a b, f a = f b -> a = b.

(** Flags and large data of every model agree; the stash is a local variable of the call. *)
Definition same_lifecycle {V} (s s' : @mst V) : Prop :=
  (forall j, inited s' j = inited s j) /\ (forall j, running s' j = running s j) /\ (forall j, data s' j = data s j).

(** Two model lists that may be set running one after the other: distinct, none inside another. *)
Definition independent_roots (subs : nat -> list nat) (l : list nat) : Prop :=
  NoDup l /\ forall a b, In a l -> In b l -> a <> b -> ~ desc subs a b.
