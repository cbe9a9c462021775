(** Specification vocabulary for turbine orders. *)
From Verif Require Import Base.
From Coq Require Import Permutation.

(** A processing order of [n] turbines: position k holds the index of the turbine processed k-th. *)
Definition isperm (n : nat) (o : list nat) : Prop := Permutation o (seq 0 n).

(** An array in processing order holding, in state s at position k, the value [g s i] of the turbine i
    processed there (states numbered from [s0]). *)
Definition processed {A} (g : nat -> nat -> A) (s0 : nat) (os : list (list nat)) : list (list A) :=
  map (fun so => map (g (fst so)) (snd so)) (combine (seq s0 (length os)) os).
(** The same values in farm order. *)
Definition farm_view {A} (g : nat -> nat -> A) (s0 S n : nat) : list (list A) :=
  map (fun s => map (g s) (seq 0 n)) (seq s0 S).

(** A selection of all states and turbines; user settings without NaN for n turbines. *)
Definition full n (sels : list (list bool)) : Prop := Forall (fun r => length r = n /\ Forall (fun b => b = true) r) sels.
Definition settings {V : Type} n (m : list (list (option V))) : Prop :=
  Forall (fun r => length r = n /\ Forall (fun x => x <> None) r) m.
