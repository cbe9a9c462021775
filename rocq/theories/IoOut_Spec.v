(** What the windIO schema says about requested outputs. *)
From Coq Require Import String.
From Verif Require Import RBase.
Local Open Scope string_scope.
Local Open Scope R_scope.
(** the windIO names of turbine results and what they mean here *)
Inductive turb_meaning : string -> string -> Prop :=
| power_is : turb_meaning "power" "P"
| rev_is : turb_meaning "rotor_effective_velocity" "REWS".
(** the windIO names of flow variables *)
Inductive flow_meaning : string -> string -> Prop :=
| speed_is : flow_meaning "wind_speed" "WS"
| direction_is : flow_meaning "wind_direction" "WD".
(** [l'] are the entries of [l] at the positions [idx], one after the other; position -1 is the last one *)
Definition entries {A} (l : list A) (idx : list Z) (l' : list A) : Prop :=
  let n := Z.of_nat (List.length l) in
  Forall2 (fun i x => (- n <= i < n)%Z /\ nth_error l (Z.to_nat (i mod n)) = Some x) idx l'.
(** the selection of states by the entries all_occurences and subset of cases_run *)
Definition chosen {A} (all : bool) (subset : option (list Z)) (l l' : list A) : Prop :=
  if all then l' = l else exists idx, subset = Some idx /\ entries l idx l'.
(** strictly increasing *)
Fixpoint ascending (l : list R) : Prop := match l with x :: ((y :: _) as r) => x < y /\ ascending r | _ => True end.
(** [x'] is [x] up to half of a unit in the last of [d] decimals *)
Definition shown (d : nat) (x x' : R) : Prop := Rabs (x' - x) <= / 2 * / 10 ^ d.
