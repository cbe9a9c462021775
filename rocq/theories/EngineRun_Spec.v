(** Specification vocabulary for chunked evaluation. *)
From Verif Require Import Base.

(** A model treating every (state, target) pair independently of all others. *)
Definition per_pair {X Y Z} (calc : list X -> list (list Y) -> list (list Z)) : Prop :=
  exists g : X -> Y -> Z, forall xs ps,
    calc xs ps = map (fun xr => map (g (fst xr)) (snd xr)) (combine xs ps).

(** A farm model treating every state independently of the others (within a state the
    turbines may interact in any way). *)
Definition per_state {X Z} (calc : list X -> list Z) : Prop :=
  exists g : X -> Z, forall xs, calc xs = map g xs.

(** Point data of [ns] states and [nt] targets. *)
Definition shape {Y} (ps : list (list Y)) (ns nt : nat) : Prop :=
  length ps = ns /\ Forall (fun r => length r = nt) ps.

Definition nsum (l : list nat) : nat := fold_right Nat.add 0 l.
