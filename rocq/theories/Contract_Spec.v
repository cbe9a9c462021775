(** Specification vocabulary: how far the result of an accepted iteration is from the exact solution (C246). *)
From Verif Require Import RBase Superp_Model FarmWakes_Model PointWakes_Model Conv_Model IterLoop_Model.
Local Open Scope R_scope.
(** two arrays of the same size that differ by at most [d] in every element *)
Definition within (d : R) (a b : list R) : Prop := length a = length b /\ forall i, Rabs (nth i a 0 - nth i b 0) <= d.
(** one sweep over [n] turbines reduces all differences by the factor [q] *)
Definition contracts (n : nat) (q : R) (f : list R -> list R) : Prop :=
  0 <= q < 1 /\ (forall a, length a = n -> length (f a) = n) /\
  forall d a b, length a = n -> within d a b -> within (q * d) (f a) (f b).
(** the solution of the coupled equations: a sweep reproduces it *)
Definition solution (n : nat) (f : list R -> list R) (x : list R) : Prop := length x = n /\ f x = x.
(** the criterion ConvVarDelta({v: tol}), algorithms/iterative/models/convergence.py:199-247; a crash is not an acceptance *)
Definition delta_crit (tol : R) (verbose : bool) (prev : option (list R)) (r : list R) : bool :=
  match check_converged (fun _ => false) [(0%nat, tol)] verbose
          (option_map (fun p v => if Nat.eqb v 0 then Some (map Some p) else None) prev)
          (fun v => if Nat.eqb v 0 then Some (map Some r) else None) with
  | Ok true => true | _ => false end.
(** The runs of the iterative algorithm: first results, sweeps, re-ordering. *)
Definition runs_as (run : mkind -> option (list R) -> list R) (x0 : list R) (f reord : list R -> list R) : Prop :=
  run MFull None = x0 /\ (forall x, run MWakes (Some x) = f x) /\ (forall x, run MReorder (Some x) = reord x).
(** re-ordering moves values around: it does not enlarge differences *)
Definition moves_only (n : nat) (reord : list R -> list R) : Prop := forall d a b, length a = n -> within d a b -> within d (reord a) (reord b).

(** The wind speed deficit that a contribution stands for: relative to the wind speed of the wake causing turbine, or (the "local" superpositions)
    to the ambient wind speed at the target *)
Definition deficit_of (s : superp) (amb : R) (c : contrib) : R :=
  match c with
  | None => 0
  | Some (scale, r) => match s with WSLinearLocal | WSQuadraticLocal | WSMaxLocal | WSPowLocal _ => amb * r | _ => scale * r end
  end.
(** wind speed superpositions; powers p >= 1 *)
Definition norm_like (s : superp) : Prop := is_ws s = true /\ match s with WSPow p | WSPowLocal p => 1 <= p | _ => True end.
Section Sens.
  Context {T P : Type}.
  Variables (amb : P -> R) (hub : T -> P).
  (** [L t t']: how much the deficit of turbine [t] at turbine [t'] changes at most, per change of the wind speed at [t] *)
  Definition sensitive (m : swake T R P) (L : T -> T -> R) : Prop :=
    forall t t' u v, Rabs (deficit_of (sm_s m) (amb (hub t')) (sm_c m t u (hub t')) - deficit_of (sm_s m) (amb (hub t')) (sm_c m t v (hub t'))) <= L t t' * Rabs (u - v).
End Sens.
(** sum over all turbines other than number [j] *)
Definition others_sum {T} (L : T -> T -> R) (ts : list T) (dT : T) (j : nat) : R :=
  rsum (map (fun i => if Nat.eqb i j then 0 else L (nth i ts dT) (nth j ts dT)) (seq 0 (length ts))).
