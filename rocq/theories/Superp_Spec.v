(** Specification vocabulary for superpositions. *)
From Verif Require Import RBase Superp_Model.
Local Open Scope R_scope.

(** positive exponents *)
Definition pow_ok (s : superp) : Prop := match s with WSPow p | WSPowLocal p | TIPow p => 0 < p | _ => True end.
(** physically: a wind deficit, or an added turbulence *)
Definition good (s : superp) (c : contrib) : Prop :=
  match c with None => True | Some (scale, r) => if is_ws s then 0 <= scale /\ r <= 0 else 0 <= r end.
(** the factor a call applies to element i, and products *)
Definition factor (i : nat) (rs : list (option R)) : R := match nth i rs None with Some x => 1 + x | None => 1 end.
Fixpoint rprod (l : list R) : R := match l with [] => 1 | x :: l' => x * rprod l' end.
(** the array never degenerates to (almost) zero everywhere *)
Fixpoint stays (ds : list R) (calls : list (list (option R))) : Prop :=
  match calls with [] => True | c :: cs => all_tiny ds = false /\ stays (mul_sel ds c) cs end.
(** the contributions of the turbines whose wake covers the point: (scale, result) *)
Fixpoint covering (cs : list contrib) : list (R * R) :=
  match cs with [] => [] | Some c :: cs' => c :: covering cs' | None :: cs' => covering cs' end.
(** absolute and local results *)
Definition absol (cs : list contrib) : list R := map (fun c => fst c * snd c) (covering cs).
Definition local (cs : list contrib) : list R := map snd (covering cs).
(** sums of squares, of p-th powers, and the largest non-negative element *)
Definition sumsq (l : list R) : R := rsum (map (fun x => x * x) l).
Definition sumpow (p : R) (l : list R) : R := rsum (map (fun x => npow x p) l).
Fixpoint largest (l : list R) : R := match l with [] => 0 | x :: l' => Rmax x (largest l') end.
(** The combination each superposition is named after: change of the ambient value [amb] *)
Definition combination (s : superp) (quad : bool) (amb : R) (cs : list contrib) : R :=
  match s with
  | WSLinear => rsum (absol cs)
  | WSLinearLocal => amb * rsum (local cs)
  | WSQuadratic => - sqrt (sumsq (absol cs))
  | WSQuadraticLocal => - (amb * sqrt (sumsq (local cs)))
  | WSMax => - largest (map Rabs (absol cs))
  | WSMaxLocal => - (amb * largest (map Rabs (local cs)))
  | WSPow p => - npow (sumpow p (map Rabs (absol cs))) (1 / p)
  | WSPowLocal p => - (amb * npow (sumpow p (map Rabs (local cs))) (1 / p))
  | TILinear => let t := rsum (local cs) in if quad then sqrt (amb * amb + t * t) - amb else t
  | TIQuadratic => let t2 := sumsq (local cs) in if quad then sqrt (amb * amb + t2) - amb else sqrt t2
  | TIMax => let t := largest (local cs) in if quad then sqrt (amb * amb + t * t) - amb else t
  | TIPow p => let t := npow (sumpow p (local cs)) (1 / p) in if quad then sqrt (amb * amb + t * t) - amb else t
  end.
