(** Superposition of wakes in float arithmetic: foxes/models/wake_superpositions, one array element. Floats as in Float_Model. *)
From Coq Require Import ZArith Reals Lra Lia List.
From Flocq Require Import Core.
From Verif Require Import RBase Superp_Model Float_Model.
Import ListNotations.
Local Open Scope R_scope.

(** The float that one wake adds, foxes/models/wake_superpositions: ws_linear.py:134,290; ws_quadratic.py:134,290 (numpy evaluates x**2 as x * x); ws_max.py:134-137,293-296; ws_pow.py:139,301;
    ti_linear.py:90; ti_quadratic.py:90; ti_max.py:90; ti_pow.py:97. [fpow]: the power function of numpy, of which nothing is assumed but that it returns floats *)
Definition f_term (fpow : R -> R -> R) (s : superp) (scale r : R) : R :=
  match s with
  | WSLinear => fmul scale r
  | WSLinearLocal => r
  | WSQuadratic => fmul (fmul scale r) (fmul scale r)
  | WSQuadraticLocal => fmul r r
  | WSMax => Rabs (fmul scale r)
  | WSMaxLocal => Rabs r
  | WSPow p => fpow (Rabs (fmul scale r)) p
  | WSPowLocal p => fpow (Rabs r) p
  | TILinear => r
  | TIQuadratic => fmul r r
  | TIMax => r
  | TIPow p => fpow r p
  end.
(** foxes/models/wake_superpositions/{ws_max,ti_max}.py take maxima, all others sums *)
Definition is_max (s : superp) : bool := match s with WSMax | WSMaxLocal | TIMax => true | _ => false end.
(** add_wake: the lines of f_term *)
Definition f_add_wake (fpow : R -> R -> R) (s : superp) (delta : R) (c : contrib) : R :=
  match c with
  | None => delta
  | Some (scale, r) => if is_max s then Rmax delta (f_term fpow s scale r) else fadd delta (f_term fpow s scale r)
  end.
(** all wakes, in the order of calculation, starting at zero: foxes/core/wake_model.py:33-94 *)
Definition f_wake_delta (fpow : R -> R -> R) (s : superp) (cs : list contrib) : R := fold_left (f_add_wake fpow s) cs 0.
(** calc_final_wake_delta of WSQuadratic before the limits, ws_quadratic.py:176: minus the square root, correctly rounded *)
Definition f_minus_sqrt (delta : R) : R := - rnd64 (sqrt delta).
