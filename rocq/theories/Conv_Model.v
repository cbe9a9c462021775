(** Convergence criteria of the iterative algorithm.
    /repo/foxes/algorithms/iterative/models/convergence.py. Floats are [option R], [None] is NaN. *)
From Verif Require Import RBase WindDir_Model.
Local Open Scope R_scope.

(** algorithms/iterative/models/convergence.py:199-240: an array element; None stands for NaN *)
Definition fval := option R.
(** element-wise float operations propagate NaN -- algorithms/iterative/models/convergence.py:199-240: NaN propagation of an arithmetic operation *)
Definition flift2 (f : R -> R -> R) (a b : fval) : fval :=
  match a, b with Some x, Some y => Some (f x y) | _, _ => None end.
(** element-wise operation of two arrays, algorithms/iterative/models/convergence.py:199-240 *)
Fixpoint map2 {A B C} (f : A -> B -> C) (l : list A) (m : list B) : list C :=
  match l, m with x :: l', y :: m' => f x y :: map2 f l' m' | _, _ => [] end.
(** np.max: NaN propagates, ValueError for an empty array -- algorithms/iterative/models/convergence.py:235-237: np.max *)
Definition np_max (l : list fval) : result fval :=
  match l with [] => Err ValueError | x :: l' => Ok (fold_left (flift2 Rmax) l' x) end.
(** comparison with NaN is false -- algorithms/iterative/models/convergence.py:239: the comparison `<=` (False for NaN) *)
Definition fle (a : fval) (b : R) : bool := match a with Some x => Rleb x b | None => false end.

(** lines 232-237: the delta of one variable; [prev v], [res v]: flattened (state, turbine) arrays,
    [None] if the variable is missing (KeyError). *)
Definition var_delta (wdv : bool) (prev res : option (list fval)) : result fval :=
  match prev, res with
  | Some x0, Some x =>
      np_max (if wdv then map2 (flift2 (fun a b => Rabs (delta_wd a b))) x0 x
              else map2 (flift2 (fun a b => Rabs (b - a))) x0 x)
  | _, _ => Err KeyError
  end.
(** lines 231-247: the loop over the limits *)
Fixpoint conv_loop (wd_vars : nat -> bool) (prev res : nat -> option (list fval)) (verbose : bool)
    (limits : list (nat * R)) (ok : bool) : result bool :=
  match limits with
  | [] => Ok ok
  | (v, lim) :: ls =>
      do d <- var_delta (wd_vars v) (prev v) (res v);
      let ok' := ok && fle d lim in
      if negb verbose && negb ok' then Ok ok' else conv_loop wd_vars prev res verbose ls ok'
  end.
(** lines 199-247, ConvVarDelta.check_converged. The printing for verbosity > 0 computes max over the
    variable name lengths, line 227, which raises ValueError for an empty limits dictionary. *)
Definition check_converged (wd_vars : nat -> bool) (limits : list (nat * R)) (verbose : bool)
    (prev : option (nat -> option (list fval))) (res : nat -> option (list fval)) : result bool :=
  match prev with
  | None => Ok false
  | Some p =>
      match verbose, limits with
      | true, [] => Err ValueError
      | _, _ => conv_loop wd_vars p res verbose limits true
      end
  end.
(** lines 113-142, ConvCritList.check_converged: stops at the first failing criterion. *)
Fixpoint check_list (crits : list (result bool)) : result bool :=
  match crits with
  | [] => Ok true
  | c :: cs => do b <- c; if b then check_list cs else Ok false
  end.
