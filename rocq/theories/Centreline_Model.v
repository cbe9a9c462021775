(** Integrals along a wake centreline and the wake width of TurbOParkWakeIX. One state, one variable. *)
From Verif Require Import RBase Induction_Model.
Local Open Scope R_scope.

(** np.nanmax (core/wake_frame.py:241); NaN targets are not modelled *)
Definition list_max (x0 : R) (l : list R) : R := fold_left Rmax l x0.
(** foxes/core/wake_frame.py:239-245: the number of steps of size [dx] on [0, min (max x, max_length)] *)
Definition n_steps (max_len dx x0 : R) (xl : list R) : nat :=
  let xmax := Rmin (list_max x0 xl) max_len in
  let n := Z.to_nat (rfloor (xmax / dx)) in
  if Rltb (0 + INR n * dx) xmax then S n else n.
(** foxes/core/wake_frame.py:283-286: cumulated right-point sums; [f] maps a centreline coordinate to the value of the variable there (lines 248-281) *)
Fixpoint cum (f : R -> R) (dx : R) (i : nat) : R :=
  match i with O => 0 | S j => cum f dx j + f (INR (S j) * dx) * dx end.
(** foxes/core/wake_frame.py:293-301: scipy's interpn, linear, on the nodes i * dx for i <= n; fill value 0 outside *)
Definition interp_fill (dx : R) (n : nat) (g : nat -> R) (x : R) : R :=
  if Rleb 0 x && Rleb x (INR n * dx) then
    let i := Nat.min (Z.to_nat (rfloor (x / dx))) (n - 1) in
    g i + (x - INR i * dx) / dx * (g (S i) - g i)
  else 0.
(** foxes/core/wake_frame.py:188-304 for the targets x0 :: xl: the results, one for each target *)
Definition centreline_integral (f : R -> R) (max_len dx : R) (x0 : R) (xl : list R) : list R :=
  map (interp_fill dx (n_steps max_len dx x0 xl) (cum f dx)) (x0 :: xl).

(** foxes/models/wake_models/wind/turbopark.py:481-501: the wake width from the integrated turbulence intensity *)
Definition turbo_ix_sigma (ct2a : R -> R) (sbeta D k ct ti_ix : R) : R :=
  let a := ct2a ct in
  let beta := (1 - a) / (1 - 2 * a) in
  D * (sbeta * sqrt beta) + k * ti_ix.
