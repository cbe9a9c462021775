(** Wind resource grids (foxes/input/states/wrg_states.py, foxes/utils/wrg_utils.py). *)
From Verif Require Import RBase.
Local Open Scope R_scope.

(** conversion to integers by numpy: towards zero, wrg_states.py:123-124 *)
Definition trunc (x : R) : Z := if Rleb 0 x then rfloor x else (- rfloor (- x))%Z.
(** a bound of a python slice with length n *)
Definition pybound (n : nat) (s : Z) : Z := if (s <? 0)%Z then Z.max 0 (s + Z.of_nat n) else Z.min s (Z.of_nat n).
(** l[s:t] *)
Definition pyslice {A} (s t : Z) (l : list A) : list A :=
  let a := pybound (length l) s in let b := pybound (length l) t in firstn (Z.to_nat (b - a)) (skipn (Z.to_nat a) l).
(** grid coordinates, 130 and 132 *)
Definition grid (x0 res : R) (n : nat) : list R := map (fun i => x0 + INR i * res) (seq 0 n).
(** the selected coordinates in one direction, 118-135; [a], [b]: farm bounds including the extra space; None: ValueError *)
Definition window (x0 res : R) (n : nat) (a b : R) : option (list R) :=
  let g := pyslice (trunc ((a - x0) / res)) (trunc ((b - x0) / res) + 1) (grid x0 res n) in
  if (length g <? 2)%nat then None else Some g.

(** --- states and weights --- *)
(** centres of wind speed bins, 162 *)
Fixpoint centres (bins : list R) : list R := match bins with a :: ((b :: _) as r) => 1 / 2 * (a + b) :: centres r | _ => [] end.
(** widths of the bins, 161 *)
Fixpoint widths (bins : list R) : list R := match bins with a :: ((b :: _) as r) => (b - a) :: widths r | _ => [] end.
(** wind directions, 160 *)
Definition sectors (ns : nat) : list R := map (fun j => INR j * (360 / INR ns)) (seq 0 ns).
(** the states, 163-168: (wind speed, width), wind direction *)
Definition wrg_states (bins : list R) (ns : nat) : list ((R * R) * R) := list_prod (combine (centres bins) (widths bins)) (sectors ns).
(** weight, 290-299; A, k, f: parameters at the point *)
Definition pdf (A k ws : R) : R := k / A * Rpower (ws / A) (k - 1) * exp (- Rpower (ws / A) k).
(** wrg_states.py:297-299 *)
Definition weight (A k f ws dws : R) : R := f * (dws * pdf A k ws).
(** scaling of the file's columns, wrg_utils.py:64-66: frequency, A and k of a sector *)
Definition read_sector (r : R * R * R) : R * R * R := let '(f, a, k) := r in (f / 10, a / 10, k / 100).
(** sum of the weights of the states with the sector's direction, at one point *)
Definition sector_weight (bins : list R) (p : R * R * R) : R :=
  let '(f, a, k) := p in rsum (map (fun s => weight a k f (fst s) (snd s)) (combine (centres bins) (widths bins))).
(** sum over all states; [file]: the file's columns of the sectors *)
Definition total_weight (bins : list R) (file : list (R * R * R)) : R := rsum (map (fun r => sector_weight bins (read_sector r)) file).
