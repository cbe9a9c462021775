(** Wind roses (foxes/output/rose_plot.py). *)
From Verif Require Import RBase.
Local Open Scope R_scope.

(** numpy.arange: ceil((b - a) / d) values *)
Definition arange (a b d : R) : list R := map (fun k => a + INR k * d) (seq 0 (Z.to_nat (- rfloor (- ((b - a) / d))))).
(** width of a sector, rose_plot.py:170 *)
Definition delta (n : nat) : R := 360 / INR n.
(** directions close to 360 belong to the first sector, 171 *)
Definition shift (n : nat) (wd : R) : R := if Rleb (360 - delta n / 2) wd then wd - 360 else wd.
(** edges of the sectors, 172 *)
Definition wd_edges (n : nat) : list R := arange (- (delta n / 2)) 360 (delta n).
(** centres of the sectors, 179 *)
Definition wd_centres (n : nat) : list R := arange 0 360 (delta n).
(** bin of numpy.histogram2d: the number of edges not above the value (searchsorted from the right), where the last edge belongs to the last bin; None: outside *)
Definition bin (edges : list R) (x : R) : option nat :=
  let k := length (filter (fun e => Rleb e x) edges) in
  let k := if Reqb x (last edges 0) then (k - 1)%nat else k in
  if (1 <=? k)%nat && (k <? length edges)%nat then Some (k - 1)%nat else None.
(** a state: weight, wind direction, wind speed, other variable *)
Record state := { wt : R; wd : R; ws : R; val : R }.
(** a state is in the bin *)
Definition in_bin (n : nat) (ws_edges : list R) (i j : nat) (s : state) : bool :=
  match bin (wd_edges n) (shift n (wd s)), bin ws_edges (ws s) with Some i', Some j' => Nat.eqb i i' && Nat.eqb j j' | _, _ => false end.
(** numpy.histogram2d with weights, 175 *)
Definition hist (f : state -> R) (n : nat) (ws_edges : list R) (l : list state) (i j : nat) : R := rsum (map f (filter (in_bin n ws_edges i j) l)).
(** RosePlotOutput.get_data, 175: frequency in percent *)
Definition frequency (n : nat) (ws_edges : list R) (l : list state) (i j : nat) : R := 100 * hist wt n ws_edges l i j.
(** WindRoseBinPlot.get_data with contraction "weights", 479-482; None: NaN *)
Definition bin_mean (n : nat) (ws_edges : list R) (l : list state) (i j : nat) : option R :=
  let z := hist wt n ws_edges l i j in if Rltb z (/ 10 ^ 13) then None else Some (hist (fun s => wt s * val s) n ws_edges l i j / z).
(** contraction "mean_no_weights", 483-486 *)
Definition bin_mean_no_weights (n : nat) (ws_edges : list R) (l : list state) (i j : nat) : option R :=
  let z := hist (fun _ => 1) n ws_edges l i j in if Rltb z 1 then None else Some (hist val n ws_edges l i j / z).
(** contraction "sum_no_weights", 487-488 *)
Definition bin_sum (n : nat) (ws_edges : list R) (l : list state) (i j : nat) : R := hist val n ws_edges l i j.
(** lower end of the bar of a wind speed bin in the figure, 276-285 *)
Fixpoint bottom (freq : nat -> R) (j : nat) : R := match j with O => 0 | S j' => bottom freq j' + freq j' end.
(** angle of a bar in the figure, counter-clockwise from east, in degrees, 259 *)
Definition angle (wd : R) : R := rmod (90 - wd) 360.
