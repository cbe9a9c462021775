(** Lookup tables with any number of input variables (foxes/models/turbine_models/lookup_table.py). *)
From Verif Require Import RBase Curves_Model Heights_Model Lookup_Model.
Local Open Scope R_scope.

(** lexicographic order of rows' inputs: sort_values(by=input_vars) and the order of the MultiIndex of pivot_table, lookup_table.py:141, 149 *)
Fixpoint llt (a b : list R) : bool :=
  match a, b with
  | _, [] => false
  | [], _ :: _ => true
  | x :: a', y :: b' => Rltb x y || (Reqb x y && llt a' b')
  end.
(** equal inputs, lookup_table.py:149 *)
Fixpoint leqb (a b : list R) : bool :=
  match a, b with [], [] => true | x :: a', y :: b' => Reqb x y && leqb a' b' | _, _ => false end.
(** a row of the table: the inputs in the order of input_vars, and the output value; lookup_table.py:140 *)
Definition rown : Type := list R * R.
(** aggregation by pivot_table: mean of the rows with the same inputs, lookup_table.py:149 *)
Definition mean_n (rows : list rown) (k : list R) : R :=
  let vs := map snd (filter (fun r => leqb (fst r) k) rows) in rsum vs / INR (length vs).
(** column i of the inputs, lookup_table.py:143 *)
Definition col (i : nat) (keys : list (list R)) : list R := map (fun k => nth i k 0) keys.
(** number of values of an array with these axes, lookup_table.py:152-154 *)
Fixpoint size (axes : list (list R)) : nat := match axes with [] => 1 | a :: r => length a * size r end.
(** the loaded data set: coordinates and values in C order, lookup_table.py:142-157 *)
Record table := { axes : list (list R); values : list R }.
(** load_data, lookup_table.py:138-157, with [n] input variables; None: AttributeError of levshape (one input variable), or ValueError of reshape, or of the data set
    if the lengths of coordinates and array disagree. The repetitions in the sorted table do not matter for unique() *)
Definition load_n (n : nat) (rows : list rown) : option table :=
  let keys := sort_u llt leqb (map fst rows) in
  let levels := map (fun i => sort_u Rltb Reqb (col i keys)) (seq 0 n) in
  let coords := map (fun i => uniq Reqb (col i keys)) (seq 0 n) in
  match levshape levels with
  | None => None
  | Some _ => if Nat.eqb (length keys) (size levels) && Nat.eqb (size coords) (size levels)
      then Some {| axes := coords; values := map (mean_n rows) keys |} else None
  end.
(** weights of all axes, lookup_table.py:217-220: None if one of the values is out of bounds (bounds_error=True) *)
Fixpoint weights_n (axs : list (list R)) (x : list R) : option (list (list R)) :=
  match axs, x with
  | [], [] => Some []
  | a :: axs', y :: x' => match height_weights true a y, weights_n axs' x' with Some w, Some ws => Some (w :: ws) | _, _ => None end
  | _, _ => None
  end.
(** multilinear interpolation of the values [v], numbered in C order, lookup_table.py:217-220 (scipy's interpn with method linear) *)
Fixpoint multi (axs ws : list (list R)) (v : nat -> R) : R :=
  match axs, ws with
  | a :: axs', w :: ws' => wsum w (map (fun i => multi axs' ws' (fun k => v (i * size axs' + k)%nat)) (seq 0 (length a)))
  | _, _ => v 0%nat
  end.
(** calculate, lookup_table.py:192-244, for one state and turbine; None: ValueError *)
Definition lookup_n (d : table) (x : list R) : option R :=
  match weights_n (axes d) x with Some ws => Some (multi (axes d) ws (fun k => nth k (values d) 0)) | None => None end.
