(** Interpolation of wind data: between heights (foxes/input/states/multi_height.py) and on grids (foxes/input/states/field_data_nc.py). Floats are real numbers;
    NaN values are None where they are modelled. *)
From Verif Require Import RBase WindDir_Model.
Local Open Scope R_scope.

(** --- wind vectors --- *)
(** np.einsum of weights and data, multi_height.py:459-466; sum over grid corners in interpn, field_data_nc.py:775-777 *)
Definition wsum (w x : list R) : R := rsum (map (fun p => fst p * snd p) (combine w x)).
(** wd2uv of the data and weighted sum of the vectors, multi_height.py:446-461, field_data_nc.py:726-734 *)
Definition interp_uv (w : list R) (nodes : list (R * R)) : R * R :=
  (wsum w (map (fun n => fst (wd2uv (fst n) (snd n))) nodes), wsum w (map (fun n => snd (wd2uv (fst n) (snd n))) nodes)).
(** np.linalg.norm, multi_height.py:473, field_data_nc.py:823; a node: wind direction and wind speed *)
Definition interp_ws (w : list R) (nodes : list (R * R)) : R := let u := interp_uv w nodes in sqrt (fst u * fst u + snd u * snd u).
(** uv2wd, multi_height.py:471, field_data_nc.py:824 *)
Definition interp_wd (w : list R) (nodes : list (R * R)) : R := uv2wd (interp_uv w nodes).

(** --- grids: scipy's interpn, method linear --- *)
(** weights of the grid cell's corners; [ts]: the point's position in the cell, between 0 and 1 in each dimension; field_data_nc.py:775 (scipy: product of
    1 - t or t over the dimensions) *)
Fixpoint corner_weights (ts : list R) : list R :=
  match ts with [] => [1] | t :: ts' => map (fun w => (1 - t) * w) (corner_weights ts') ++ map (fun w => t * w) (corner_weights ts') end.
(** product with a NaN value, and sum *)
Definition oscale (w : R) (x : option R) : option R := match x with Some v => Some (w * v) | None => None end.
(** sum with NaN *)
Definition oadd (x y : option R) : option R := match x, y with Some a, Some b => Some (a + b) | _, _ => None end.
(** the states' dimension, field_data_nc.py:738-745: points have coordinate i in state i and the grid is 0, ..., n - 1. scipy: cell min(i, n - 2), a single grid point is used
    twice. [data]: a chunk's values, by state *)
Definition interp_state (data : list (option R)) (i : nat) : option R :=
  let n := length data in
  if Nat.eqb n 1 then oadd (oscale 1 (nth 0 data None)) (oscale 0 (nth 0 data None))
  else let j := Nat.min i (n - 2) in let t := INR i - INR j in oadd (oscale (1 - t) (nth j data None)) (oscale t (nth (S j) data None)).

(** --- heights --- *)
(** row j of the unit matrix, multi_height.py:422-423 *)
Definition unit_row (n j : nat) : list R := map (fun i => if Nat.eqb i j then 1 else 0) (seq 0 n).
(** np.searchsorted, for ascending values *)
Definition count_lt (hs : list R) (z : R) : nat := length (filter (fun h => Rltb h z) hs).
(** scipy's interp1d with data of two dimensions: the cell's upper height *)
Definition cell (hs : list R) (z : R) : nat := Nat.min (Nat.max (count_lt hs z) 1) (length hs - 1).
(** interp1d of the unit matrix at height z, 430-432: weights of the heights *)
Definition linear_row (hs : list R) (z : R) : list R :=
  let hi := cell hs z in let lo := (hi - 1)%nat in
  map (fun i => ((if Nat.eqb i hi then 1 else 0) - (if Nat.eqb i lo then 1 else 0)) / (nth hi hs 0 - nth lo hs 0) * (z - nth lo hs 0) + (if Nat.eqb i lo then 1 else 0))
    (seq 0 (length hs)).
(** 424-438, one point; None: ValueError (with several points: as soon as one of them gives an error) *)
Definition height_weights (bounds_error : bool) (hs : list R) (z : R) : option (list R) :=
  let n := length hs in
  let below := Rltb z (nth 0 hs 0) in let above := Rltb (nth (n - 1) hs 0) z in
  if bounds_error && (below || above) then None
  else Some (if above then unit_row n (n - 1) else if below then unit_row n 0 else linear_row hs z).

(** --- variables --- *)
(** output variables *)
Inductive var := WD | WS | WEIGHT | Other (k : nat).
(** where a variable's values come from, _find_cols and load_data, 153-174, 235-245: fixed_vars, one column, one column for each height, nothing (WEIGHT is left out) *)
Inductive source := Fixed (x : R) | Solo (x : R) | Profile (l : list R) | Nowhere.
(** load_data, 238-245: [get] is the source according to fixed_vars and columns *)
Definition loaded (get : var -> source) (v : var) : source := match v, get v with WEIGHT, Fixed x => Fixed x | WEIGHT, _ => Nowhere | _, s => s end.
(** wind speeds for all heights, 444-454 *)
Definition speeds (n : nat) (s : source) : option (list R) :=
  match s with Profile l => Some l | Fixed x | Solo x => Some (repeat x n) | Nowhere => None end.
(** calculate, 441-485, one state and one point with weights [w]; None: an exception *)
Definition height_result (get : var -> source) (w : list R) (v : var) : option R :=
  let src := loaded get in
  let plain := match src v with Fixed x | Solo x => Some x | Profile l => Some (wsum w l) | Nowhere => None end in
  match src WD with
  | Profile wds =>
      match speeds (length wds) (src WS) with
      | None => None
      | Some wss => match v with WD => Some (interp_wd w (combine wds wss)) | WS => Some (interp_ws w (combine wds wss)) | _ => plain end
      end
  | _ => plain
  end.
