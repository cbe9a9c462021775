(** Slices through the flow field: grids (foxes/output/grids.py), mean and state data on them (foxes/output/slice_data.py) and figures (foxes/output/flow_plots_2d/flow_plots.py). *)
From Verif Require Import RBase WindDir_Model.
From Verif Require Wrg_Model FieldNC_Model.
Local Open Scope R_scope.

(** --- grids --- *)
(** numpy.linspace with endpoint, grids.py:136-151; None: ValueError for a negative number *)
Definition linspace (a b : R) (n : Z) : option (list R) :=
  if (n <? 0)%Z then None else Some (map (fun i => a + INR i * ((b - a) / INR (Z.to_nat n - 1))) (seq 0 (Z.to_nat n))).
(** number of points for a length and a resolution, 126-127 *)
Definition npts (len res : R) : Z := (Wrg_Model.trunc (len / res + 1 / 2) + 1)%Z.
(** numbers of points in two directions, 125-133; None: ValueError *)
Definition counts (res : option R) (img : option (Z * Z)) (la lb : R) : option (Z * Z) :=
  match res, img with Some r, None => Some (npts la r, npts lb r) | None, Some p => Some p | _, _ => None end.
(** an optional argument or its default *)
Definition orelse (o : option R) (d : R) : R := match o with Some x => x | None => d end.
(** turbine positions (X, Y, H) of all selected states, at least one *)
Definition positions : Type := vec3 * list vec3.
(** numpy min of a coordinate *)
Definition lo (f : vec3 -> R) (t : positions) : R := FieldNC_Model.lmin (f (fst t)) (map f (snd t)).
(** numpy max of a coordinate *)
Definition hi (f : vec3 -> R) (t : positions) : R := FieldNC_Model.lmax (f (fst t)) (map f (snd t)).
(** a plane's grid: two arrays of coordinates, the third coordinate, and the points (the same for all states) *)
Record plane := { ga : list R; gb : list R; gc : R; gpts : list vec3 }.
(** common part of the three functions, 124-158: [pt a b] is the point with coordinates a and b; None: ValueError *)
Definition make_grid (res : option R) (img : option (Z * Z)) (a0 a1 b0 b1 c : R) (pt : R -> R -> vec3) : option plane :=
  match counts res img (a1 - a0) (b1 - b0) with
  | Some (na, nb) => match linspace a0 a1 na, linspace b0 b1 nb with
      | Some xs, Some ys => Some {| ga := xs; gb := ys; gc := c; gpts := map (fun p => pt (fst p) (snd p)) (list_prod xs ys) |}
      | _, _ => None end
  | None => None
  end.
(** get_grid_xy, grids.py:49-174 *)
Definition get_grid_xy (res : option R) (img : option (Z * Z)) (xmin ymin xmax ymax z : option R) (xspace yspace : R) (t : positions) : option plane :=
  let zp := 1 / 2 * (orelse z (lo vz t) + orelse z (hi vz t)) in
  make_grid res img (orelse xmin (lo vx t - xspace)) (orelse xmax (hi vx t + xspace)) (orelse ymin (lo vy t - yspace)) (orelse ymax (hi vy t + yspace)) zp
    (fun x y => (x, y, zp)).
(** numpy.cross *)
Definition cross (a b : vec3) : vec3 := (vy a * vz b - vz a * vy b, vz a * vx b - vx a * vz b, vx a * vy b - vy a * vx b).
(** a sum of three vectors with coefficients, 302-304 *)
Definition lin3 (x : R) (a : vec3) (y : R) (b : vec3) (z : R) (c : vec3) : vec3 :=
  (x * vx a + y * vx b + z * vx c, x * vy a + y * vy b + z * vy c, x * vz a + y * vz b + z * vz c).
(** n_x, n_z and n_y, 247-249 *)
Definition axis_x (dir : R) : vec3 := (fst (wd2uv dir 1), snd (wd2uv dir 1), 0).
(** grids.py:248 *)
Definition axis_z : vec3 := (0, 0, 1).
(** grids.py:249 *)
Definition axis_y (dir : R) : vec3 := cross axis_z (axis_x dir).
(** get_grid_xz, grids.py:177-320: a is the x coordinate and b is z *)
Definition get_grid_xz (res : option R) (img : option (Z * Z)) (dir : R) (xmin zmin xmax zmax y : option R) (xspace zspace : R) (t : positions) : option plane :=
  let fx p := dot p (axis_x dir) in let fy p := dot p (axis_y dir) in let fz p := dot p axis_z in
  let yp := 1 / 2 * (orelse y (lo fy t) + orelse y (hi fy t)) in
  make_grid res img (orelse xmin (lo fx t - xspace)) (orelse xmax (hi fx t + xspace)) (orelse zmin (Rmin (lo fz t - zspace) 0)) (orelse zmax (hi fz t + zspace)) yp
    (fun x z => lin3 x (axis_x dir) yp (axis_y dir) z axis_z).
(** get_grid_yz, grids.py:323-466: a is the y coordinate and b is z *)
Definition get_grid_yz (res : option R) (img : option (Z * Z)) (dir : R) (ymin zmin ymax zmax x : option R) (yspace zspace : R) (t : positions) : option plane :=
  let fx p := dot p (axis_x dir) in let fy p := dot p (axis_y dir) in let fz p := dot p axis_z in
  let xp := 1 / 2 * (orelse x (lo fx t) + orelse x (hi fx t)) in
  make_grid res img (orelse ymin (lo fy t - yspace)) (orelse ymax (hi fy t + yspace)) (orelse zmin (Rmin (lo fz t - zspace) 0)) (orelse zmax (hi fz t + zspace)) xp
    (fun y z => lin3 xp (axis_x dir) y (axis_y dir) z axis_z).

(** --- data --- *)
(** arrays of point results: one value per state, or per state and point *)
Inductive arr := A1 (l : list R) | A2 (l : list (list R)).
(** point results: variable names and arrays *)
Definition dataset : Type := list (nat * arr).
(** ds[v]; None: KeyError *)
Fixpoint get (ds : dataset) (v : nat) : option arr := match ds with [] => None | (k, a) :: r => if Nat.eqb k v then Some a else get r v end.
(** all or none *)
Fixpoint collect {A} (l : list (option A)) : option (list A) :=
  match l with [] => Some [] | Some x :: r => match collect r with Some y => Some (x :: y) | None => None end | None :: _ => None end.
(** variables, slice_data.py:142-145: all of the results if not given *)
Definition var_list (vars : option (list nat)) (ds : dataset) : list nat := match vars with Some l => l | None => map fst ds end.
(** column p of a 2D array *)
Definition column (rows : list (list R)) (p : nat) : list R := map (fun r => nth p r 0) rows.
(** sum of products *)
Fixpoint sumprod (w x : list R) : R := match w, x with a :: w', b :: x' => a * b + sumprod w' x' | _, _ => 0 end.
(** the weighted sum over states, 151-163; [np]: number of points; None: ValueError *)
Definition einsum (np : nat) (w x : arr) : option (list R) :=
  match w, x with
  | A1 ws, A2 rows => Some (map (fun p => sumprod ws (column rows p)) (seq 0 np))
  | A2 ws, A2 rows => Some (map (fun p => sumprod (column ws p) (column rows p)) (seq 0 np))
  | _, A1 _ => None
  end.
(** _calc_mean_data, 141-163: [W] is the name of the weight variable; None: an exception *)
Definition mean_data (W np : nat) (vars : option (list nat)) (ds : dataset) : option (list (list R)) :=
  match get ds W with
  | Some w => collect (map (fun v => match get ds v with Some x => einsum np w x | None => None end) (var_list vars ds))
  | None => None end.
(** _calc_states_data, 658-666; None: an exception *)
Definition states_data (vars : option (list nat)) (ds : dataset) : option (list arr) := collect (map (get ds) (var_list vars ds)).
(** modification of a value, 76-82: normalisation and limits *)
Definition mod_value (norm vmin vmax : option R) (x : R) : R :=
  let y := match norm with Some n => x / n | None => x end in
  let y := match vmin with Some m => Rmax y m | None => y end in
  match vmax with Some m => Rmin y m | None => y end.

(** --- formats --- *)
(** reshape to (n_a, n_b), grids.py:497; None: ValueError *)
Definition reshape (na nb : nat) (d : list R) : option (list (list R)) :=
  if Nat.eqb (length d) (na * nb) then Some (map (fun i => map (fun j => nth (i * nb + j) d 0) (seq 0 nb)) (seq 0 na)) else None.
(** swapaxes(0, 1), 641 *)
Definition swap (na nb : nat) (m : list (list R)) : list (list R) := map (fun j => map (fun i => nth j (nth i m []) 0) (seq 0 na)) (seq 0 nb).
(** np2np_p, 469-498, the variable's array with indices a and b *)
Definition np2np_p (na nb : nat) (d : list R) : option (list (list R)) := reshape na nb d.
(** np2pd_p, 536-566: rows of the data frame with index; None: ValueError *)
Definition np2pd_p (na nb : nat) (d : list R) : option (list ((nat * nat) * R)) :=
  if Nat.eqb (length d) (na * nb) then Some (combine (list_prod (seq 0 na) (seq 0 nb)) d) else None.
(** np2xr_p, 607-644: the variable's array with indices b and a *)
Definition np2xr_p (na nb : nat) (d : list R) : option (list (list R)) := match reshape na nb d with Some m => Some (swap na nb m) | None => None end.
(** np2np_sp, 501-533: the variable's array with indices state, a and b. A 1D array of n_s values has the required size for one point only *)
Definition np2np_sp (ns na nb : nat) (d : arr) : option (list (list (list R))) :=
  match d with
  | A2 rows => if Nat.eqb (length rows) ns then collect (map (reshape na nb) rows) else None
  | A1 l => if Nat.eqb (length l) (ns * (na * nb)) then collect (map (fun s => reshape na nb (firstn (na * nb) (skipn (s * (na * nb)) l))) (seq 0 ns)) else None
  end.
(** np2xr_sp, 647-692: indices state, b and a *)
Definition np2xr_sp (ns na nb : nat) (d : arr) : option (list (list (list R))) := option_map (map (swap na nb)) (np2np_sp ns na nb d).
(** np2pd_sp, 569-604: pandas requires 1D arrays as columns; None: ValueError *)
Definition np2pd_sp (ns na nb : nat) (d : arr) : option (list ((nat * (nat * nat)) * R)) :=
  match d with
  | A1 l => if Nat.eqb (length l) (ns * (na * nb)) then Some (combine (list_prod (seq 0 ns) (list_prod (seq 0 na) (seq 0 nb))) l) else None
  | A2 _ => None
  end.

(** --- figures --- *)
(** ret_data of get_mean_fig_*, flow_plots.py:99-161: [order] is the list of the set's elements; the data of the first is returned *)
Definition ret_data (order : list nat) (data : nat -> list (list R)) : list (list R) := match order with v :: _ => data v | [] => [] end.
(** the plotted data, 100 and 137 *)
Definition fig_data (var : nat) (order : list nat) (data : nat -> list (list R)) : list (list R) :=
  match find (Nat.eqb var) order with Some v => data v | None => [] end.
(** turbine data for drawing the rotors of the figure number si, 604-615: [res] are all farm results, [sel] the selected states' indices *)
Definition rotors {A} (res : list A) (sel : list nat) (si : nat) : option A := nth_error res si.
(** the state of figure number si, 587 *)
Definition fig_state (sel : list nat) (si : nat) : option nat := nth_error sel si.
