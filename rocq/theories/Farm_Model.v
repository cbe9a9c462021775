(** Wind farms, layouts and turbine model lists (foxes/core/{turbine,wind_farm}.py, foxes/input/farm_layout/). *)
From Coq Require Export Ascii String.
From Coq Require Import DecimalString DecimalNat.
From Verif Require Import RBase.
Local Open Scope R_scope.

(** positions xy of core/turbine.py:31-80 *)
Definition point := (R * R)%type.
(** core/turbine.py:31-80: the attributes set here *)
Record turbine := { xy : point; index : nat; name : string }.
(** f"T{index}" -- core/wind_farm.py:37-58 *)
Definition tname (i : nat) : string := String "T"%char (NilEmpty.string_of_uint (Nat.to_uint i)).
(** Turbine(xy, index, name) and WindFarm.add_turbine, wind_farm.py:49-53 *)
Definition add_turbine (farm : list turbine) (p : point) (i : option nat) (nm : option string) : list turbine :=
  let i' := match i with Some k => k | None => List.length farm end in
  farm ++ [{| xy := p; index := i'; name := match nm with Some s => s | None => tname i' end |}].
(** layout functions add their points in order; indices and names default to None (e.g. row.py:44-53) *)
Definition add_points (farm : list turbine) (ps : list point) : list turbine :=
  fold_left (fun f p => add_turbine f p None None) ps farm.

(** row.py:41-47 *)
Definition row_points (p0 delta : point) (n : nat) : list point :=
  map (fun i => (fst p0 + INR i * fst delta, snd p0 + INR i * snd delta)) (seq 0 n).
(** grid.py:44-54; np.ndindex(n0, n1) counts the second index fastest *)
Definition grid_points (p0 v0 v1 : point) (n0 n1 : nat) : list point :=
  map (fun ij => (fst p0 + INR (fst ij) * fst v0 + INR (snd ij) * fst v1, snd p0 + INR (fst ij) * snd v0 + INR (snd ij) * snd v1))
      (flat_map (fun i => map (fun j => (i, j)) (seq 0 n1)) (seq 0 n0)).
(** ring.py:46-65; wd2wdvec (wind_dir.py:27-31) of the angle in degrees *)
Definition wdvec (a : R) : point := (sin (a * PI / 180), cos (a * PI / 180)).
(** input/farm_layout/ring.py:46-65 *)
Definition ring_radius (dist : R) (n : nat) : R := INR n * dist / (2 * PI).
(** input/farm_layout/ring.py:46-65 *)
Definition ring_point (p0 : point) (rad a : R) : point := (fst p0 + rad * fst (wdvec a), snd p0 + rad * snd (wdvec a)).
(** the angle array np.atleast_1d(offset_deg) keeps the type of offset_deg: a float is increased by da ... *)
Fixpoint angles_float (da a : R) (n : nat) : list R := match n with O => [] | S m => a :: angles_float da (a + da) m end.
(** ... while for an int (the default is 0) the assignment a[0] += da truncates towards zero *)
Definition trunc (x : R) : Z := if Rleb 0 x then rfloor x else (- rfloor (- x))%Z.
(** input/farm_layout/ring.py:46-65 *)
Fixpoint angles_int (da : R) (a : Z) (n : nat) : list Z := match n with O => [] | S m => a :: angles_int da (trunc (IZR a + da)) m end.
(** input/farm_layout/ring.py:46-65 for a float offset *)
Definition ring_points_float (p0 : point) (dist : R) (n : nat) (off : R) : list point :=
  map (ring_point p0 (ring_radius dist n)) (angles_float (360 / INR n) off n).
(** input/farm_layout/ring.py:46-65 for an int offset *)
Definition ring_points_int (p0 : point) (dist : R) (n : nat) (off : Z) : list point :=
  map (fun a => ring_point p0 (ring_radius dist n) (IZR a)) (angles_int (360 / INR n) off n).

(** get_xy_bounds without boundary, wind_farm.py:121-145. Margins: none, a number (142-143) or multiples of the rotor
    diameters [rd] (138-139). None stands for the ValueError of np.min on an empty farm. *)
Inductive margin := NoMargin | Margin (e : R) | MarginD (k : R) (rd : list R).
(** np.min, core/wind_farm.py:121-145 *)
Fixpoint minl (x : R) (l : list R) : R := match l with [] => x | y :: l' => Rmin x (minl y l') end.
(** np.max, core/wind_farm.py:121-145 *)
Fixpoint maxl (x : R) (l : list R) : R := match l with [] => x | y :: l' => Rmax x (maxl y l') end.
(** np.min, core/wind_farm.py:121-145 *)
Definition lmin (l : list R) : option R := match l with [] => None | x :: l' => Some (minl x l') end.
(** np.max, core/wind_farm.py:121-145 *)
Definition lmax (l : list R) : option R := match l with [] => None | x :: l' => Some (maxl x l') end.
(** element-wise operation, core/wind_farm.py:138-139 *)
Fixpoint map2 {A B C} (f : A -> B -> C) (l : list A) (m : list B) : list C :=
  match l, m with a :: l', b :: m' => f a b :: map2 f l' m' | _, _ => [] end.
(** core/wind_farm.py:121-145, one axis *)
Definition axis_bounds (cs : list R) (m : margin) : option R * option R :=
  match m with
  | NoMargin => (lmin cs, lmax cs)
  | Margin e => (option_map (fun x => x - e) (lmin cs), option_map (fun x => x + e) (lmax cs))
  | MarginD k rd => (lmin (map2 (fun c d => c - k * d) cs rd), lmax (map2 (fun c d => c + k * d) cs rd))
  end.

(** --- model lists as objects --- A heap of python lists; a turbine refers to its list of models and its list of state
    selections (turbine.py:71-80). Models and selections are numbered. *)
Record heap := { lists : list (list nat) }.
(** core/turbine.py:71-80 *)
Record tref := { models : nat; sels : nat }.
(** reading a python list, core/turbine.py:71-112 *)
Definition get (h : heap) (r : nat) : list nat := nth r (lists h) [].
(** replacing a list in the heap, core/turbine.py:82-112 *)
Fixpoint set_nth (l : list (list nat)) (r : nat) (x : list nat) : list (list nat) :=
  match l, r with [], _ => [] | _ :: l', O => x :: l' | y :: l', S r' => y :: set_nth l' r' x end.
(** in-place change of a python list, core/turbine.py:82-112 *)
Definition put (h : heap) (r : nat) (x : list nat) : heap := {| lists := set_nth (lists h) r x |}.
(** creation of a python list, core/turbine.py:71-80 *)
Definition alloc (h : heap) (x : list nat) : heap * nat := ({| lists := lists h ++ [x] |}, List.length (lists h)).
(** __init__, 74-80, with models_state_sel=None: the list is taken as it is, the selections [None]*n (0) are new *)
Definition new_turbine (h : heap) (ms : nat) : heap * tref :=
  let '(h', s) := alloc h (map (fun _ => O) (get h ms)) in (h', {| models := ms; sels := s |}).
(** add_model, 82-95 *)
Definition add_model (h : heap) (t : tref) (m sel : nat) : heap :=
  let h1 := put h (models t) (get h (models t) ++ [m]) in put h1 (sels t) (get h1 (sels t) ++ [sel]).
(** insert_model, 97-112; list.insert beyond the end appends *)
Definition insert (i x : nat) (l : list nat) : list nat := firstn i l ++ x :: skipn i l.
(** core/turbine.py:97-112 *)
Definition insert_model (h : heap) (t : tref) (i m sel : nat) : heap :=
  let h1 := put h (models t) (insert i m (get h (models t))) in put h1 (sels t) (insert i sel (get h1 (sels t))).

(** the histories of a session: list literals, turbine creation (None: the default argument, a list created once with the
    class, turbine.py:39), and changes of a turbine's models *)
Inductive op := OList (x : list nat) | ONew (ms : option nat) | OAdd (t m sel : nat) | OInsert (t i m sel : nat).
(** a python session using core/turbine.py:31-112 *)
Record session := { hp : heap; ts : list tref }.
(** address 0 is the default argument *)
Definition start : session := {| hp := {| lists := [[]] |}; ts := [] |}.
(** core/turbine.py:31-112: effect of one operation *)
Definition step (s : session) (o : op) : session :=
  match o with
  | OList x => {| hp := fst (alloc (hp s) x); ts := ts s |}
  | ONew ms => let '(h, t) := new_turbine (hp s) (match ms with Some r => r | None => O end) in {| hp := h; ts := ts s ++ [t] |}
  | OAdd t m sel => match nth_error (ts s) t with Some t' => {| hp := add_model (hp s) t' m sel; ts := ts s |} | None => s end
  | OInsert t i m sel => match nth_error (ts s) t with Some t' => {| hp := insert_model (hp s) t' i m sel; ts := ts s |} | None => s end
  end.
(** core/turbine.py:31-112: effect of a history *)
Definition run (l : list op) : session := fold_left step l start.
(** row.py:44-53: the same turbine_models object for each turbine of a layout *)
Definition row_ops (ms : nat) (n : nat) : list op := repeat (ONew (Some ms)) n.
(** observable model and selection lists of turbine number t -- core/turbine.py:71-80 *)
Definition models_of (s : session) (t : nat) : option (list nat) := option_map (fun t' => get (hp s) (models t')) (nth_error (ts s) t).
(** core/turbine.py:71-80 *)
Definition sels_of (s : session) (t : nat) : option (list nat) := option_map (fun t' => get (hp s) (sels t')) (nth_error (ts s) t).
