(** Writing data sets: write_nc of /repo/foxes/utils/xarray_utils.py with the default digits of /repo/foxes/variables.py,
    StateTurbineTable of /repo/foxes/output/state_turbine_table.py, and PointCalculator of /repo/foxes/output/calc_points.py. *)
From Coq Require Import String.
From Flocq Require Import Core.
From Verif Require Import RBase.
From Verif Require Combine_Model.
Local Open Scope R_scope.
Local Open Scope list_scope.

(** ** Digits *)

(** the variables with ambient counterpart, variables.py:207-225 *)
Definition amb_vars : list string :=
  ["WS"; "WD"; "TI"; "RHO"; "YAW"; "YAWM"; "P"; "CT"; "T"; "REWS"; "REWS2"; "REWS3"; "YLD"; "CAP"]%string.
(** amb2var.get(v, v), variables.py:231, 317 *)
Definition amb2var (v : string) : string :=
  match find (fun w => String.eqb ("AMB_" ++ w) v) amb_vars with Some w => w | None => v end.
(** DEFAULT_DIGITS, variables.py:286-297 *)
Definition digits_table : list (string * Z) :=
  [("WD", 3%Z); ("WS", 4%Z); ("TI", 6%Z); ("RHO", 5%Z); ("P", 3%Z); ("CT", 6%Z); ("T", 3%Z); ("YLD", 3%Z); ("CAP", 5%Z); ("EFF", 5%Z)]%string.
(** d.get(k) *)
Fixpoint assoc {A} (k : string) (d : list (string * A)) : option A :=
  match d with [] => None | (j, a) :: r => if String.eqb k j then Some a else assoc k r end.
(** get_default_digits, variables.py:317-320 *)
Definition default_digits (v : string) : option Z :=
  let v := amb2var v in
  let v := if existsb (String.eqb v) ["REWS"; "REWS2"; "REWS3"]%string then "WS"%string else v in
  assoc v digits_table.
(** round.get(v, get_default_digits(v)), xarray_utils.py:35, 41 *)
Definition digits (rnd : list (string * option Z)) (v : string) : option Z :=
  match assoc v rnd with Some d => d | None => default_digits v end.
(** numpy's round(decimals=d): half to even *)
Definition round_dec (d : Z) (x : R) : R := IZR (ZnearestE (x * powerRZ 10 d)) / powerRZ 10 d.

(** ** write_nc *)

(** a variable of a data set: data variable, coordinate, or dimension coordinate (the index of a
    dimension, whose data attribute xarray does not allow to set) *)
Inductive kind := DataVar | Coord | DimCoord.
(** name, kind and values *)
Record nvar := mknvar { n_name : string; n_kind : kind; n_data : list R }.
(** ds.coords or ds.data_vars *)
Definition is_coord (v : nvar) : bool := match n_kind v with DataVar => false | _ => true end.
(** one of the two loops, xarray_utils.py:34-45: the data set afterwards, and whether xarray raised. The
    attribute is set on a DataArray that shares its variable with the data set *)
Fixpoint round_pass (coords : bool) (rnd : list (string * option Z)) (ds : list nvar) : list nvar * bool :=
  match ds with
  | [] => ([], false)
  | v :: r =>
      if Bool.eqb (is_coord v) coords then
        match digits rnd (n_name v) with
        | None => let (r', e) := round_pass coords rnd r in (v :: r', e)
        | Some d => match n_kind v with
                    | DimCoord => (v :: r, true)
                    | k => let (r', e) := round_pass coords rnd r in (mknvar (n_name v) k (map (round_dec d) (n_data v)) :: r', e)
                    end
        end
      else let (r', e) := round_pass coords rnd r in (v :: r', e)
  end.
(** xarray_utils.py:33-60: the caller's data set afterwards, and the contents of the file *)
Definition write_nc (rnd : option (list (string * option Z))) (ds : list nvar) : list nvar * result (list nvar) :=
  match rnd with
  | None => (ds, Ok ds)
  | Some l =>
      let (ds1, e1) := round_pass true l ds in
      if e1 : bool then (ds1, Err ValueError)
      else let (ds2, e2) := round_pass false l ds1 in if e2 : bool then (ds2, Err ValueError) else (ds2, Ok ds2)
  end.
(** get_dataset, state_turbine_table.py:69-93, for the data set [ds] built from the farm results; the
    returned table *)
Definition get_dataset (to_file : option (option (list (string * option Z)))) (ds : list nvar) : result (list nvar) :=
  match to_file with
  | None => Ok ds
  | Some rnd => let (ds', o) := write_nc rnd ds in do _ <- o; Ok ds'
  end.

(** ** PointCalculator *)

(** the points argument: shape (n_points, 3), shape (n_states, n_points, 3), or any other *)
Inductive points (P : Type) := Pts2 (l : list P) | Pts3 (m : list (list P)) | PtsBad.
Arguments Pts2 {P}. Arguments Pts3 {P}. Arguments PtsBad {P}.
(** an algorithm: the number of states, None before its first initialisation (algorithm.py:60, downwind.py:389);
    the number of states left by states_sel and states_isel (downwind.py:768-775); the point
    calculation with these states, whose results are per state and point or, for weights, per
    state only (engine.py:516-531) *)
Record algo (P : Type) := mkalgo { n_states : option nat; n_sel : nat; calc : list (list P) -> list (string * @Combine_Model.dsvar R) }.
Arguments mkalgo {P}. Arguments n_states {P}. Arguments n_sel {P}. Arguments calc {P}.
(** calc_points, downwind.py:749-794 with algorithm.py:404-424 *)
Definition calc_points {P} (a : algo P) (p : points P) : result (list (string * @Combine_Model.dsvar R)) :=
  match p with
  | Pts2 l => Ok (calc a (repeat l (n_sel a)))
  | Pts3 m => if (length m =? n_sel a)%nat then Ok (calc a m) else Err ValueError
  | PtsBad => Err ValueError
  end.
(** the points that are passed on, calc_points.py:87-99 *)
Definition expand {P} (a : algo P) (p : points P) : result (list (list P)) :=
  match p with
  | Pts3 m => Ok m
  | Pts2 l => match n_states a with Some n => Ok (repeat l n) | None => Err TypeError end
  | PtsBad => Err ValueError
  end.
(** the file: the points as given, and the variables, calc_points.py:124-145 *)
Record pfile (P : Type) := mkpfile { f_points : points P; f_vars : list (string * list (list R)) }.
Arguments mkpfile {P}. Arguments f_points {P}. Arguments f_vars {P}.
(** {v: ((STATE, POINT), pres[v].to_numpy()) for v in vrs}, calc_points.py:137-139; a variable
    without the point dimension does not match *)
Fixpoint full_vars (res : list (string * @Combine_Model.dsvar R)) (vs : list string) : result (list (string * list (list R))) :=
  match vs with
  | [] => Ok []
  | v :: r => match assoc v res with
              | None => Err KeyError
              | Some (Combine_Model.PerState _) => Err ValueError
              | Some (Combine_Model.Full m) => do l <- full_vars res r; Ok ((v, m) :: l)
              end
  end.
(** calculate, calc_points.py:87-147. [weights] is the farm results' WEIGHT. With states_mean the new
    Dataset gets arrays without dimension names (105-110), which xarray rejects unless there are none *)
Definition calculate {P} (a : algo P) (weights : @Combine_Model.dsvar R) (states_mean : bool) (to_file : bool) (write_vars : option (list string)) (p : points P)
  : result (list (string * @Combine_Model.dsvar R)) * option (pfile P) :=
  match (do pts <- expand a p; calc_points a (Pts3 pts)) with
  | Err e => (Err e, None)
  | Ok res =>
      if states_mean then
        match weights with
        | Combine_Model.PerState _ => (Err IndexError, None)
        | Combine_Model.Full _ => match res with [] => (Ok [], None) | _ => (Err ValueError, None) end
        end
      else if to_file then
        match full_vars res (match write_vars with Some l => l | None => map fst res end) with
        | Err e => (Err e, None)
        | Ok vs => (Ok res, Some (mkpfile p vs))
        end
      else (Ok res, None)
  end.
