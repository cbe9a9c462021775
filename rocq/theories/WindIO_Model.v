(** Model of reading windIO input: the wind resource
    (/repo/foxes/input/yaml/windio/read_fields.py and read_site.py), the wind farm (read_farm.py),
    the wake expansion coefficients (read_attributes.py:44-82, 114-141) and the grid of flow field
    output (read_outputs.py:110-122).
    Simplifications: printing is left out; NotImplementedError is shown as ValueError; numbers are
    reals, times are numbers. *)
From Coq Require Import String.
From Verif Require Import RBase Wrg_Model.
From Verif Require Data_Model WakeK_Model Params_Model.
Local Open Scope R_scope.
Local Notation length := List.length.

(** the names that read_fields.py:11-25, 136-181 knows; [WIgn] stands for the thirteen ignored
    names of 136-150, [WOther] for all others (for instance air_density) *)
Inductive wname :=
| Wtime | Wx | Wy | Wheight | Wwind_turbine | Wwind_direction | Wwind_speed | Wprobability
| Wsector_probability | Wturbulence_intensity | WLMO | Wz0 | Wreference_height
| WIgn (n : nat) | WOther (n : nat).
(** foxes variables, variables.py and constants.py *)
Inductive var := TIME | X | Y | H | TURBINE | WD | WS | WEIGHT | SECP | TI | MOL | Z0 | RHO.
(** equality of variable names *)
Definition veqb (a b : var) : bool :=
  match a, b with
  | TIME, TIME | X, X | Y, Y | H, H | TURBINE, TURBINE | WD, WD | WS, WS | WEIGHT, WEIGHT
  | SECP, SECP | TI, TI | MOL, MOL | Z0, Z0 | RHO, RHO => true
  | _, _ => false
  end.
(** read_fields.py:11-25 (wio2foxes) *)
Definition wio2foxes (n : wname) : option var :=
  match n with
  | Wtime => Some TIME | Wx => Some X | Wy => Some Y | Wheight => Some H
  | Wwind_turbine => Some TURBINE | Wwind_direction => Some WD | Wwind_speed => Some WS
  | Wprobability => Some WEIGHT | Wsector_probability => Some SECP
  | Wturbulence_intensity => Some TI | WLMO => Some MOL | Wz0 => Some Z0
  | Wreference_height => Some H | WIgn _ | WOther _ => None
  end.

(** numpy arrays with up to two axes; more axes carry no data here *)
Inductive arr := A0 (x : R) | A1 (l : list R) | A2 (m : list (list R)) | AN (n : nat).
(** number of axes, len(shape) *)
Definition ndim (a : arr) : nat := match a with A0 _ => 0 | A1 _ => 1 | A2 _ => 2 | AN n => n + 3 end%nat.
(** an entry of the windIO wind_resource: a number, a list, or data with dims *)
Inductive wdata := DNum (x : R) | DList (a : arr) | DField (a : arr) (dims : list wname) | DOther.

(** python dicts keyed by variables *)
Definition dict (A : Type) := list (var * A).
(** d[v] = a *)
Fixpoint put {A} (v : var) (a : A) (d : dict A) : dict A :=
  match d with
  | [] => [(v, a)]
  | (w, b) :: r => if veqb v w then (v, a) :: r else (w, b) :: put v a r
  end.
(** d.get(v) *)
Fixpoint get {A} (v : var) (d : dict A) : option A :=
  match d with [] => None | (w, b) :: r => if veqb v w then Some b else get v r end.
(** d.update(u) *)
Definition upd {A} (d u : dict A) : dict A := fold_left (fun a x => put (fst x) (snd x) a) u d.

(** coords and fields with their dims; a coordinate is a number (A0) or one-dimensional *)
Record site := mksite { coords : dict arr; fields : dict (arr * list var) }.
(** dims by name, KeyError for unknown ones: read_fields.py:84 *)
Fixpoint mapdims (l : list wname) : option (list var) :=
  match l with
  | [] => Some []
  | n :: r => match wio2foxes n, mapdims r with Some v, Some t => Some (v :: t) | _, _ => None end
  end.
(** read_fields.py:55-61 (_read_multi_dimensional_coordinate) *)
Definition as_coord (v : var) (d : wdata) (s : site) : option site :=
  match d with
  | DNum x => Some (mksite (put v (A0 x) (coords s)) (fields s))
  | DList (A1 l) => Some (mksite (put v (A1 l) (coords s)) (fields s))
  | _ => None
  end.
(** read_fields.py:93-99 (_read_multi_dimensional_data): None if it is not such data *)
Definition as_data (v : var) (d : wdata) (s : site) : option (result site) :=
  match d with
  | DNum x => Some (Ok (mksite (coords s) (put v (A0 x, []) (fields s))))
  | DField a dims =>
      Some (match mapdims dims with
            | None => Err KeyError
            | Some vs => if Nat.eqb (length vs) (ndim a)
                         then Ok (mksite (coords s) (put v (a, vs) (fields s)))
                         else Err ValueError
            end)
  | _ => None
  end.
(** read_fields.py:102-185 *)
Definition read_field (n : wname) (d : wdata) (s : site) : result site :=
  match n with
  | WIgn _ => Ok s
  | Wtime | Wwind_turbine =>
      match wio2foxes n with
      | Some v => match as_coord v d s with Some t => Ok t | None => Err ValueError end
      | None => Err ValueError
      end
  | Wwind_direction | Wwind_speed | Wx | Wy | Wheight =>
      match wio2foxes n with
      | Some v => match as_coord v d s with
                  | Some t => Ok t
                  | None => match as_data v d s with Some r => r | None => Err ValueError end
                  end
      | None => Err ValueError
      end
  | Wprobability | Wsector_probability | Wturbulence_intensity | WLMO | Wz0 | Wreference_height =>
      match wio2foxes n with
      | Some v => match as_data v d s with Some r => r | None => Err ValueError end
      | None => Err ValueError
      end
  | WOther _ => Err ValueError
  end.
(** read_site.py:258-262 *)
Fixpoint read_fields (l : list (wname * wdata)) (s : site) : result site :=
  match l with
  | [] => Ok s
  | (n, d) :: r => do t <- read_field n d s; read_fields r t
  end.

(** the profiles of read_site.py:14-41 *)
Inductive profile := PNone | PStable | PNeutral.
(** read_site.py:14-41: the profile, the additional output variables, and the fixed values *)
Definition get_profiles (f : dict (arr * list var)) : profile * list var * dict arr :=
  match get Z0 f, get H f with
  | Some _, Some (h, _) =>
      match get MOL f with
      | Some _ => (PStable, [MOL], [(H, h)])
      | None => (PNeutral, [], [(H, h)])
      end
  | _, _ => (PNone, [], [])
  end.

(** the states objects that read_site.py creates *)
Inductive states :=
| Timeseries (times : list R) (data : dict (list R)) (ovars : list var) (fixed : dict arr) (p : profile)
| MultiHeight (times heights : list R) (data : dict (list (list R))) (ovars : list var) (fixed : dict arr).

(** read_site.py:44-80: the loop runs over the names of the coordinates, which are no numbers, so
    that only an empty dict passes; then the index of the data frame is missing (71), or the
    constant height has no counterpart (59) *)
Definition single_state (c : dict arr) : option (result states) :=
  match c with [] => Some (Err KeyError) | _ :: _ => None end.

(** equality of lists of variables, dims[v] == (...) *)
Fixpoint lveqb (a b : list var) : bool :=
  match a, b with
  | [], [] => true
  | x :: a', y :: b' => veqb x y && lveqb a' b'
  | _, _ => false
  end.
(** read_site.py:93-101: the fields over time *)
Fixpoint time_data (f : dict (arr * list var)) : dict (list R) :=
  match f with
  | [] => []
  | (v, (A1 l, dm)) :: r => if lveqb dm [TIME] then (v, l) :: time_data r else time_data r
  | _ :: r => time_data r
  end.
(** read_site.py:93-101, 134-144: the constant fields *)
Fixpoint const_data (f : dict (arr * list var)) : dict arr :=
  match f with
  | [] => []
  | (v, (a, [])) :: r => (v, a) :: const_data r
  | _ :: r => const_data r
  end.
(** the number of columns of a matrix; matrices are rectangular *)
Definition ncols (m : list (list R)) : nat := match m with [] => 0%nat | r :: _ => length r end.
(** numpy.swapaxes of a matrix with n columns, read_site.py:140 *)
Fixpoint transpose (n : nat) (m : list (list R)) : list (list R) :=
  match n with
  | O => []
  | S k => map (fun r => hd 0 r) m :: transpose k (map (@tl R) m)
  end.
(** read_site.py:134-144: the fields over time and height *)
Fixpoint height_data (f : dict (arr * list var)) : dict (list (list R)) :=
  match f with
  | [] => []
  | (v, (A2 m, dm)) :: r =>
      if lveqb dm [TIME; H] then (v, m) :: height_data r
      else if lveqb dm [H; TIME] then (v, transpose (ncols m) m) :: height_data r
      else height_data r
  | _ :: r => height_data r
  end.
(** read_site.py:102, 145: fixval is written over the constant fields *)
Definition fix_vars {A} (data : dict A) (const fixval : dict arr) : dict arr :=
  upd const (filter (fun x => match get (fst x) data with None => true | Some _ => false end) fixval).

(** read_site.py:162-208 (get_states); pandas and xarray reject columns whose length differs from
    the index (104, 147); a time that is a number fails in pandas (104), a height that is a number
    fails later, when the states are loaded (multi_height.py:664-678), which is shown here already *)
Definition get_states (s : site) : result states :=
  let '(p, ov, fv) := get_profiles (fields s) in
  let ovars := ([WS; WD; TI; RHO] ++ ov)%list in
  let fixval := upd [(TI, A0 (5 / 100)); (RHO, A0 (1225 / 1000))] fv in
  match single_state (coords s) with
  | Some r => r
  | None =>
      match coords s with
      | [(TIME, A1 t)] =>
          let data := time_data (fields s) in
          if forallb (fun x => Nat.eqb (length (snd x)) (length t)) data
          then Ok (Timeseries t data ovars (fix_vars data (const_data (fields s)) fixval) p)
          else Err ValueError
      | [(TIME, A1 t); (H, A1 h)] | [(H, A1 h); (TIME, A1 t)] =>
          let data := height_data (fields s) in
          if forallb (fun x => Nat.eqb (length (snd x)) (length t)
                               && forallb (fun r => Nat.eqb (length r) (length h)) (snd x)) data
          then Ok (MultiHeight t h data ovars (fix_vars data (const_data (fields s)) fixval))
          else Err ValueError
      | _ => Err ValueError
      end
  end.
(** read_site.py:211-274 *)
Definition read_site (l : list (wname * wdata)) : result states :=
  do s <- read_fields l (mksite [] []); get_states s.

(** what the states say about variable [v] at time number [i]: the data, or else the fixed value;
    states_table.py:155-171, 407-424 *)
Definition value_at (s : states) (v : var) (i : nat) : option R :=
  match s with
  | Timeseries _ data _ fixed _ =>
      match get v data with
      | Some l => nth_error l i
      | None => match get v fixed with
                | Some (A0 x) => Some x
                | Some (A1 l) => nth_error l i
                | _ => None
                end
      end
  | MultiHeight _ _ _ _ _ => None
  end.
(** the same for states with heights, at height number [j]; multi_height.py:469-478 *)
Definition value_at_height (s : states) (v : var) (i j : nat) : option R :=
  match s with
  | MultiHeight _ _ data _ fixed =>
      match get v fixed with
      | Some (A0 x) => Some x
      | _ => match get v data with
             | Some m => match nth_error m i with Some r => nth_error r j | None => None end
             | None => None
             end
      end
  | Timeseries _ _ _ _ _ => None
  end.

(** read_farm.py: keys of turbine types are integers or strings *)
Inductive key := KInt (n : nat) | KStr (s : string).
(** equality of keys *)
Definition keqb (a b : key) : bool :=
  match a, b with
  | KInt n, KInt m => Nat.eqb n m
  | KStr s, KStr t => String.eqb s t
  | _, _ => false
  end.
(** the wind farm of a windIO file: the turbine types (or the single type "turbines"), given by
    their names; the layouts with x, y and the optional turbine_types *)
Record layout := mklayout { l_x : list R; l_y : list R; l_types : option (list key) }.
(** see above *)
Record wfarm := mkwfarm { w_types : option (list (key * string)); w_turbines : string; w_layouts : list layout }.
(** utils/dict.py:18-55: a foxes Dict is made by dict( **d), which takes string keys only *)
Definition dict_ok (k : list (key * string)) : bool :=
  forallb (fun x => match fst x with KStr _ => true | KInt _ => false end) k.
(** read_farm.py:40-46: the table of types; a missing table becomes {0: turbines} *)
Definition type_table (w : wfarm) : result (list (key * string)) :=
  match w_types w with
  | None => Ok [(KInt 0, w_turbines w)]
  | Some k => if dict_ok k then Ok k else Err TypeError
  end.
(** ttypes[k] *)
Fixpoint type_of (k : key) (t : list (key * string)) : result string :=
  match t with
  | [] => Err KeyError
  | (j, s) :: r => if keqb k j then Ok s else type_of k r
  end.
(** python zip *)
Fixpoint zip {A B} (a : list A) (b : list B) : list (A * B) :=
  match a, b with x :: a', y :: b' => (x, y) :: zip a' b' | _, _ => [] end.
(** read_farm.py:161-166: one turbine after the other *)
Fixpoint add_turbines (tab : list (key * string)) (tm : option (list key)) (i : nat) (xy : list (R * R))
  : result (list (R * R * string)) :=
  match xy with
  | [] => Ok []
  | p :: r =>
      do k <- match tm with
              | None => Ok (KInt 0)
              | Some l => match nth_error l i with Some k => Ok k | None => Err IndexError end
              end;
      do t <- type_of k tab;
      do q <- add_turbines tab tm (S i) r;
      Ok ((p, t) :: q)
  end.
(** read_farm.py:134-166 (read_layout) *)
Definition read_layout (tab : list (key * string)) (l : layout) : result (list (R * R * string)) :=
  add_turbines tab (l_types l) 0 (zip (l_x l) (l_y l)).
(** read_farm.py:219-220: all layouts *)
Fixpoint read_layouts (tab : list (key * string)) (ls : list layout) : result (list (R * R * string)) :=
  match ls with
  | [] => Ok []
  | l :: r => do a <- read_layout tab l; do b <- read_layouts tab r; Ok (a ++ b)%list
  end.
(** read_farm.py:171-222 *)
Definition read_farm (w : wfarm) : result (list (R * R * string)) :=
  do tab <- type_table w; read_layouts tab (w_layouts w).

(** the wake expansion coefficient of a windIO model: k_a (may be null), k_b and free_stream_ti
    (may be missing) *)
Record coef := mkcoef { k_a : option R; k_b : option R; fs_ti : bool }.
(** the parameters k, ka, kb, use of the ambient TI, that are passed to WakeK *)
Record wk := mkwk { wk_k : option R; wk_ka : option R; wk_kb : option R; wk_amb : bool }.
(** read_attributes.py:53-67, 129-140; kb is 0.0 if it is missing (54, 127) *)
Definition wake_k (c : coef) : wk :=
  let kb := match k_b c with Some b => b | None => 0 end in
  match k_a c with
  | None => mkwk (Some kb) None None false
  | Some a => if Reqb a 0 then mkwk (Some kb) None None false
              else mkwk None (Some a) (Some kb) (fs_ti c)
  end.
(** read_attributes.py:124-128, 289-312: the turbulence model takes its own coefficient, or else
    the one of the wind deficit *)
Definition ti_wake_k (deficit : coef) (own : option coef) : wk :=
  wake_k (match own with Some c => c | None => deficit end).
(** core/wake_model.py:229-243, 314-326: the growth that WakeK computes from these parameters,
    where the turbulence intensity is [ti] and the ambient one is [amb_ti] *)
Definition growth (w : wk) (ti amb_ti : R) : option R :=
  match WakeK_Model.new_wake_k (wk_k w) (wk_ka w) (wk_kb w) with
  | Err _ => None
  | Ok o => match WakeK_Model.k_attr o (WakeK_Model.scalar (if wk_amb w then amb_ti else ti)) with
            | Ok (Some a) => Some (Data_Model.val a [])
            | _ => None
            end
  end.

(** read_outputs.py:117-119: the number of points along an axis; [trunc] is python's int() *)
Definition n_points (x0 x1 dx : R) : Z :=
  let n := (Z.max (trunc ((x1 - x0) / dx)) 1 + 1)%Z in
  if Rltb dx ((x1 - x0) / IZR (n - 1)) then (n + 1)%Z else n.

(** the command line options of foxes_windio, windio.py:98-148: the output directory, the algorithm
    parameters (rotor, partial wakes, wake models, wake frame), the engine and the iterative flag *)
Record options := mkoptions { x_odir : option string; x_pars : Params_Model.pars; x_engine : option nat; x_iter : bool }.
(** windio.py:175-193: args has no attribute odir (178); the algorithm is always passed to run_dict *)
Definition foxes_windio (ext : Params_Model.env) (x : options) : Params_Model.M (bool * option bool * list bool) :=
  match x_odir x with
  | Some _ => Params_Model.mfail AttributeError
  | None => Params_Model.run_dict ext (Params_Model.mkgiven false false false true (x_engine x) (x_iter x) (x_pars x))
  end.
