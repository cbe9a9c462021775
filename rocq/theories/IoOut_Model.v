(** The outputs requested by a windIO file: foxes/input/yaml/windio/read_outputs.py, with StateTurbineTable.get_dataset
    (foxes/output/state_turbine_table.py) and the heights of SlicesData (foxes/output/slices_data.py). *)
From Coq Require Import String.
From Verif Require Import RBase Data_Model.
From Verif Require Lookup_Model Grid_Model WindIO_Model NcOut_Model.
Local Open Scope string_scope.
Local Open Scope R_scope.
Local Open Scope list_scope.
Local Notation length := List.length.

(** a mandatory entry of a dictionary: Dict.get_item without default, foxes/utils/dict.py:56-117 *)
Definition need {A} (o : option A) : result A := match o with Some x => Ok x | None => Err KeyError end.
(** the value of z_sampling, foxes/input/yaml/windio/read_outputs.py:88-105 *)
Inductive zsampling := ZPlaneList | ZHubs | ZGrid | ZNumber (z : R) | ZOther.
(** the dictionary z_planes, read_outputs.py:65-70, 92-135; [p_grid]: whether xy_sampling is 'grid'. None: the entry is missing *)
Record zplanes := { p_z : option zsampling; p_list : option (list R); p_zb : option (list R); p_zn : option Z; p_grid : option bool;
  p_xb : option (list R); p_yb : option (list R); p_dx : option R; p_dy : option R }.
(** the dictionary flow_field, read_outputs.py:58-66 *)
Record flow := { f_report : option bool; f_file : option string; f_vars : option (list string); f_planes : option zplanes }.
(** the dictionary turbine_outputs, read_outputs.py:9-22 *)
Record turbout := { t_report : option bool; t_file : option string; t_vars : option (list string) }.
(** the dictionary cases_run, read_outputs.py:189-197 *)
Record cases := { c_all : option bool; c_subset : option (list Z) }.
(** the dictionary model_outputs_specification, read_outputs.py:180-205 *)
Record request := { r_folder : option string; r_cases : option cases; r_turb : option turbout; r_flow : option flow }.
(** the entries of the foxes outputs list: a StateTurbineTable with get_dataset (33-55), and SlicesData with get_states_data_xy (125-152);
    variables with their new names, digits, file, states_isel, the grid *)
Inductive output :=
| OTable (vars : list string) (names : list (string * string)) (digits : list (string * option Z)) (file : string) (isel : option (list Z))
| OSlices (heights : list R) (isel : option (list Z)) (x0 x1 y0 y1 : R) (nx ny : Z) (vars : list string) (file : string).
(** [vmap[v] for v in output_variables], read_outputs.py:42 and 147 *)
Fixpoint mapped (vmap : list (string * string)) (vs : list string) : result (list string) :=
  match vs with [] => Ok [] | v :: r => do x <- need (lookup v vmap); do y <- mapped vmap r; Ok (x :: y) end.
(** vmap of the turbine outputs, read_outputs.py:28-31 *)
Definition turb_vmap : list (string * string) := [("power", "P"); ("rotor_effective_velocity", "REWS")].
(** ivmap, read_outputs.py:32-38: the names in the output *)
Definition turb_ivmap : list (string * string) := [("P", "power"); ("REWS", "rotor_effective_velocity"); ("state", "time"); ("turbine", "turbine")].
(** _read_turbine_outputs, read_outputs.py:9-56 *)
Definition read_turbine (t : option turbout) (isel : option (list Z)) : result (list output) :=
  match t with
  | None => Ok []
  | Some t =>
      if match t_report t with Some b => b | None => true end then
        do vs <- need (t_vars t);
        do fvs <- mapped turb_vmap vs;
        Ok [OTable fvs turb_ivmap (map (fun kv => (fst kv, NcOut_Model.default_digits (snd kv))) turb_vmap)
              (match t_file t with Some f => f | None => "turbine_outputs.nc" end)
              (match isel with Some (i :: l) => Some (i :: l) | _ => None end)]
      else Ok []
  end.
(** vmap of the flow field, read_outputs.py:82-85 *)
Definition flow_vmap : list (string * string) := [("wind_speed", "WS"); ("wind_direction", "WD")].
(** bounds with exactly two entries, read_outputs.py:96-97, 111-114. Simplification: the AssertionError is a ValueError *)
Definition two (l : list R) : result (R * R) := match l with [a; b] => Ok (a, b) | _ => Err ValueError end.
(** z_list, read_outputs.py:87-107; np.unique of [hubs]: the hub heights of all turbines. Simplification: NotImplementedError is a ValueError *)
Definition heights (hubs : list R) (p : zplanes) (z : zsampling) : result (list R) :=
  match z with
  | ZPlaneList => need (p_list p)
  | ZHubs => Ok (Lookup_Model.sort_u Rltb Reqb hubs)
  | ZGrid => do zb <- need (p_zb p); do b <- two zb; do zn <- need (p_zn p);
      match Grid_Model.linspace (fst b) (snd b) zn with Some l => Ok l | None => Err ValueError end
  | ZNumber z => Ok [z]
  | ZOther => Err ValueError
  end.
(** _read_flow_field, read_outputs.py:58-157 *)
Definition read_flow (hubs : list R) (f : option flow) (isel : option (list Z)) : result (list output) :=
  match f with
  | None => Ok []
  | Some f =>
      if match f_report f with Some b => b | None => true end then
        do vs <- need (f_vars f); do p <- need (f_planes f);
        do zs <- need (p_z p); do xy <- need (p_grid p); do zl <- heights hubs p zs;
        if xy : bool then
          do xb <- need (p_xb p); do xs <- two xb; do yb <- need (p_yb p); do ys <- two yb; do dx <- need (p_dx p); do dy <- need (p_dy p);
          do fvs <- mapped flow_vmap vs;
          Ok [OSlices zl isel (fst xs) (snd xs) (fst ys) (snd ys) (WindIO_Model.n_points (fst xs) (snd xs) dx) (WindIO_Model.n_points (fst ys) (snd ys) dy)
                fvs (match f_file f with Some n => n | None => "flow_field.nc" end)]
        else Err ValueError
      else Ok []
  end.
(** read_outputs, read_outputs.py:159-207: the outputs directory and the list of outputs *)
Definition read_outputs (hubs : list R) (r : request) : result (string * list output) :=
  do al <- need (match r_cases r with Some c => c_all c | None => None end);
  do isel <- (if al : bool then Ok None else do l <- need (match r_cases r with Some c => c_subset c | None => None end); Ok (Some l));
  do ts <- read_turbine (r_turb r) isel;
  do fs <- read_flow hubs (r_flow r) isel;
  Ok (match r_folder r with Some d => d | None => "." end, ts ++ fs).

(** farm results: labels of the states, and for each variable the rows of states with the values of all turbines *)
Record fresults := { states : list Z; fvars : list (string * list (list R)) }.
(** one index of Dataset.isel; negative ones count from the end. foxes/output/state_turbine_table.py:84-85 *)
Definition at_index {A} (l : list A) (i : Z) : result A :=
  let k := (if (i <? 0)%Z then i + Z.of_nat (length l) else i)%Z in
  if (k <? 0)%Z then Err IndexError else match nth_error l (Z.to_nat k) with Some x => Ok x | None => Err IndexError end.
(** Dataset.isel along the states, state_turbine_table.py:84-85 *)
Fixpoint isel_all {A} (l : list A) (idx : list Z) : result (list A) :=
  match idx with [] => Ok [] | i :: r => do x <- at_index l i; do y <- isel_all l r; Ok (x :: y) end.
(** isel=None: everything *)
(** foxes/output/state_turbine_table.py:84-85 *)
Definition isel_opt {A} (l : list A) (idx : option (list Z)) : result (list A) := match idx with None => Ok l | Some i => isel_all l i end.
(** the data_vars of the table, state_turbine_table.py:78-81, with the states selection (84-85) and the rounding of write_nc
    (foxes/utils/xarray_utils.py:40-45) *)
Fixpoint table_vars (fr : fresults) (names : list (string * string)) (digs : list (string * option Z)) (isel : option (list Z)) (vs : list string)
  : result (list (string * list (list R))) :=
  match vs with
  | [] => Ok []
  | v :: r =>
      do rows <- need (lookup v (fvars fr));
      do sel <- isel_opt rows isel;
      let n := match lookup v names with Some n => n | None => v end in
      let rd := match NcOut_Model.digits digs n with Some d => NcOut_Model.round_dec d | None => fun x => x end in
      do rest <- table_vars fr names digs isel r; Ok ((n, map (map rd) sel) :: rest)
  end.
(** the file of a StateTurbineTable: its states and variables, state_turbine_table.py:70-93 *)
Definition table_file (fr : fresults) (o : output) : result (list Z * list (string * list (list R))) :=
  match o with
  | OTable vs names digs _ isel => do vars <- table_vars fr names digs isel vs; do st <- isel_opt (states fr) isel; Ok (st, vars)
  | OSlices _ _ _ _ _ _ _ _ _ _ => Err TypeError
  end.
(** the heights in the file of a SlicesData output: every slice is written to the same file (slices_data.py:214-228 hands to_file to each
    call of SliceData, slice_data.py:686-692 writes it), so that the file holds what the last one wrote; None: no file *)
Definition flow_heights (o : output) : option R :=
  match o with OSlices zl _ _ _ _ _ _ _ _ _ => fold_left (fun _ z => Some z) zl None | _ => None end.
