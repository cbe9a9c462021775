(** Model of algorithms that share one model book: /repo/foxes/algorithms/downwind/downwind.py:112-120,
    187-189 (every algorithm takes the rotor model and the farm controller objects out of the book),
    /repo/foxes/core/farm_controller.py:90-118, 179-261 (turbine types of the controller),
    /repo/foxes/core/rotor_model.py:46-82, 224-324 (variables of the rotor model),
    /repo/foxes/models/rotor_models/centre.py:135-202,
    /repo/foxes/algorithms/downwind/models/init_farm_data.py:86-105 (diameters and hub heights).
    Simplifications: one rotor model and one controller per book, diameters and heights are opaque
    numbers, everything else that a calculation does (states, wakes, order) is left out; the model
    order of the controller is Controller_Model. *)
From Coq Require Import String.
From Verif Require Import Base.
Open Scope string_scope.

(** a turbine type of the model book: its diameter, its hub height, and whether it needs REWS2 or
    REWS3 (turbine_types/PCt_file.py:110-134) *)
Record ttype := mkttype { t_D : nat; t_H : nat; t_r2 : bool; t_r3 : bool }.

(** one turbine of a farm, core/turbine.py: model names, given diameter and height *)
Record turb := mkturb { u_models : list string; u_D : option nat; u_H : option nat }.

(** what an algorithm is made of: the farm's turbines and the variables of its states,
    downwind.py:58-72 *)
Record algo := mkalgo { a_turbs : list turb; a_vars : list string }.

(** the model book: mbook.turbine_types and the names in mbook.turbine_models *)
Record book := mkbook { b_type : string -> option ttype; b_model : string -> bool }.

(** what the shared objects remember: FarmController.turbine_types (farm_controller.py:47), with an
    entry None for a turbine without type so far, and RotorModel.calc_vars (rotor_model.py:44) *)
Record shared := mkshared { h_types : option (list (option string)); h_vars : option (list string) }.

(** the objects of a new model book, farm_controller.py:47, rotor_model.py:32-44 *)
Definition new_book : shared := mkshared None None.

(** mname in algo.mbook.turbine_types, farm_controller.py:194 *)
Definition is_type (b : book) (n : string) : bool :=
  match b_type b n with Some _ => true | None => false end.

(** farm_controller.py:179-210: the list left in self.turbine_types, and whether no error was raised *)
Fixpoint find_types (b : book) (ts : list turb) : list (option string) * bool :=
  match ts with
  | [] => ([], true)
  | t :: q =>
      match filter (is_type b) (u_models t) with
      | [x] => let (l, ok) := find_types b q in (Some x :: l, ok)
      | [] => (None :: map (fun _ => None) q, false)
      | x :: _ :: _ => (Some x :: map (fun _ => None) q, false)
      end
  end.

(** downwind.py:187-189: the last lines of the constructor of an algorithm *)
Definition create (b : book) (a : algo) (s : shared) : shared * bool :=
  let (l, ok) := find_types b (a_turbs a) in (mkshared (Some l) (h_vars s), ok).

(** sorted(...) of a list of names, rotor_model.py:77 *)
Fixpoint insert (x : string) (l : list string) : list string :=
  match l with
  | [] => [x]
  | y :: q => if String.leb x y then x :: l else y :: insert x q
  end.
(** the insertion sort, rotor_model.py:77 *)
Fixpoint sort (l : list string) : list string :=
  match l with [] => [] | x :: q => insert x (sort q) end.

(** x in l *)
Definition mem (x : string) (l : list string) : bool := existsb (String.eqb x) l.

(** rotor_model.py:46-82, the value of self.calc_vars after output_farm_vars, for the memory [m];
    [r2], [r3]: farm_controller.needs_rews2(), needs_rews3() *)
Definition rotor_vars (m : option (list string)) (vrs : list string) (r2 r3 : bool) : list string :=
  let cv :=
    match m with
    | Some l => l
    | None =>
        let l0 := if mem "WS" vrs
                  then "REWS" :: filter (fun v => negb (String.eqb v "WS")) vrs
                  else vrs in
        let l1 := if r2 && negb (mem "REWS2" l0) then (l0 ++ ["REWS2"])%list else l0 in
        let l2 := if r3 && negb (mem "REWS3" l1) then (l1 ++ ["REWS3"])%list else l1 in
        sort l2
    end in
  if mem "weight" cv then cv else (cv ++ ["weight"])%list.

(** farm_controller.py:90-118 *)
Definition needs (b : book) (f : ttype -> bool) (l : list string) : bool :=
  existsb (fun n => match b_type b n with Some t => f t | None => false end) l.

(** farm_controller.py:231-248: every model is one of the controller's types or a turbine model *)
Definition models_known (b : book) (types : list string) (ts : list turb) : bool :=
  forallb (fun t => forallb (fun n => mem n types || b_model b n) (u_models t)) ts.

(** init_farm_data.py:97-105: height and diameter of turbine [ti], or IndexError *)
Fixpoint dims (b : book) (types : list string) (ts : list turb) : result (list (nat * nat)) :=
  match ts with
  | [] => Ok []
  | t :: q =>
      let ty := match types with n :: _ => b_type b n | [] => None end in
      do h <- match u_H t with Some h => Ok h
              | None => match ty with Some y => Ok (t_H y) | None => Err IndexError end end;
      do d <- match u_D t with Some d => Ok d
              | None => match ty with Some y => Ok (t_D y) | None => Err IndexError end end;
      do r <- dims b (List.tl types) q;
      Ok ((d, h) :: r)
  end.

(** names that are made from the wind vectors instead of from tdata[v], rotor_model.py:245-312 *)
Definition from_wind (v : string) : bool :=
  mem v ["WS"; "WD"; "YAW"; "REWS"; "REWS2"; "REWS3"].

(** rotor_model.py:230-241, 317-322, centre.py:141-152, 194-200: all that is read from tdata is there;
    tdata holds the variables of the states and the weights (rotor_model.py:375-389) *)
Definition readable (vars vrs : list string) : bool :=
  (if existsb from_wind vars then mem "WD" vrs && mem "WS" vrs else true) &&
  forallb (fun v => from_wind v || String.eqb v "weight" || mem v vrs) vars.

(** the turbine types of the farm read fdata[REWS2], fdata[REWS3] if they need them,
    turbine_types/PCt_file.py:262-292: they are found if the rotor model has written them *)
Definition types_fed (b : book) (ts : list turb) (vars : list string) : bool :=
  forallb (fun t => forallb (fun n => match b_type b n with
    | Some y => (negb (t_r2 y) || mem "REWS2" vars) && (negb (t_r3 y) || mem "REWS3" vars)
    | None => true end) (u_models t)) ts.

(** all entries of a list of options *)
Fixpoint somes (l : list (option string)) : option (list string) :=
  match l with
  | [] => Some []
  | Some x :: q => option_map (cons x) (somes q)
  | None :: _ => None
  end.

(** what a calculation shows: diameters and hub heights of the turbines, and the rotor variables *)
Definition shown : Type := list (nat * nat) * list string.

(** calc_farm, downwind.py:549-586: first collect_models (farm_controller.py:224-261), then the rotor
    model's variables (downwind.py:456), then the run *)
Definition calc (b : book) (a : algo) (s : shared) : shared * result shown :=
  let l := match h_types s with Some l => l | None => fst (find_types b (a_turbs a)) end in
  let s1 := mkshared (Some l) (h_vars s) in
  match somes l with
  | None => (s1, Err AttributeError)                                   (* farm_controller.py:230 *)
  | Some types =>
      if models_known b types (a_turbs a) then
        let vars := rotor_vars (h_vars s) (a_vars a) (needs b t_r2 types) (needs b t_r3 types) in
        let s2 := mkshared (Some l) (Some vars) in
        match dims b types (a_turbs a) with
        | Err e => (s2, Err e)
        | Ok ds =>
            if readable vars (a_vars a) && types_fed b (a_turbs a) vars
            then (s2, Ok (ds, vars)) else (s2, Err KeyError)
        end
      else (s1, Err KeyError)                                          (* farm_controller.py:246 *)
  end.

(** what a program does with its algorithms, in any order *)
Inductive event := Create (a : algo) | Calc (a : algo).

(** one step *)
Definition step (b : book) (s : shared) (e : event) : shared :=
  match e with Create a => fst (create b a s) | Calc a => fst (calc b a s) end.
(** the shared objects after a history *)
Definition after (b : book) (h : list event) : shared := fold_left (step b) h new_book.
(** the result of a calculation that follows a history *)
Definition result_after (b : book) (h : list event) (a : algo) : result shown :=
  snd (calc b a (after b h)).
