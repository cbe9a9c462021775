(** Model of the parameters of a farm calculation: /repo/foxes/algorithms/downwind/downwind.py:422-470
    (_collect_farm_models), /repo/foxes/core/farm_data_model.py:288-291 (each model is called with its
    own dictionary), /repo/foxes/core/farm_controller.py:397 (choice of the turbine models).
    Dictionaries are python objects: the same object may be in the list several times, so they live in
    a heap. Simplification: the values are opaque numbers, True = 1, False = 0; what the models compute
    is left out, only which of them run and with which parameters. *)
From Coq Require Import String.
From Verif Require Import Base.
Open Scope string_scope.

(** a dictionary of parameters, and the heap of all dictionary objects *)
Definition dict := list (string * nat).
(** the objects; a reference is a position *)
Definition heap := list dict.

(** d[k] = v *)
Fixpoint dput (k : string) (v : nat) (d : dict) : dict :=
  match d with
  | [] => [(k, v)]
  | (k', v') :: q => if String.eqb k k' then (k, v) :: q else (k', v') :: dput k v q
  end.
(** d.get(k) *)
Fixpoint dlook (k : string) (d : dict) : option nat :=
  match d with
  | [] => None
  | (k', v) :: q => if String.eqb k k' then Some v else dlook k q
  end.

(** the user's calc_parameters: model names and dictionary objects, downwind.py:520, 438 *)
Definition cpars := list (string * nat).
(** calc_parameters.get(name), the object of a model *)
Fixpoint cget (k : string) (c : cpars) : option nat :=
  match c with
  | [] => None
  | (k', r) :: q => if String.eqb k k' then Some r else cget k q
  end.

(** change one object of the heap *)
Fixpoint hset (r : nat) (f : dict -> dict) (h : heap) : heap :=
  match h, r with
  | [], _ => []
  | d :: q, 0 => f d :: q
  | d :: q, S r' => d :: hset r' f q
  end.

(** calc_parameters.get(name, {}), e.g. downwind.py:438: the user's object or a new empty one *)
Definition get_pars (c : cpars) (name : string) (h : heap) : heap * nat :=
  match cget name c with Some r => (h, r) | None => ((h ++ [[]])%list, length h) end.

(** one entry of the model list: the name of the model, and the flag that is written into its
    parameters, if any *)
Record mstep := mkmstep { m_name : string; m_flag : option (string * nat) }.

(** the model list, downwind.py:436-468; [ambient], and [keep] = (outputs != False) *)
Definition steps (ctrl rotor : string) (ambient keep : bool) : list mstep :=
  ([ mkmstep ctrl (Some ("pre_rotor", 1));
     mkmstep "InitFarmData" None;
     mkmstep rotor (Some ("store", 1));
     mkmstep ctrl (Some ("pre_rotor", 0));
     mkmstep "SetAmbFarmResults" None ]
   ++ (if ambient then [] else [mkmstep "FarmWakesCalculation" None])
   ++ (if keep then [mkmstep "ReorderFarmOutput" None] else []))%list.

(** downwind.py:436-468: the heap afterwards and the references calc_pars *)
Fixpoint collect (c : cpars) (h : heap) (l : list mstep) : heap * list nat :=
  match l with
  | [] => (h, [])
  | s :: q =>
      let (h1, r) := get_pars c (m_name s) h in
      let h2 := match m_flag s with Some (k, v) => hset r (dput k v) h1 | None => h1 end in
      let (h3, rs) := collect c h2 q in
      (h3, r :: rs)
  end.

(** the parameters with which the models are called, farm_data_model.py:290 *)
Definition called (c : cpars) (h : heap) (l : list mstep) : list (string * dict) :=
  let (h', rs) := collect c h l in
  combine (map m_name l) (map (fun r => nth r h' []) rs).

(** which turbine models the controller runs, farm_controller.py:397 *)
Definition ctrl_runs (pre post : list string) (d : dict) : list string :=
  match dlook "pre_rotor" d with Some 1 => pre | _ => post end.

(** all models that run, in order: [ctrl] is the name of the controller *)
Definition runs (ctrl rotor : string) (pre post : list string) (ambient keep : bool) (c : cpars) (h : heap) : list string :=
  flat_map (fun nd => if String.eqb (fst nd) ctrl then ctrl_runs pre post (snd nd) else [fst nd])
           (called c h (steps ctrl rotor ambient keep)).
