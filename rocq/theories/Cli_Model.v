(** Model of the command line tool foxes_yaml: /repo/foxes/input/yaml/yaml.py:9-104, which calls run_dict
    (Params_Model). Simplifications: the values of the options are numbers; verbosity, directories and the
    unused option nofig are left out. *)
From Coq Require Import String.
From Verif Require Import Base Params_Model.
Open Scope string_scope.
Open Scope list_scope.

(** the parameters of Engine.new, yaml.py:79-85; None: the default of the engine (core/engine.py:594) *)
Record engine_pars := mkep { e_type : option nat; e_procs : option nat; e_states : option nat; e_points : option nat }.
(** the options of the command line, yaml.py:21-67; None: the option is not given *)
Record opts := mkopts {
  o_rotor : option nat; o_pwakes : option nat; o_wakes : option nat; o_frame : option nat;
  o_eng : engine_pars; o_iter : bool
}.
(** yaml.py:73-87: engine parameters if one of the four options is given *)
Definition epars (o : opts) : option engine_pars :=
  match o_eng o with mkep None None None None => None | e => Some e end.
(** yaml.py:89-99 and dict.py:171: algorithm parameters that are None are not used *)
Definition apars (o : opts) : pars :=
  match o_rotor o with Some v => [("rotor_model", v)] | None => [] end
  ++ match o_pwakes o with Some v => [("partial_wakes", v)] | None => [] end
  ++ match o_wakes o with Some v => [("wake_models", v)] | None => [] end
  ++ match o_frame o with Some v => [("wake_frame", v)] | None => [] end.
(** yaml.py:89-104; [enc] are the numbers of engine parameters in the model of run_dict *)
Definition foxes_yaml (enc : engine_pars -> nat) (ext : env) (o : opts) : M (bool * option bool * list bool) :=
  run_dict ext (mkgiven false false false false (option_map enc (epars o)) (o_iter o) (apars o)).
