(** Ready-made point models (foxes/models/point_models/{tke2ti,ustar2ti,set_uniform_data}.py) as elements of point model lists. *)
From Coq Require Import String.
From Verif Require Import RBase Data_Model ModelList_Model Mirror_Model.
Local Open Scope string_scope.
Local Open Scope R_scope.
Local Open Scope list_scope.
Local Notation length := List.length.

(** the names defined by the module foxes.variables with string values, foxes/variables.py:1-280 *)
Definition fv_names : list (string * string) :=
  [("X", "X"); ("Y", "Y"); ("H", "H"); ("D", "D"); ("TXYH", "txyh"); ("WEIGHT", "weight"); ("ORDER", "order"); ("ORDER_INV", "order_inv");
   ("ORDER_SSEL", "order_ssel"); ("WS", "WS"); ("WD", "WD"); ("TI", "TI"); ("RHO", "RHO"); ("YAW", "YAW"); ("YAWM", "YAWM"); ("P", "P");
   ("MAX_P", "MAXP"); ("CT", "CT"); ("T", "T"); ("YLD", "YLD"); ("EFF", "EFF"); ("CAP", "CAP"); ("REWS", "REWS"); ("REWS2", "REWS2");
   ("REWS3", "REWS3"); ("AMB_WS", "AMB_WS"); ("AMB_WD", "AMB_WD"); ("AMB_TI", "AMB_TI"); ("AMB_RHO", "AMB_RHO"); ("AMB_YAW", "AMB_YAW");
   ("AMB_YAWM", "AMB_YAWM"); ("AMB_P", "AMB_P"); ("AMB_CT", "AMB_CT"); ("AMB_T", "AMB_T"); ("AMB_YLD", "AMB_YLD"); ("AMB_CAP", "AMB_CAP");
   ("AMB_REWS", "AMB_REWS"); ("AMB_REWS2", "AMB_REWS2"); ("AMB_REWS3", "AMB_REWS3"); ("K", "k"); ("KB", "kb"); ("KTI", "kTI"); ("Z0", "z0");
   ("MOL", "MOL"); ("USTAR", "USTAR"); ("SHEAR", "shear"); ("PA_ALPHA", "PA_alpha"); ("PA_BETA", "PA_beta")].
(** attribute access on the module, e.g. FV.TI: foxes/models/point_models/tke2ti.py:57-60 *)
Definition fv (name : string) : result string :=
  match lookup name fv_names with Some v => Ok v | None => Err AttributeError end.
(** pdata[v] of one point: foxes/models/point_models/tke2ti.py:57-58 *)
Definition item (pdata : list (string * R)) (v : string) : result R :=
  match lookup v pdata with Some x => Ok x | None => Err KeyError end.
(** TKE2TI.calculate, foxes/models/point_models/tke2ti.py:36-60 *)
Definition tke2ti_calc (pdata : list (string * R)) (_ : par) : result (list (string * R)) :=
  do k <- fv "TKE"; do tke <- item pdata k; do w <- fv "WS"; do ws <- item pdata w; do t <- fv "TI"; Ok [(t, tke2ti tke ws)].
(** TKE2TI as an element of a list of models: output_point_vars, foxes/models/point_models/tke2ti.py:18-34 *)
Definition tke2ti_model : @model R := Elem ["TI"] tke2ti_calc.
(** FC.KAPPA, foxes/constants.py:149 *)
Definition kappa : R := 41 / 100.
(** Ustar2TI.calculate, foxes/models/point_models/ustar2ti.py:54-84 *)
Definition ustar2ti_calc (max_ti : option R) (pdata : list (string * R)) (_ : par) : result (list (string * R)) :=
  do k <- fv "USTAR"; do us <- item pdata k; do w <- fv "WS"; do ws <- item pdata w; do t <- fv "TI"; Ok [(t, ustar2ti kappa max_ti us ws)].
(** Ustar2TI as an element of a list of models, foxes/models/point_models/ustar2ti.py:36-52 *)
Definition ustar2ti_model (max_ti : option R) : @model R := Elem ["TI"] (ustar2ti_calc max_ti).
(** the attributes that Model.__init__ sets, foxes/core/model.py:26-38 *)
Definition base_attrs : list string := ["name"; "_id"; "_Model__initialized"; "_Model__running"].
(** the attributes that the constructor of a point model sets; [super]: whether it calls the constructor of the base class.
    SetUniformData does not: foxes/models/point_models/set_uniform_data.py:28-56 *)
Definition new_attrs (super : bool) (own : list string) : list string := (if super then base_attrs else []) ++ own.
(** SetUniformData.__init__: foxes/models/point_models/set_uniform_data.py:28-56 *)
Definition set_uniform_attrs : list string := new_attrs false ["data_source"; "ovars"; "var2col"; "_rpars"].
(** Ustar2TI.__init__: foxes/models/point_models/ustar2ti.py:20-34 *)
Definition ustar2ti_attrs : list string := new_attrs true ["max_ti"].
(** attribute access on an object *)
(** foxes/core/model.py:141-158 *)
Definition attr (attrs : list string) (a : string) : result unit := if in_dec string_dec a attrs then Ok tt else Err AttributeError.
(** Model.initialize: the property `running`, then `initialized`, then load_data, foxes/core/model.py:127-158. Simplification: of a
    fresh object, no sub-models. *)
Definition initialize {A} (attrs : list string) (load_data : result A) : result A :=
  do _ <- attr attrs "_Model__running"; do _ <- attr attrs "_Model__initialized"; load_data.
