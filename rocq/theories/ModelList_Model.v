(** Chains of farm and point data models (foxes/core/{farm_data_model,point_data_model}.py). *)
From Verif Require Import RBase Data_Model.
Local Notation length := List.length.

Section Chain.
Context {V : Type}.
(** variables and their arrays (opaque values) -- fdata / results dicts of core/farm_data_model.py:252-293 *)
Definition vars := list (string * V).
(** dict.update -- core/farm_data_model.py:288-291 *)
Definition update (fd res : vars) : vars := fold_left (fun d kv => store (fst kv) (snd kv) d) res fd.
(** keyword arguments of a calculate call: none, those of an elementary model, or `parameters=...` of a list -- core/farm_data_model.py:252-293 *)
Inductive par := PEmpty | PElem (k : nat) | PList (l : option (list par)).
(** Models. An elementary model declares output variables and calculates results from the data. Simplification: models change
    the data only through their results. -- core/farm_data_model.py:93-293 *)
Inductive model := Elem (outs : list string) (calc : vars -> par -> result vars) | MList (ms : list model).
(** list(dict.fromkeys(l)) -- core/farm_data_model.py:231-250 *)
Fixpoint fromkeys (seen l : list string) : list string :=
  match l with [] => [] | x :: l' => if in_dec string_dec x seen then fromkeys seen l' else x :: fromkeys (x :: seen) l' end.
(** output_farm_vars, farm_data_model.py:230-248; output_point_vars likewise *)
Fixpoint outputs (m : model) : list string :=
  match m with Elem outs _ => outs | MList ms => fromkeys [] (flat_map outputs ms) end.
(** {v: fdata[v] for v in vars} -- core/farm_data_model.py:293 *)
Fixpoint collect (fd : vars) (vs : list string) : result vars :=
  match vs with
  | [] => Ok []
  | v :: vs' => match lookup v fd with None => Err KeyError | Some x => match collect fd vs' with Ok r => Ok ((v, x) :: r) | Err e => Err e end end
  end.
(** the loop over models and parameter sets, farm_data_model.py:288-291 *)
Definition run_models (calc : model -> par -> vars -> result (vars * vars)) : list model -> list par -> vars -> result vars :=
  fix run (ms : list model) (ps : list par) (fd : vars) {struct ms} : result vars :=
    match ms, ps with
    | m :: ms', p :: ps' => match calc m p fd with Ok (fd', r) => run ms' ps' (update fd' r) | Err e => Err e end
    | _, _ => Ok fd
    end.
(** calculate, farm_data_model.py:250-293 and point_data_model.py:205-249; [dflt]: the default of the argument `parameters`,
    which is [] for farm models and None for point models. The result: the chain's changes of the data and its returned dict. *)
Variable dflt : option (list par).
(** core/farm_data_model.py:252-293, core/point_data_model.py:205-249 *)
Fixpoint calculate (m : model) (p : par) (fd : vars) {struct m} : result (vars * vars) :=
  match m with
  | Elem outs calc => match calc fd p with Ok r => Ok (fd, r) | Err e => Err e end
  | MList ms =>
    let given := match p with PList l => Ok l | PEmpty => Ok dflt | PElem _ => Err TypeError end in
    match given with
    | Err e => Err e
    | Ok given =>
      let ps := match given with None => repeat PEmpty (length ms) | Some l => l end in
      if (length ps =? length ms)%nat then
        match run_models calculate ms ps fd with
        | Err e => Err e
        | Ok fd' => match collect fd' (outputs m) with Ok r => Ok (fd', r) | Err e => Err e end
        end
      else Err ValueError
    end
  end.
End Chain.
(** farm_data_model.py:150-157: self + m *)
Definition plus {V} (a b : @model V) : model := match b with MList ms => MList (a :: ms) | _ => MList [a; b] end.
