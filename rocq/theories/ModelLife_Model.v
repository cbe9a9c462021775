(** Model lifecycle: initialize / finalize / set_running / unset_running over arbitrary
    acyclic sub-model graphs, and the calculation wrapper Algorithm.calc_farm.
    /repo/foxes/core/model.py:127-285, /repo/foxes/core/algorithm.py:679-757 and 789-832,
    /repo/foxes/input/states/states_table.py:310-380.
    Models are numbers; [subs i] is [sub_models()] of model [i]; [name i] is [self.name].
    [data i] is the bundle of large attributes a model moves to the stash (mbook, dbook,
    idata_mem for the algorithm; data_source, inds for table states; the empty bundle for models
    without large data); [None] means the attributes are deleted.
    Simplifications: printing is dropped; [load i] tells whether load_data/store_model_data of
    model [i] succeeds; the stash holds one bundle per name. *)
From Verif Require Import Base.

Section Life.
  Context {V : Type}.
  Variable subs : nat -> list nat.
  Variable name : nat -> nat.

  (** core/model.py:127-280: flags __initialized, __running, the model's data and the stash *)
  Record mst := mkmst {
    inited : nat -> bool;            (* self.__initialized *)
    running : nat -> bool;           (* self.__running *)
    data : nat -> option V;          (* large attributes of the model *)
    stash : nat -> option (option V) (* data_stash[name] *)
  }.
  (** function update on models, no code of its own *)
  Definition upd {A} (f : nat -> A) (i : nat) (a : A) : nat -> A := fun j => if j =? i then a else f j.
  (** core/model.py:127-171, 257-280: self.__initialized *)
  Definition set_inited s i b := mkmst (upd (inited s) i b) (running s) (data s) (stash s).

  (** run [f] for each element, stopping at the first exception -- `for m in ...:` loops of core/model.py:127-280 *)
  Fixpoint foreach (f : mst -> nat -> mst * result unit) (l : list nat) (s : mst) : mst * result unit :=
    match l with
    | [] => (s, Ok tt)
    | m :: l' => let '(s', o) := f s m in
                 match o with Ok _ => foreach f l' s' | Err e => (s', Err e) end
    end.

  (** model.py:127-158, Model.initialize. *)
  Fixpoint initialize (load : nat -> bool) (fuel : nat) (s : mst) (i : nat) : mst * result unit :=
    match fuel with
    | O => (s, Err OutOfFuel)
    | S f =>
        if running s i then (s, Err ValueError)
        else if inited s i then (s, Ok tt)
        else
          let '(s1, o) := foreach (fun s m => if inited s m then (s, Ok tt) else initialize load f s m) (subs i) s in
          match o with
          | Err e => (s1, Err e)
          | Ok _ => if load i then (set_inited s1 i true, Ok tt) else (s1, Err KeyError)
          end
    end.

  (** model.py:257-285, Model.finalize. *)
  Fixpoint finalize (fuel : nat) (s : mst) (i : nat) : mst * result unit :=
    match fuel with
    | O => (s, Err OutOfFuel)
    | S f =>
        if running s i then (s, Err ValueError)
        else if inited s i then
          let '(s1, o) := foreach (finalize f) (subs i) s in
          match o with Err e => (s1, Err e) | Ok _ => (set_inited s1 i false, Ok tt) end
        else (s, Ok tt)
    end.

  (** model.py:173-216 and algorithm.py:711-721: sub-models first, then this model's large data
      moves to the stash. *)
  Definition stash_away (s : mst) (i : nat) : mst :=
    mkmst (inited s) (upd (running s) i true) (upd (data s) i None) (upd (stash s) (name i) (Some (data s i))).
  (** core/model.py:173-216, core/algorithm.py:711-721 *)
  Fixpoint set_running (fuel : nat) (s : mst) (i : nat) : mst * result unit :=
    match fuel with
    | O => (s, Err OutOfFuel)
    | S f =>
        if running s i then (s, Err ValueError)
        else
          let '(s1, o) := foreach (fun s m => if running s m then (s, Ok tt) else set_running f s m) (subs i) s in
          match o with
          | Err e => (s1, Err e)
          | Ok _ => (stash_away s1 i, Ok tt)
          end
    end.

  (** model.py:218-255 and algorithm.py:752-757: sub-models first, then restore from the stash. *)
  Definition restore (s : mst) (i : nat) : mst * result unit :=
    match stash s (name i) with
    | None => (s, Err KeyError)
    | Some d => (mkmst (inited s) (upd (running s) i false) (upd (data s) i d) (upd (stash s) (name i) None), Ok tt)
    end.
  (** core/model.py:218-255, core/algorithm.py:752-757 *)
  Fixpoint unset_running (fuel : nat) (s : mst) (i : nat) : mst * result unit :=
    match fuel with
    | O => (s, Err OutOfFuel)
    | S f =>
        if running s i then
          let '(s1, o) := foreach (fun s m => if running s m then unset_running f s m else (s, Ok tt)) (subs i) s in
          match o with
          | Err e => (s1, Err e)
          | Ok _ => restore s1 i
          end
        else (s, Err ValueError)
    end.

  (** algorithm.py:806-832: data_stash = {}; set_running for all involved models; the parallel
      calculation, which returns or raises ([ok]); unset_running for all models. There is no
      try/finally around the calculation. [roots] = [self] + model arguments, the algorithm first. *)
  Definition clear_stash (s : mst) : mst := mkmst (inited s) (running s) (data s) (fun _ => None).
  (** core/algorithm.py:806-832 *)
  Definition calc_farm (fuel : nat) (algo : nat) (args : list nat) (ok : bool) (s : mst) : mst * result unit :=
    if running s algo then (s, Err ValueError)
    else
      let '(s1, o1) := foreach (set_running fuel) (algo :: args) (clear_stash s) in
      match o1 with
      | Err e => (s1, Err e)
      | Ok _ => if ok then foreach (unset_running fuel) (algo :: args) s1 else (s1, Err ValueError)
      end.
  (** The user's calls on an algorithm: initialize (model.py:127), finalize (model.py:257) and
      calc_farm / calc_points (algorithm.py:789-832, same wrapper). *)
  Inductive call := CInit (load : nat -> bool) | CFin | CCalc (args : list nat) (ok : bool).
  (** core/model.py:127, 257; core/algorithm.py:789-832 *)
  Definition do_call (fuel algo : nat) (s : mst) (c : call) : mst * result unit :=
    match c with
    | CInit load => initialize load fuel s algo
    | CFin => finalize fuel s algo
    | CCalc args ok => calc_farm fuel algo args ok s
    end.
End Life.
