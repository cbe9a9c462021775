(** Model of the engine lifecycle. /repo/foxes/core/engine.py:75-150 (Engine.__enter__,
    __exit__, __del__, initialize, finalize), 614-685 (get_engine, has_engine, reset_engine) and
    /repo/foxes/engines/default.py:44-118 (DefaultEngine.map / run_calculation).
    Engines are identified by numbers; flags are functions from engine to bool.
    Simplification: worker pools (PoolEngine._create_pool/_shutdown_pool) are not part of this
    model but of Dask_Model.v, which extends it. *)
From Verif Require Import Base.

(** core/engine.py:12, 74-151: the global engine, and for each engine its flags *)
Record st := mkst {
  glob : option nat;          (* __global_engine_data__["engine"] *)
  entered : nat -> bool;      (* self.__entered *)
  inited : nat -> bool        (* self.__initialized *)
}.
(** core/engine.py:12: no engine registered *)
Definition st0 : st := mkst None (fun _ => false) (fun _ => false).
(** function update on the engines' flags, no code of its own *)
Definition upd (f : nat -> bool) (i : nat) (b : bool) : nat -> bool :=
  fun j => if j =? i then b else f j.
(** core/engine.py:74-87: self.__entered *)
Definition set_entered s i b := mkst (glob s) (upd (entered s) i b) (inited s).
(** core/engine.py:119-151: self.__initialized *)
Definition set_inited s i b := mkst (glob s) (entered s) (upd (inited s) i b).
(** core/engine.py:12, 119-151, 671-685: __global_engine_data__ *)
Definition set_glob s g := mkst g (entered s) (inited s).

(** outcome of a call: normal return or exception -- return or exception of the operations at core/engine.py:74-151, 615-685 *)
Definition outcome := result unit.

(** engine.py:125-132, the branch of initialize taken when entered. *)
Definition init_entered (s : st) (i : nat) : st * outcome :=
  if inited s i then (s, Ok tt)
  else match glob s with
       | Some _ => (s, Err ValueError)
       | None => (set_inited (set_glob s (Some i)) i true, Ok tt)
       end.
(** engine.py:75-81, __enter__: mark as entered, then initialize if needed. *)
Definition enter (s : st) (i : nat) : st * outcome :=
  if entered s i then (s, Err ValueError)
  else
    let s1 := set_entered s i true in
    if inited s1 i then (s1, Ok tt) else init_entered s1 i.
(** engine.py:119-132, initialize. *)
Definition initialize (s : st) (i : nat) : st * outcome :=
  if entered s i then init_entered s i else enter s i.
(** engine.py:148-150, the branch of finalize taken when not entered. *)
Definition fin_not_entered (s : st) (i : nat) : st * outcome :=
  if inited s i then (set_inited (set_glob s None) i false, Ok tt) else (s, Ok tt).
(** engine.py:83-88, __exit__. *)
Definition exit_ (s : st) (i : nat) : st * outcome :=
  if entered s i then
    let s1 := set_entered s i false in
    if inited s1 i then fin_not_entered s1 i else (s1, Ok tt)
  else (s, Err ValueError).
(** engine.py:134-150, finalize. *)
Definition finalize (s : st) (i : nat) : st * outcome :=
  if entered s i then exit_ s i else fin_not_entered s i.
(** engine.py:90-92, __del__. *)
Definition del (s : st) (i : nat) : st * outcome :=
  if inited s i then finalize s i else (s, Ok tt).
(** engine.py:675-685, reset_engine. *)
Definition reset (s : st) : st * outcome :=
  match glob s with None => (s, Ok tt) | Some i => finalize s i end.
(** engine.py:634-656, get_engine(default=True), creating engine [i] if there is none.
    Returns the engine as third component. *)
Definition get_engine (s : st) (i : nat) : st * outcome * option nat :=
  match glob s with
  | Some g => (s, Ok tt, Some g)
  | None => let '(s', o) := initialize s i in (s', o, match o with Ok _ => Some i | Err _ => None end)
  end.

(** default.py:103-118 (and 44-57): DefaultEngine [i] delegates to a temporary engine [j];
    [ok] tells whether the delegated calculation returns or raises. [with] leaves the block
    (calling __exit__ of [j]) in both cases; self.initialize() is only reached if it returned. *)
Definition run_default (s : st) (i j : nat) (ok : bool) : st * outcome :=
  let '(s1, o1) := finalize s i in
  match o1 with
  | Err e => (s1, Err e)
  | Ok _ =>
    let '(s2, o2) := enter s1 j in
    match o2 with
    | Err e => (s2, Err e)
    | Ok _ =>
      let '(s3, o3) := exit_ s2 j in
      match o3 with
      | Err e => (s3, Err e)
      | Ok _ => if ok then initialize s3 i else (s3, Err ValueError)
      end
    end
  end.

(** core/engine.py:74-151, 615-685: the public operations *)
Inductive op :=
| OEnter (i : nat) | OExit (i : nat) | OInit (i : nat) | OFin (i : nat) | ODel (i : nat)
| OReset | OGet (i : nat) | ORunDefault (i j : nat) (ok : bool).
(** core/engine.py:74-151, 615-685: effect of one operation *)
Definition step (s : st) (o : op) : st * outcome :=
  match o with
  | OEnter i => enter s i
  | OExit i => exit_ s i
  | OInit i => initialize s i
  | OFin i => finalize s i
  | ODel i => del s i
  | OReset => reset s
  | OGet i => fst (get_engine s i)
  | ORunDefault i j ok => run_default s i j ok
  end.
(** a history of operations of core/engine.py:74-151, 615-685 *)
Definition run (ops : list op) : st := fold_left (fun s o => fst (step s o)) ops st0.
