(** Vocabulary for the dask engines and worker pools. *)
From Coq Require Import String.
From Verif Require Import Base Dask_Model.
From Verif Require EngineLife_Model.

(** names that appear in several data sets stand for the same value and kind in all of them *)
Definition compatible {A} (sets : list (list (item A))) : Prop :=
  forall s t x y, In s sets -> In t sets -> In x s -> In y t -> i_name x = i_name y -> x = y.
(** what a block of a data set should contain: each of its variables, those with a loop dimension
    restricted to the block *)
Definition own_block {A} (f : A -> A) (s : list (item A)) : list (string * option A) :=
  map (fun x => (i_name x, Some (if i_loop x then f (i_val x) else i_val x))) s.

(** all numbers are of the same kind (or no element is a tuple and one is neither number nor string) *)
Definition uniform (l : list pyval) : Prop :=
  (forall v, In v l -> is_int v = true) \/ (forall v, In v l -> exists z d, v = PFloat z d) \/
  (forall v, In v l -> is_str v = true) \/
  ((exists n, In (Obj n) l) /\ forall v, In v l -> match v with PTup _ => False | _ => True end).

(** a pool is alive exactly for each engine that is entered, and it is the engine's own *)
Definition pools_match (s : pst) : Prop :=
  (forall p, In p (alive s) <-> exists i, EngineLife_Model.entered (life s) i = true /\ pool_of s i = Some p) /\
  (forall i, EngineLife_Model.entered (life s) i = true -> exists p, pool_of s i = Some p) /\
  (forall i j p, EngineLife_Model.entered (life s) i = true -> EngineLife_Model.entered (life s) j = true ->
     pool_of s i = Some p -> pool_of s j = Some p -> i = j).
