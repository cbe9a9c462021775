(** Selecting classes by name: /repo/foxes/utils/subclasses.py:1-90 and core/engine.py:592-612. *)
From Coq Require Import String.
From Verif Require Import Base.
Local Open Scope nat_scope.

(** a python class: its __name__ and its bases (__bases__), by number; classes are numbered in the order in which they were defined -- as read by utils/subclasses.py:18-20 *)
Record cls := { c_name : string; c_bases : list nat }.
(** all classes defined so far *)
Definition tree := list cls.
(** name and bases of a class -- python's cls.__name__, cls.__bases__ *)
Definition name_of (tr : tree) (c : nat) : option string := option_map c_name (nth_error tr c).
(** bases of a class, as above *)
Definition bases_of (tr : tree) (c : nat) : list nat := match nth_error tr c with Some k => c_bases k | None => [] end.
(** cls.__subclasses__(): the direct subclasses -- utils/subclasses.py:18-19 *)
Definition subclasses (tr : tree) (c : nat) : list nat := filter (fun d => existsb (Nat.eqb c) (bases_of tr d)) (seq 0 (List.length tr)).
(** utils/subclasses.py:18-20, with [k] levels of recursion; the set is given as a list with repetitions *)
Fixpoint all_sub (k : nat) (tr : tree) (c : nat) : list nat :=
  match k with
  | 0 => []
  | S k' => subclasses tr c ++ flat_map (all_sub k' tr) (subclasses tr c)
  end.
(** the recursion is never deeper than the number of classes *)
Definition all_subclasses (tr : tree) (c : nat) : list nat := all_sub (List.length tr) tr c.

(** the class has this name *)
Definition named (tr : tree) (n : string) (c : nat) : bool := match name_of tr c with Some m => String.eqb m n | None => false end.
(** new_cls, utils/subclasses.py:41-58; [it]: the order in which python iterates over the set of subclasses *)
Definition new_cls (tr : tree) (it : list nat) (n : option string) : result (option nat) :=
  match n with
  | None => Ok None
  | Some s => if existsb (named tr s) it then Ok (find (named tr s) it) else Err KeyError
  end.
(** core/engine.py:592-610: short names of engines *)
Definition engine_name (n : option string) : string :=
  match n with
  | None => "DefaultEngine"
  | Some s =>
      match find (fun p => String.eqb (fst p) s)
        [("default", "DefaultEngine"); ("threads", "ThreadsEngine"); ("process", "ProcessEngine"); ("xarray", "XArrayEngine"); ("dask", "DaskEngine");
         ("multiprocess", "MultiprocessEngine"); ("local_cluster", "LocalClusterEngine"); ("slurm_cluster", "SlurmClusterEngine"); ("mpi", "MPIEngine");
         ("ray", "RayEngine"); ("numpy", "NumpyEngine"); ("single", "SingleChunkEngine")]%string with
      | Some p => snd p | None => s end
  end%string.
(** Engine.new, core/engine.py:577-612: the selected class *)
Definition new_engine (tr : tree) (it : list nat) (n : option string) : result (option nat) := new_cls tr it (Some (engine_name n)).
(** The engine classes in the order of engines/__init__.py:1-17, bases as in engines/*.py; number 0 is Engine. *)
Definition foxes_engines : tree :=
  [ {| c_name := "Engine"; c_bases := [] |}; {| c_name := "PoolEngine"; c_bases := [0] |}; {| c_name := "MultiprocessEngine"; c_bases := [1] |};
    {| c_name := "NumpyEngine"; c_bases := [0] |}; {| c_name := "SingleChunkEngine"; c_bases := [0] |}; {| c_name := "ThreadsEngine"; c_bases := [1] |};
    {| c_name := "ProcessEngine"; c_bases := [5] |}; {| c_name := "MPIEngine"; c_bases := [6] |}; {| c_name := "RayEngine"; c_bases := [1] |};
    {| c_name := "DaskBaseEngine"; c_bases := [0] |}; {| c_name := "XArrayEngine"; c_bases := [9] |}; {| c_name := "DaskEngine"; c_bases := [9] |};
    {| c_name := "LocalClusterEngine"; c_bases := [9] |}; {| c_name := "SlurmClusterEngine"; c_bases := [12] |}; {| c_name := "DefaultEngine"; c_bases := [0] |} ]%string.
