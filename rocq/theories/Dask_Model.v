(** Model of the dask engines, /repo/foxes/engines/dask.py: the blocks of XArrayEngine, the
    flattening of the data sets for xarray.apply_ufunc, the dask configuration, the conversion of
    map inputs, and the worker pools of /repo/foxes/engines/pool.py and dask.py. *)
From Coq Require Import String.
From Verif Require Import Base Chunk_Model EngineRun_Model.
From Verif Require EngineLife_Model.
Local Notation length := List.length.

(** ** Blocks *)

(** xarray's chunk({dim: c}), dask.py:161-169: blocks of size c, the last one holds the rest *)
Fixpoint blocks_aux (fuel n c : nat) : list nat :=
  match fuel with
  | O => []
  | S f => if n =? 0 then [] else if n <=? c then [n] else c :: blocks_aux f (n - c) c
  end.
(** dask.py:161-169 *)
Definition blocks (n c : nat) : list nat := blocks_aux n n c.
(** np.min of the chunk sizes, dask.py:426-427 *)
Fixpoint zmin (l : list Z) (d : Z) : Z :=
  match l with [] => d | x :: r => Z.min x (zmin r d) end.
(** dask.py:419-427, 161-169: the blocks of states and targets of XArrayEngine *)
Definition xarray_blocks (fuel : nat) (np : Z) (css csp : option Z) (ns nt : nat) : result (list nat * list nat) :=
  do p <- calc_chunk_sizes fuel np css csp (Z.of_nat ns) (Z.of_nat nt);
  let (ls, lt) := (p : list Z * list Z) in
  let cs := zmin (tl ls) (hd 0%Z ls) in
  let ct := zmin (tl lt) (hd 0%Z lt) in
  Ok (blocks ns (Nat.min ns (Z.to_nat cs)), blocks nt (Nat.min nt (Z.to_nat ct))).

(** ** The data of a block *)

(** a variable of a data set: its name, whether it has a loop dimension, and its value; the
    coordinates follow the variables, dask.py:453-479 *)
Record item (A : Type) := mkitem { i_name : string; i_loop : bool; i_val : A }.
Arguments mkitem {A}. Arguments i_name {A}. Arguments i_loop {A}. Arguments i_val {A}.
(** lvars with ldata, and evars with edata, of all data sets; dask.py:439-477 *)
Definition pack {A} (loop : bool) (sets : list (list (item A))) : list (string * A) :=
  flat_map (fun s => map (fun x => (i_name x, i_val x)) (filter (fun x => Bool.eqb (i_loop x) loop) s)) sets.
(** list.index, dask.py:216-217: the first entry of this name *)
Fixpoint first_of {A} (v : string) (l : list (string * A)) : option A :=
  match l with [] => None | (w, a) :: r => if String.eqb v w then Some a else first_of v r end.
(** dask.py:213-220: the reconstruction of a data set; f is the selection of the block *)
Definition unpack {A} (f : A -> A) (sets : list (list (item A))) (s : list (item A)) : list (string * option A) :=
  map (fun x => (i_name x, match first_of (i_name x) (pack true sets) with
                           | Some a => Some (f a)
                           | None => first_of (i_name x) (pack false sets)
                           end)) s.

(** ** The dask configuration *)

(** the settings of dask, keys and values; the settings of cluster engines are dask.py:812-813 *)
Definition cfg := list (string * nat).
(** d[k] = v *)
Fixpoint cput (k : string) (v : nat) (c : cfg) : cfg :=
  match c with
  | [] => [(k, v)]
  | (j, w) :: r => if String.eqb k j then (k, v) :: r else (j, w) :: cput k v r
  end.
(** d.get(k) *)
Fixpoint cget (k : string) (c : cfg) : option nat :=
  match c with [] => None | (j, w) :: r => if String.eqb k j then Some w else cget k r end.
(** dask.config.set / dict.update *)
Definition cupd (c u : cfg) : cfg := fold_left (fun a x => cput (fst x) (snd x) a) u c.
(** dask.py:812-813: scheduler = "distributed" (value 1), worker-ttl = None (value 0) *)
Definition cluster_settings : cfg := [("scheduler"%string, 1); ("distributed.scheduler.worker-ttl"%string, 0)].
(** python objects: dict number 0 is the default argument of dask.py:59, the others belong to users *)
Definition heap := nat -> cfg.
(** changing the dict number i in place *)
Definition hset (h : heap) (i : nat) (c : cfg) : heap := fun j => if j =? i then c else h j.
(** dask.py:56-83, 783-813: DaskBaseEngine, DaskEngine, XArrayEngine (cluster = false),
    LocalClusterEngine, SlurmClusterEngine (cluster = true), with dask_config the dict number i, or
    the default. Returns the heap and the engine: the number of its dict *)
Definition new_dask (h : heap) (cluster : bool) (arg : option nat) : heap * nat :=
  let i := match arg with Some j => j | None => 0 end in
  (if cluster then hset h i (cupd (h i) cluster_settings) else h, i).
(** a sequence of constructor calls *)
Definition new_all (h : heap) (l : list (bool * option nat)) : heap :=
  fold_left (fun a x => fst (new_dask a (fst x) (snd x))) l h.
(** dask.py:96-101, 171-184: the configuration while an engine is active: initialize adds its
    settings to those of dask, finalize reads the latter again *)
Definition active_cfg (base : cfg) (h : heap) (e : nat) : cfg := cupd base (h e).

(** ** Conversion of the inputs of map *)

(** python values; [Obj] stands for objects that numpy does not know, such as paths *)
Inductive pyval := PInt (z : Z) | PFloat (z : Z) (d : nat) | PStr (s : string) | PTup (l : list pyval) | PArr (l : list pyval) | Obj (n : nat).
(** the conversion of numbers to strings, left open *)
Definition stringify := pyval -> string.
(** the kinds that np.array distinguishes for scalars *)
Definition is_int (v : pyval) : bool := match v with PInt _ => true | _ => false end.
(** a number *)
Definition is_num (v : pyval) : bool := match v with PInt _ | PFloat _ _ => true | _ => false end.
(** a string *)
Definition is_str (v : pyval) : bool := match v with PStr _ => true | _ => false end.
(** a number or a string *)
Definition is_scal (v : pyval) : bool := is_num v || is_str v.
(** an int as float *)
Definition to_float (v : pyval) : pyval := match v with PInt z => PFloat z 0 | _ => v end.
(** np.array of a list of scalars: ints stay, ints and floats become floats, strings and numbers
    become strings; lists with other objects keep them *)
Definition np_scalars (str : stringify) (l : list pyval) : list pyval :=
  if forallb is_int l then l
  else if forallb is_num l then map to_float l
  else if forallb is_scal l then map (fun v => match v with PStr _ => v | _ => PStr (str v) end) l
  else l.
(** tuples of equal lengths become the rows of a matrix; the entries are converted together *)
Fixpoint cut (ns : list nat) (l : list pyval) : list pyval :=
  match ns with [] => [] | n :: r => PArr (firstn n l) :: cut r (skipn n l) end.
(** np.array(inputs) inside np.array_split, pool.py:124, dask.py:136. Simplifications: no nesting
    beyond tuples of scalars; numpy's scalars are not distinguished from python's; integers fit in 64 bits; ragged tuples fail *)
Definition np_array (str : stringify) (l : list pyval) : result (list pyval) :=
  if forallb (fun v => match v with PTup _ => true | _ => false end) l then
    let ts := map (fun v => match v with PTup t => t | _ => [] end) l in
    if forallb (fun t => length t =? length (hd [] ts)) ts
    then Ok (cut (map (@length pyval) ts) (np_scalars str (concat ts)))
    else Err ValueError
  else if existsb (fun v => match v with PTup _ => true | _ => false end) l then Err ValueError
  else Ok (np_scalars str l).
(** pool.py:91-131, dask.py:103-144 *)
Definition np_map {B} (str : stringify) (f : pyval -> B) (n_procs : nat) (inputs : list pyval) (sched : list (nat * list pyval) -> list (nat * list pyval))
  : result (list B) :=
  match inputs with
  | [] => Ok []
  | [x] => Ok [f x]
  | _ => do a <- np_array str inputs; pool_map f n_procs a (sched (submit_map n_procs a))
  end.

(** ** Worker pools *)

(** the engines' life cycle with the pools: number of pools made so far, those that are alive, and
    the attribute self._pool of each engine; pool.py:83-89, dask.py:818-836 *)
Record pst := mkpst { life : EngineLife_Model.st; made : nat; alive : list nat; pool_of : nat -> option nat }.
(** nothing has happened yet *)
Definition pst0 : pst := mkpst EngineLife_Model.st0 0 [] (fun _ => None).
(** pool.py:83-85, dask.py:818-826: __enter__ makes a pool (or cluster), then enters *)
Definition penter (s : pst) (i : nat) : pst * result unit :=
  let p := made s in
  let (l, o) := EngineLife_Model.enter (life s) i in
  (mkpst l (S p) (alive s ++ [p]) (fun j => if j =? i then Some p else pool_of s j), o).
(** pool.py:87-89, dask.py:828-836: __exit__ shuts the pool down, then exits; without a pool this
    is an AttributeError *)
Definition pexit (s : pst) (i : nat) : pst * result unit :=
  match pool_of s i with
  | None => (s, Err AttributeError)
  | Some p =>
      let (l, o) := EngineLife_Model.exit_ (life s) i in
      (mkpst l (made s) (filter (fun q => negb (q =? p)) (alive s)) (pool_of s), o)
  end.
(** core/engine.py:119-132: initialize enters an engine that is not entered *)
Definition pinit (s : pst) (i : nat) : pst * result unit :=
  if EngineLife_Model.entered (life s) i
  then let (l, o) := EngineLife_Model.init_entered (life s) i in (mkpst l (made s) (alive s) (pool_of s), o)
  else penter s i.
(** core/engine.py:134-151: finalize exits an engine that is entered *)
Definition pfin (s : pst) (i : nat) : pst * result unit :=
  if EngineLife_Model.entered (life s) i then pexit s i
  else let (l, o) := EngineLife_Model.fin_not_entered (life s) i in (mkpst l (made s) (alive s) (pool_of s), o).
(** the operations of a user *)
Inductive pop := PEnter (i : nat) | PExit (i : nat) | PInit (i : nat) | PFin (i : nat).
(** one operation, core/engine.py:74-151 *)
Definition pstep (s : pst) (o : pop) : pst * result unit :=
  match o with PEnter i => penter s i | PExit i => pexit s i | PInit i => pinit s i | PFin i => pfin s i end.
(** a history of operations; exceptions are caught by the user *)
Definition prun (s : pst) (l : list pop) : pst := fold_left (fun a o => fst (pstep a o)) l s.
(** all operations of a history returned without exception *)
Fixpoint all_fine (s : pst) (l : list pop) : bool :=
  match l with
  | [] => true
  | o :: r => match snd (pstep s o) with Ok _ => all_fine (fst (pstep s o)) r | Err _ => false end
  end.
