(** Model of the algorithm's chunk store.
    /repo/foxes/core/algorithm.py:436-646, /repo/foxes/core/engine.py:468-497 (merging),
    /repo/foxes/engines/pool.py:10-16 (_run), /repo/foxes/engines/futures.py:6-55 (threads).
    Names are numbers; stored arrays are abstract values. A python dict is an association list in
    insertion order. Simplification: [data.copy()] is a value copy. *)
From Verif Require Import Base.
Local Open Scope Z_scope.

Section Store.
  Context {V : Type}.

  (** algorithm.py:553-562: one entry, with its geometry and named data. *)
  Record centry := mkentry { c_i0 : Z; c_ns : Z; c_t0 : Z; c_nt : Z; c_data : list (nat * V) }.
  (** core/algorithm.py:67, 523-565: the store, a Dict of entries by key (i0, t0) *)
  Definition store := list centry.
  (** The offsets and sizes of a chunk, from mdata and tdata (algorithm.py:468-471, 545-551). *)
  Record geom := mkgeom { g_i0 : Z; g_ns : Z; g_t0 : Z; g_nt : Z }.

  (** core/algorithm.py:604-623: reading a named array of an entry (python dict access) *)
  Fixpoint dget (n : nat) (d : list (nat * V)) : option V :=
    match d with [] => None | (m, v) :: d' => if (n =? m)%nat then Some v else dget n d' end.
  (** core/algorithm.py:565: assignment of a named array in an entry (python dict assignment) *)
  Fixpoint dset (n : nat) (v : V) (d : list (nat * V)) : list (nat * V) :=
    match d with
    | [] => [(n, v)]
    | (m, w) :: d' => if (n =? m)%nat then (m, v) :: d' else (m, w) :: dset n v d'
    end.
  (** core/algorithm.py:552-562: comparison of the key (i0, t0) *)
  Definition is_key (i0 t0 : Z) (e : centry) : bool := (c_i0 e =? i0) && (c_t0 e =? t0).
  (** core/algorithm.py:552-562, 604-623: lookup of the key *)
  Definition sget (i0 t0 : Z) (s : store) : option centry := find (is_key i0 t0) s.

  (** algorithm.py:521-564, add_to_chunk_store: create the entry if the key (i0, t0) is new, then
      set the named value. *)
  Fixpoint supd (i0 t0 : Z) (f : centry -> centry) (s : store) : store :=
    match s with
    | [] => []
    | e :: s' => if is_key i0 t0 e then f e :: s' else e :: supd i0 t0 f s'
    end.
  (** core/algorithm.py:523-565: new entry if needed, then the assignment *)
  Definition add (n : nat) (v : V) (g : geom) (s : store) : store :=
    let s1 := match sget (g_i0 g) (g_t0 g) s with
              | Some _ => s
              | None => s ++ [mkentry (g_i0 g) (g_ns g) (g_t0 g) (g_nt g) []]
              end in
    supd (g_i0 g) (g_t0 g) (fun e => mkentry (c_i0 e) (c_ns e) (c_t0 e) (c_nt e) (dset n v (c_data e))) s1.

  (** algorithm.py:489-503: the while loop over prev_t; [None] when not found. *)
  Fixpoint walk_t (s : store) (i0 t0 nt : Z) (pt : nat) : option (Z * Z) :=
    match pt with
    | O => Some (t0, nt)
    | S pt' =>
        match find (fun e => (c_i0 e =? i0) && (c_t0 e + c_nt e =? t0)) s with
        | None => None
        | Some e => walk_t s i0 (t0 - c_nt e) (c_nt e) pt'
        end
    end.
  (** algorithm.py:505-517: the while loop over prev_s. *)
  Fixpoint walk_s (s : store) (i0 t0 ns : Z) (ps : nat) : option (Z * Z) :=
    match ps with
    | O => Some (i0, ns)
    | S ps' =>
        match find (fun e => (c_i0 e + c_ns e =? i0) && (c_t0 e =? t0)) s with
        | None => None
        | Some e => walk_s s (i0 - c_ns e) t0 (c_ns e) ps'
        end
    end.
  (** algorithm.py:436-519, find_chunk_in_store. [Ok None] is the python [None] returned for
      [error=False]. With an empty store, [inds] is an array of shape (0,), and [inds[:, 0]]
      raises IndexError whatever [error] says. *)
  Definition find_chunk (s : store) (g : geom) (ps pt : nat) (error : bool) : result (option geom) :=
    if ((0 <? ps)%nat || (0 <? pt)%nat) && (length s =? 0)%nat then Err IndexError
    else match walk_t s (g_i0 g) (g_t0 g) (g_nt g) pt with
         | None => if error then Err KeyError else Ok None
         | Some (t0, nt) =>
             match walk_s s (g_i0 g) t0 (g_ns g) ps with
             | None => if error then Err KeyError else Ok None
             | Some (i0, ns) => Ok (Some (mkgeom i0 ns t0 nt))
             end
         end.
  (** algorithm.py:566-621, get_from_chunk_store (the data part of the return value). *)
  Definition get (s : store) (n : nat) (g : geom) (ps pt : nat) (error : bool) : result (option V) :=
    do r <- find_chunk s g ps pt error;
    match r with
    | None => Ok None
    | Some g' =>
        match sget (g_i0 g') (g_t0 g') s with
        | Some e => match dget n (c_data e) with
                    | Some v => Ok (Some v)
                    | None => if error then Err KeyError else Ok None
                    end
        | None => if error then Err KeyError else Ok None
        end
    end.
  (** algorithm.py:623-646, reset_chunk_store: returns the new and the old store. *)
  Definition reset (new : option store) (s : store) : store * store :=
    (match new with None => [] | Some n => n end, s).

  (** A history of user-visible operations. -- core/algorithm.py:523-565 (add_to_chunk_store) and 625-648 (reset_chunk_store) *)
  Inductive op := Add (n : nat) (v : V) (g : geom) | Reset.
  (** core/algorithm.py:523-565, 625-648: effect of one operation *)
  Definition step (s : store) (o : op) : store :=
    match o with Add n v g => add n v g s | Reset => fst (reset None s) end.
  (** core/algorithm.py:523-648: effect of a history of operations *)
  Definition run (ops : list op) : store := fold_left step ops [].

  (** engine.py:476-483 and 489-495: merging one chunk's returned store into the algorithm's. *)
  Definition dupdate (d d' : list (nat * V)) : list (nat * V) :=
    fold_left (fun a nv => dset (fst nv) (snd nv) a) d' d.
  (** core/engine.py:421-538: the store of one returned chunk merged into the algorithm's store *)
  Definition merge1 (s : store) (e : centry) : store :=
    match sget (c_i0 e) (c_t0 e) s with
    | None => s ++ [e]
    | Some _ => supd (c_i0 e) (c_t0 e)
        (fun o => mkentry (c_i0 e) (c_ns e) (c_t0 e) (c_nt e) (dupdate (c_data o) (c_data e))) s
    end.
  (** pool.py:10-16 with iterative=True: the worker's own copy of the store, its calculation
      storing [adds] for its own chunk [g], and the returned single entry. *)
  Definition worker (s0 : store) (g : geom) (adds : list (nat * V)) : list centry :=
    let s := fold_left (fun s nv => add (fst nv) (snd nv) g s) adds s0 in
    match sget (g_i0 g) (g_t0 g) s with Some e => [e] | None => [] end.
  (** core/engine.py:421-538: all chunks in their order *)
  Definition merge_all (s0 : store) (chunks : list (geom * list (nat * V))) : store :=
    fold_left merge1 (flat_map (fun c => worker s0 (fst c) (snd c)) chunks) [].
End Store.

(** ** Thread pool: all workers share one algorithm object and one Dict passed as chunk_store *)
Section Threads.
  (** Shared state: the algorithm's store pointer ([true]: the Dict passed by the caller,
      [false]: a fresh Dict made by reset) and, for the caller's Dict, the set of keys having data.
      Fresh Dicts made by other threads hold what was added since (modelled per reset counter). -- core/algorithm.py:625-648 as called from engines/pool.py:10-16 with one shared algorithm object (thread pool) *)
  Record shared := mkshared { cur : nat; heap : nat -> nat -> bool; next : nat }.
  (** Program counter of a worker; [Bad] = KeyError raised. -- engines/pool.py:10-16: one program point for each statement *)
  Inductive pc := P0 | P1 | P2 | P3 | Done | Bad.
  (** heap update, used for core/algorithm.py:565 *)
  Definition hset (h : nat -> nat -> bool) (r k : nat) : nat -> nat -> bool :=
    fun r' k' => if (r' =? r)%nat && (k' =? k)%nat then true else h r' k'.
  (** One atomic step (python global interpreter lock) of the worker of chunk [k]:
      P0: algo.reset_chunk_store(chunk_store), pool.py:12 (reference 0 is the caller's Dict);
      P1: the rotor model adds its data for this chunk, rotor_model.py:390-395;
      P2: the farm wakes calculation reads the data of this chunk, farm_wakes_calc.py:62-64;
      P3: with iterative, algo.reset_chunk_store(), pool.py:14. *)
  Definition tstep (iterative : bool) (k : nat) (s : shared) (p : pc) : shared * pc :=
    match p with
    | P0 => (mkshared 0 (heap s) (next s), P1)
    | P1 => (mkshared (cur s) (hset (heap s) (cur s) k) (next s), P2)
    | P2 => (s, if heap s (cur s) k then P3 else Bad)
    | P3 => if iterative then (mkshared (next s) (heap s) (S (next s)), Done) else (s, Done)
    | Done => (s, Done)
    | Bad => (s, Bad)
    end.
  (** function update on the threads' program points, no code of its own *)
  Definition tupd (f : nat -> pc) (i : nat) (p : pc) : nat -> pc := fun j => if (j =? i)%nat then p else f j.
  (** A schedule names which worker moves next. -- engines/pool.py:10-16: interleaved execution of the jobs in a thread pool *)
  Fixpoint texec (iterative : bool) (sched : list nat) (s : shared) (ps : nat -> pc) : shared * (nat -> pc) :=
    match sched with
    | [] => (s, ps)
    | k :: sched' => let '(s', p) := tstep iterative k s (ps k) in texec iterative sched' s' (tupd ps k p)
    end.
  (** engines/pool.py:224-262: state when the jobs are submitted *)
  Definition tinit : shared := mkshared 0 (fun _ _ => false) 1.
End Threads.
