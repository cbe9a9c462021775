(** Model of chunked evaluation: job submission loops, job execution in an arbitrary
    completion order, collection and combination of chunk results.
    /repo/foxes/engines/pool.py:190-297, /repo/foxes/engines/numpy.py:106-197,
    /repo/foxes/core/engine.py:321-560.
    Simplifications: one output variable (the code treats each output variable in the same
    loop, engine.py:468-505); arrays are lists of rows; the per-chunk model call
    [model.calculate] is an arbitrary function of the sliced inputs; jobs do not share
    mutable state (process pools; threads are treated in Threads_Model.v). *)
From Verif Require Import Base.
From Coq Require Import Permutation.

(** numpy/xarray slice [a[i0:i1]], engine.py:359-360. *)
Definition slice {A} (i0 i1 : nat) (l : list A) : list A := firstn (i1 - i0) (skipn i0 l).

(** engines/pool.py:224-262: key (chunki_states, chunki_points) of a job *)
Definition key := (nat * nat)%type.
(** equality of the keys of engines/pool.py:224-262 *)
Definition key_eqb (a b : key) : bool := (fst a =? fst b) && (snd a =? snd b).

(** One submitted chunk: its key and state/target ranges, pool.py:233-253. *)
Record job := mkjob { jkey : key; ji0 : nat; ji1 : nat; jt0 : nat; jt1 : nat }.

(** pool.py:229-256, the inner loop over target chunks. *)
Fixpoint target_jobs (ci cj i0 i1 t0 : nat) (lt : list nat) : list job :=
  match lt with
  | [] => []
  | c :: lt' => mkjob (ci, cj) i0 i1 t0 (t0 + c) :: target_jobs ci (S cj) i0 i1 (t0 + c) lt'
  end.
(** pool.py:225-261, the outer loop over states chunks. *)
Fixpoint state_jobs (ci i0 : nat) (ls lt : list nat) : list job :=
  match ls with
  | [] => []
  | c :: ls' => target_jobs ci 0 i0 (i0 + c) 0 lt ++ state_jobs (S ci) (i0 + c) ls' lt
  end.
(** engines/pool.py:224-262 *)
Definition submit (ls lt : list nat) : list job := state_jobs 0 0 ls lt.

(** dictionary lookup by key; a missing key is a python KeyError. -- core/engine.py:421-538: reading a result by key *)
Fixpoint lookup {V} (k : key) (m : list (key * V)) : result V :=
  match m with
  | [] => Err KeyError
  | (k', v) :: m' => if key_eqb k k' then Ok v else lookup k m'
  end.

(** [results[(ci, cj)] for cj in range(n)], engine.py:486-495. *)
Fixpoint row_results {V} (res : list (key * V)) (ci cj n : nat) : result (list V) :=
  match n with
  | O => Ok []
  | S n' => do v <- lookup (ci, cj) res; do vs <- row_results res ci (S cj) n'; Ok (v :: vs)
  end.

(** [np.concatenate([a, b], axis=1)] of two matrices: row counts must agree. *)
Fixpoint happ {A} (a b : list (list A)) : result (list (list A)) :=
  match a, b with
  | [], [] => Ok []
  | r :: a', s :: b' => do t <- happ a' b'; Ok ((r ++ s) :: t)
  | _, _ => Err ValueError
  end.
(** [np.concatenate(tres, axis=1)]; the empty list is rejected by numpy. *)
Fixpoint hconcat {A} (ms : list (list (list A))) : result (list (list A)) :=
  match ms with
  | [] => Err ValueError
  | [m] => Ok m
  | m :: ms' => do t <- hconcat ms'; happ m t
  end.

(** engine.py:472-499: per state chunk collect (and, for several target chunks, concatenate
    along axis 1), then [np.concatenate(..., axis=0)]. *)
Fixpoint combine_rows {A} (res : list (key * list (list A))) (ci n nct : nat) : result (list (list A)) :=
  match n with
  | O => Ok []
  | S n' =>
      do m <- (if nct =? 1 then lookup (ci, 0) res
               else do ms <- row_results res ci 0 nct; hconcat ms);
      do t <- combine_rows res (S ci) n' nct;
      Ok (m ++ t)
  end.

Section Run.
  Context {X Y Z : Type}.
  (** the chunk calculation: sliced state data and sliced (state, target) data to results *)
  Variable calc : list X -> list (list Y) -> list (list Z).

  (** engine.py:356-427 (slicing) and pool.py:10-16 (model call). *)
  Definition run_job (xs : list X) (ps : list (list Y)) (j : job) : list (list Z) :=
    calc (slice (ji0 j) (ji1 j) xs) (map (slice (jt0 j) (jt1 j)) (slice (ji0 j) (ji1 j) ps)).

  (** Completion of the jobs in the order [sched]. -- engines/pool.py:278-281 *)
  Definition execute (xs : list X) (ps : list (list Y)) (sched : list job) : list (key * list (list Z)) :=
    map (fun j => (jkey j, run_job xs ps j)) sched.

  (** pool.py:217-297. [sched] is the order in which the workers complete the jobs. *)
  Definition run_pool (xs : list X) (ps : list (list Y)) (ls lt : list nat) (sched : list job)
    : result (list (list Z)) :=
    combine_rows (execute xs ps sched) 0 (length ls) (length lt).

  (** numpy.py:141-197: the same loops executed in submission order. *)
  Definition run_numpy (xs : list X) (ps : list (list Y)) (ls lt : list nat) : result (list (list Z)) :=
    run_pool xs ps ls lt (submit ls lt).

  (** single.py:141-171: one chunk covering everything. *)
  Definition run_single (xs : list X) (ps : list (list Y)) : result (list (list Z)) :=
    combine_rows [((0, 0), calc (slice 0 (length xs) xs)
        (map (slice 0 (length (hd [] ps))) (slice 0 (length xs) ps)))] 0 1 1.
End Run.

Section FarmRun.
  Context {X Z : Type}.
  (** farm calculation: no target data; each chunk maps sliced state data to rows over turbines. *)
  Variable calc : list X -> list Z.
  (** engines/pool.py:10-16 for one states chunk *)
  Definition run_farm_job (xs : list X) (j : job) : list Z := calc (slice (ji0 j) (ji1 j) xs).
  (** core/engine.py:421-538: concatenation over states chunks *)
  Fixpoint combine_farm (res : list (key * list Z)) (ci n : nat) : result (list Z) :=
    match n with
    | O => Ok []
    | S n' => do m <- lookup (ci, 0) res; do t <- combine_farm res (S ci) n'; Ok (m ++ t)
    end.
  (** pool.py:190-297 with point_data = None: n_targets = 0, one target chunk of size 0. *)
  Definition run_pool_farm (xs : list X) (ls : list nat) (sched : list job) : result (list Z) :=
    combine_farm (map (fun j => (jkey j, run_farm_job xs j)) sched) 0 (length ls).
End FarmRun.

(** ** Engine.map of the pool engines *)

(** [np.array_split(l, n)]: the first [len mod n] parts have one element more. pool.py:124.
    (Simplification: conversion of the list to a numpy array does not change the elements.) *)
Fixpoint array_split_aux {A} (l : list A) (q r n : nat) : list (list A) :=
  match n with
  | O => []
  | S n' =>
      let c := if r =? 0 then q else S q in
      firstn c l :: array_split_aux (skipn c l) q (pred r) n'
  end.
(** np.array_split at engines/pool.py:124 *)
Definition array_split {A} (l : list A) (n : nat) : list (list A) :=
  array_split_aux l (length l / n) (length l mod n) n.

(** Jobs with index, completed in the order [sched] (pairs of submission index and sub-list). -- engines/pool.py:129-131 *)
Fixpoint nlookup {V} (k : nat) (m : list (nat * V)) : result V :=
  match m with
  | [] => Err KeyError
  | (k', v) :: m' => if k =? k' then Ok v else nlookup k m'
  end.
(** pool.py:128-131: [for j in jobs: results += self._result(j)]. *)
Fixpoint collect {B} (done : list (nat * list B)) (i n : nat) : result (list B) :=
  match n with
  | O => Ok []
  | S n' => do v <- nlookup i done; do t <- collect done (S i) n'; Ok (v ++ t)
  end.
(** engines/pool.py:91-131 *)
Definition submit_map {A} (n_procs : nat) (inputs : list A) : list (nat * list A) :=
  let parts := array_split inputs (Nat.min n_procs (length inputs)) in
  combine (seq 0 (length parts)) parts.
(** pool.py:91-131, PoolEngine.map. *)
Definition pool_map {A B} (f : A -> B) (n_procs : nat) (inputs : list A) (sched : list (nat * list A))
  : result (list B) :=
  match inputs with
  | [] => Ok []
  | [x] => Ok [f x]
  | _ => collect (map (fun j => (fst j, map f (snd j))) sched) 0
           (length (array_split inputs (Nat.min n_procs (length inputs))))
  end.
