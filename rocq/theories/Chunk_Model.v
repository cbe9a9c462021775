(** Model of the chunk size computation of the engines.
    /repo/foxes/core/engine.py. Python ints are [Z]; [int(a / b)] is [Z.div] with an
    explicit ZeroDivisionError (simplification: float division is exact enough for
    operands below 2^53, see Float_Props.v, C01_float_division). *)
From Verif Require Import Base.
Local Open Scope Z_scope.

(** python [int(a / b)] for non-negative operands, engine.py:270-298. *)
Definition py_intdiv (a b : Z) : result Z :=
  if b =? 0 then Err ZeroDivisionError else Ok (a / b).

(** numpy [np.full(n, v)], engine.py:299, 309. *)
Definition np_full (n v : Z) : list Z := repeat v (Z.to_nat n).

(** numpy [a[-extra:] += 1] for extra > 0, engine.py:302, 312. A slice start before the
    array's begin is clipped, hence the truncated subtraction. *)
Definition add_one_last (extra : Z) (l : list Z) : list Z :=
  let k := (length l - Z.to_nat extra)%nat in
  firstn k l ++ map (fun x => x + 1) (skipn k l).

(** numpy [np.sum] over ints, engine.py:304, 314. *)
Definition zsum (l : list Z) : Z := fold_right Z.add 0 l.

(** engine.py:299-307 and 309-317: fill, distribute the remainder, assert the sum. *)
Definition fill_chunks (total n size : Z) : result (list Z) :=
  let l := np_full n size in
  let extra := total - n * size in
  let l' := if extra >? 0 then add_one_last extra l else l in
  if zsum l' =? total then Ok l' else Err AssertionError.

(** engine.py:290-292: [while chunk_size_states * chunk_size_targets > n_targets:].
    Fuel-recursive; returns (n_chunks_states, chunk_size_states). *)
Fixpoint shrink (fuel : nat) (n_states n_targets ct ncs cs : Z) : result (Z * Z) :=
  if cs * ct >? n_targets then
    match fuel with
    | O => Err OutOfFuel
    | S fuel' =>
        do cs' <- py_intdiv n_states (ncs + 1);
        shrink fuel' n_states n_targets ct (ncs + 1) cs'
    end
  else Ok (ncs, cs).

(** engine.py:269-277: initial states chunking, returns (n_chunks_states, chunk_size_states). *)
Definition states_chunking (n_procs : Z) (csz : option Z) (n_states : Z) : result (Z * Z) :=
  match csz with
  | None =>
      do q <- py_intdiv n_states n_procs;
      Ok (Z.min n_procs n_states, Z.max q 1)
  | Some c =>
      let cs := Z.min n_states c in
      do q <- py_intdiv n_states cs;
      let n := Z.max q 1 in
      do m <- py_intdiv n_states n;
      if m >? cs then
        do cs' <- py_intdiv n_states (n + 1);
        Ok (n + 1, cs')
      else Ok (n, cs)
  end.

(** engine.py:281-298: targets chunking for n_targets > 1. Returns the targets' (n, size)
    and the possibly modified states' (n, size). *)
Definition targets_chunking (fuel : nat) (n_procs : Z) (css csp : option Z)
  (n_states n_targets ncs cs : Z) : result ((Z * Z) * (Z * Z)) :=
  do r <-
    (match csp with
     | None =>
         if n_targets <? Z.max n_states 1000 then Ok ((1, n_targets), (ncs, cs))
         else
           let nct := Z.min n_procs n_targets in
           do q <- py_intdiv n_targets n_procs;
           let ct := Z.max q 1 in
           match css with
           | None =>
               if ncs >? 1 then
                 do s <- shrink fuel n_states n_targets ct ncs cs;
                 Ok ((nct, ct), s)
               else Ok ((nct, ct), (ncs, cs))
           | Some _ => Ok ((nct, ct), (ncs, cs))
           end
     | Some c =>
         let ct := Z.min n_targets c in
         do q <- py_intdiv n_targets ct;
         Ok ((Z.max q 1, ct), (ncs, cs))
     end);
  let '((nct, ct), s) := r in
  do m <- py_intdiv n_targets nct;
  if m >? ct then
    do ct' <- py_intdiv n_targets (nct + 1);
    Ok ((nct + 1, ct'), s)
  else Ok ((nct, ct), s).

(** engine.py:248-319, [Engine.calc_chunk_sizes]. [css], [csp] are the constructor's
    chunk_size_states, chunk_size_points. Returns (chunk_sizes_states, chunk_sizes_targets). *)
Definition calc_chunk_sizes (fuel : nat) (n_procs : Z) (css csp : option Z)
  (n_states n_targets : Z) : result (list Z * list Z) :=
  do s0 <- states_chunking n_procs css n_states;
  let '(ncs, cs) := s0 in
  if n_targets >? 1 then
    do r <- targets_chunking fuel n_procs css csp n_states n_targets ncs cs;
    let '((nct, ct), (ncs', cs')) := r in
    do lt <- fill_chunks n_targets nct ct;
    do ls <- fill_chunks n_states ncs' cs';
    Ok (ls, lt)
  else
    do ls <- fill_chunks n_states ncs cs;
    Ok (ls, [n_targets]).

(** engine.py:188-206, [Engine.loop_dims], branch by branch (the first test checks
    chunk_size_states twice). Dimensions as an enumeration. *)
Inductive dim := DState | DTarget.
(** python's `is None`, core/engine.py:189-206 *)
Definition is_none {A} (o : option A) : bool := match o with None => true | Some _ => false end.
(** core/engine.py:189-206 *)
Definition loop_dims (css csp : option Z) : list dim :=
  if (is_none css && is_none css)%bool then []
  else if is_none css then [DTarget]
  else if is_none csp then [DState]
  else [DState; DTarget].
