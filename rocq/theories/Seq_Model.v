(** The Sequential algorithm (foxes/algorithms/sequential/sequential.py, models/seq_state.py) and its wake frame SeqDynamicWakes
    (foxes/models/wake_frames/seq_dynamic_wakes.py). *)
From Verif Require Import RBase WindDir_Model Stream_Model.
Local Open Scope R_scope.
Local Open Scope nat_scope.

(** --- the iterator --- *)
Section Iter.
(** [V]: the results of one state (farm results, and point results if points are given); [M]: whatever the models remember *)
Context {M V : Type}.
(** states0.index(), sequential.py:141: the state labels *)
Variable labels : list Z.
(** super().calc_farm and super().calc_points for the state with the given counter, sequential.py:200-205, 222; None: an exception *)
Variable calc : M -> nat -> option V * M.
(** zeros, sequential.py:161-172 *)
Variable zero : V.

(** _i, _farm_results (with _point_results), models' memory *)
Record machine := { pos : option nat; res : list V; mem : M }.
(** iter(algo), next(algo) *)
Inductive call := Iter | Next.
(** outcome of a call: self, the results of a state (with its counter), StopIteration, the TypeError of None < int, the InvalidIndexError of a non-unique
    index, and an exception of the state's calculation *)
Inductive out := Self | Yield (i : nat) (v : V) | Stop | TypeErr | IndexErr | Failed.

(** sequential.py:133-185 *)
Definition iter_call (m : machine) : machine * out :=
  match pos m with
  | None => ({| pos := Some 0; res := map (fun _ => zero) labels; mem := mem m |}, Self)
  | Some _ => (m, Self)
  end.
(** position of a label, for the .loc of sequential.py:209-212, 246 *)
Fixpoint label_index (l : list Z) (x : Z) : nat := match l with [] => 0 | y :: l' => if Z.eqb x y then 0 else S (label_index l' x) end.
(** pandas.Index.is_unique *)
Fixpoint is_unique (l : list Z) : bool := match l with [] => true | x :: l' => negb (existsb (Z.eqb x) l') && is_unique l' end.
(** replacement of one entry *)
Fixpoint set_nth (l : list V) (i : nat) (v : V) : list V :=
  match l, i with [], _ => [] | _ :: l', O => v :: l' | x :: l', S i' => x :: set_nth l' i' v end.
(** sequential.py:187-265 *)
Definition next_call (m : machine) : machine * out :=
  match pos m with
  | None => (m, TypeErr)
  | Some i =>
      if i <? length labels then
        let '(r, mem') := calc (mem m) i in
        match r with
        | None => ({| pos := Some i; res := res m; mem := mem' |}, Failed)
        | Some v =>
            if is_unique labels then
              ({| pos := Some (S i); res := set_nth (res m) (label_index labels (nth i labels 0%Z)) v; mem := mem' |}, Yield i v)
            else ({| pos := Some i; res := res m; mem := mem' |}, IndexErr)
        end
      else ({| pos := None; res := res m; mem := mem m |}, Stop)
  end.
(** a history of calls; python's for loop is Iter, then Next up to Stop *)
Fixpoint run (cs : list call) (m : machine) : machine * list out :=
  match cs with
  | [] => (m, [])
  | c :: cs' => let '(m1, o) := match c with Iter => iter_call m | Next => next_call m end in
                let '(m2, os) := run cs' m1 in (m2, o :: os)
  end.
(** what the loop's body sees *)
Definition yields (os : list out) : list (nat * V) := flat_map (fun o => match o with Yield i v => [(i, v)] | _ => [] end) os.
End Iter.
Arguments machine : clear implicits.
Arguments out : clear implicits.

(** --- one state at a time against all states --- *)
Section Index.
Context {D V : Type}.
(** the calculation of one state: its index as seen by the models, mdata.states_i0(counter=True) plus its position in the chunk (core/data.py:96-117),
    and its model data *)
Variable f : nat -> D -> V.
(** a chunk of states that starts at i0, core/engine.py:358-391 *)
Fixpoint calc_chunk (i0 : nat) (ds : list D) : list V := match ds with [] => [] | d :: ds' => f i0 d :: calc_chunk (S i0) ds' end.
(** other algorithms: chunks of the given sizes, engines/pool.py:225-261 *)
Fixpoint calc_chunks (sizes : list nat) (i0 : nat) (ds : list D) : list V :=
  match sizes with [] => [] | n :: sizes' => calc_chunk i0 (firstn n ds) ++ calc_chunks sizes' (i0 + n) (skipn n ds) end.
(** Sequential: the data set of the one state (sequential.py:126-131), with a chunk that starts at 0 (engines/pool.py:225, engines/single.py:148) *)
Definition calc_sequential (ds : list D) : list V := flat_map (fun d => calc_chunk 0 [d]) ds.
End Index.
(** algorithms/downwind/models/init_farm_data.py:87-95: the turbine's position is fixed, or one for each state *)
Definition turbine_xy (xy : (R * R) + list (R * R)) (i : nat) : R * R := match xy with inl p => p | Coq.Init.Datatypes.inr l => nth i l (0, 0)%R end.

(** --- SeqDynamicWakes --- *)
Section SeqDyn.
(** _dt in seconds, seq_dynamic_wakes.py:83-92 *)
Variable dts : list R.
(** algo.states.calculate: direction and speed in a state at a point, 193 *)
Variable wind : nat -> vec3 -> R * R.
(** fdata[TXYH][0, downwind_index] in each state, 173, 206 *)
Variable rotor : nat -> vec3.

(** traces of one downwind_index: _traces_p, _traces_v (vertical component 0), _traces_l (None: NaN), 95-103 *)
Record traces := { tp : nat -> vec3; tv : nat -> R * R; tl : nat -> option R }.
(** 95-103, at initialization only *)
Definition no_traces : traces := {| tp := fun _ => (0, 0, 0)%R; tv := fun _ => (0, 0)%R; tl := fun _ => None |}.
(** _dt[i] *)
Definition dt_at (i : nat) : R := nth i dts 0%R.
(** 180: displacement *)
Definition dxyz (m : traces) (c s : nat) : R * R := ((fst (tv m s) * dt_at (c - 1))%R, (snd (tv m s) * dt_at (c - 1))%R).
(** 170-197, for counter c *)
Definition update (c : nat) (m : traces) : traces :=
  match tl m c with
  | Some _ => m
  | None =>
      let p := fun s => if s =? c then rotor c
                        else if s <? c then ((vx (tp m s) + fst (dxyz m c s))%R, (vy (tp m s) + snd (dxyz m c s))%R, vz (tp m s)) else tp m s in
      let l := fun s => if s =? c then Some 0%R
                        else if s <? c then match tl m s with Some x => Some (x + sqrt (fst (dxyz m c s) * fst (dxyz m c s) + snd (dxyz m c s) * snd (dxyz m c s)))%R | None => None end
                        else tl m s in
      {| tp := p; tl := l; tv := fun s => if s <=? c then wd2uv (fst (wind c (p s))) (snd (wind c (p s))) else tv m s |}
  end.
(** cdist, 200 *)
Definition dist3 (p q : vec3) : R := sqrt ((vx p - vx q) * (vx p - vx q) + (vy p - vy q) * (vy p - vy q) + (vz p - vz q) * (vz p - vz q)).
(** 201: the trace (named by the state in which it started) *)
Definition near (c : nat) (m : traces) (q : vec3) : nat := argmin (fun s => Some (dist3 q (tp m s))) c.
(** 212 *)
Definition dt_cur (c : nat) : R := if c <? length dts then dt_at c else dt_at (length dts - 1).
(** 199-232, the traces being up to date: x and y of a point (x may be NaN), [None] if they stay at 1e20. For zero wind speed 0/0 = NaN is not selected *)
Definition trace_coos (c : nat) (m : traces) (q : vec3) : option (option R * R) :=
  let s := near c m q in
  let v := tv m s in
  let mv := sqrt (fst v * fst v + snd v * snd v) in
  if Reqb mv 0 then None
  else
    let nx := (fst v / mv, snd v / mv)%R in
    let delp := (vx q - vx (tp m s), vy q - vy (tp m s))%R in
    let projx := (fst delp * fst nx + snd delp * snd nx)%R in
    let dx := (mv * dt_cur c)%R in
    if Rltb (- dx) projx && Rltb projx dx then
      Some (match tl m s with Some l => Some (projx + l)%R | None => None end, (fst delp * - snd nx + snd delp * fst nx)%R)
    else None.
(** get_wake_coos, 129-232: memory and coordinates; the point's third coordinate is the height difference, 206 *)
Definition get_coos (c : nat) (m : traces) (q : vec3) : traces * option (option R * R) := (update c m, trace_coos c (update c m) q).
(** the traces after states 0, ..., c (each with at least one call of get_wake_coos for this downwind_index), starting from m *)
Fixpoint updates (c : nat) (m : traces) : traces := match c with O => update O m | S c' => update c (updates c' m) end.
(** the traces, if only some of the states 0, ..., c had a call (algorithms/iterative/models/farm_wakes_calc.py:119-135 has calls for farms of two or
    more turbines; wakes at points have calls in states for which points are calculated) *)
Fixpoint updates_if (called : nat -> bool) (c : nat) (m : traces) : traces :=
  let m' := match c with O => m | S c' => updates_if called c' m end in
  if called c then update c m' else m'.
End SeqDyn.
(** turbine [order s j] is at downwind position j in state s: fdata[TXYH][0, j], init_farm_data.py:115-126 *)
Definition ordered_rotor (pos : nat -> vec3) (order : nat -> nat -> nat) (j s : nat) : vec3 := pos (order s j).
(** engines/pool.py:10-16, 244-253: the calculation works on a copy of the algorithm, whose memory is lost *)
Definition get_coos_worker (dts : list R) (wind : nat -> vec3 -> R * R) (rotor : nat -> vec3) (c : nat) (m : traces) (q : vec3) : traces * option (option R * R) :=
  (m, snd (get_coos dts wind rotor c m q)).
