(** Dynamic wakes (foxes/models/wake_frames/dynamic_wakes.py): the wake points that each state's rotor sends out, tracked
    over chunks of states and iterations, and the wake coordinates derived from them. One wake causing turbine.
    Simplifications: the arrays of shape (states, max_age, 4) are functions, NaN rows are None (the ambient wind and the rotor
    positions are assumed to be free of NaN, so the four numbers of a point are all known or all unknown); chunks are numbered,
    their offsets are sums of chunk sizes (see Chunk_Model and C01), and walking back through the chunk store is stepping to
    the preceding chunk number (see C10). *)
From Verif Require Import RBase WindDir_Model.
Local Open Scope R_scope.
Local Open Scope nat_scope.

(** rows: state (relative to the chunk), age; entry: position and wake length, 166-173 *)
Definition table := nat -> nat -> option (vec3 * R).
(** 249: None is NaN *)
Definition known (t : table) (s a : nat) : bool := match t s a with Some _ => true | None => false end.
(** assignment of one row, 297-300 *)
Definition put (t : table) (s a : nat) (x : option (vec3 * R)) : table :=
  fun s' a' => if (s' =? s) && (a' =? a) then x else t s' a'.
(** 225-227: np.where(isnan(data) & ~isnan(u), u, data) *)
Definition merge (d u : table) : table := fun s a => match d s a with Some x => Some x | None => u s a end.

Section Dyn.
(** max_age, and max_length_km * 1e3 (31-67) *)
Variable M : nat.
Variable L : R.
(** the time steps _dt in seconds by state index (90-111) *)
Variable dt : nat -> R.
(** wind direction and speed of algo.states.calculate for a state and a point (197, 288); depends on the state index and not on
    the chunk *)
Variable wind : nat -> vec3 -> R * R.
(** rotor positions fdata[TXYH][:, downwind_index] by state index (155) *)
Variable rotor : nat -> vec3.
(** sizes of the chunks of states *)
Variable ns : list nat.

(** 200-201 and 291-292 *)
Definition dxy (st : nat) (p : vec3) : R * R :=
  let uv := wd2uv (fst (wind st p)) (snd (wind st p)) in ((fst uv * dt st)%R, (snd uv * dt st)%R).
(** 202 and 293 *)
Definition move (st : nat) (p : vec3) : vec3 := ((vx p + fst (dxy st p))%R, (vy p + snd (dxy st p))%R, vz p).
(** np.linalg.norm(dxy, axis=-1), 205 and 300 *)
Definition dlen (st : nat) (p : vec3) : R := sqrt (fst (dxy st p) * fst (dxy st p) + snd (dxy st p) * snd (dxy st p)).

(** states_i0 and n_states of chunk c, 154-157 *)
Definition off (c : nat) : nat := fold_right Nat.add 0 (firstn c ns).
(** n_states of chunk c, 154 *)
Definition size (c : nat) : nat := nth c ns 0.

(** 169-173 *)
Definition fresh (c : nat) : table := fun s a => if (s <? size c) && (a =? 0) then Some (rotor (off c + s), 0%R) else None.
(** 204-205: rows [:n - age] of column age + 1; [pts] are the new points, [ls] the step lengths *)
Definition set_col (n age : nat) (pts : nat -> vec3) (ls : nat -> R) (d : table) : table :=
  fun s a => if (a =? S age) && (s + age <? n) then
               match d s age with Some (_, l) => Some (pts s, (l + ls s)%R) | None => None end
             else d s a.
(** 208-209: np.min over the known lengths of a column is at least the maximal length *)
Definition all_long (n a : nat) (d : table) : bool :=
  forallb (fun s => match d s a with Some (_, l) => Rleb L l | None => true end) (seq 0 n).
(** 179-212: [k] iterations are left, row s of the points is advected by state off c + age + s *)
Fixpoint fill (k age c : nat) (pts : nat -> vec3) (d : table) : table :=
  match k with
  | O => d
  | S k' =>
      if age =? size c then d else
      let pts' := fun s => move (off c + age + s) (pts s) in
      let d' := set_col (size c) age pts' (fun s => dlen (off c + age + s) (pts s)) d in
      if (age <? M - 2) && all_long (size c) (S age) d' then d' else fill k' (S age) c pts' d'
  end.
(** 168-213: wakes that start within chunk c *)
Definition start_data (c : nat) : table := fill (M - 1) 0 c (fun s => rotor (off c + s)) (fresh c).

(** chunk store entry of one chunk: the wake data (216) and the updates for earlier chunks (319-321) *)
Record entry := { edata : option table; eupd : nat -> option table }.
(** the chunk store, 167 and 220: entries by chunk number *)
Definition store := nat -> entry.
(** 167: nothing stored yet *)
Definition empty : store := fun _ => {| edata := None; eupd := fun _ => None |}.

(** np.any(sel), 226 and 316: u knows an entry that d does not know *)
Definition news (n : nat) (d u : table) : bool :=
  existsb (fun s => existsb (fun a => negb (known d s a) && known u s a) (seq 0 M)) (seq 0 n).

(** 219-231: updates of later chunks j, in the order [ord] of the chunk store *)
Definition apply_updates (ord : list nat) (c : nat) (s : store) (d : table * bool) : table * bool :=
  fold_left (fun db j =>
    if c <? j then match eupd (s j) c with
                   | Some u => (merge (fst db) u, snd db || news (size c) (fst db) u)
                   | None => db end
    else db) ord d.
(** 166-231: own wake data of chunk c, and whether convergence is blocked *)
Definition own (ord : list nat) (c : nat) (s : store) : table * bool :=
  apply_updates ord c s match edata (s c) with Some d => (d, false) | None => (start_data c, true) end.

(** 250-266: rows of chunk h whose points enter the first state of chunk c, with the next point unknown *)
Definition start_rows (c h : nat) (hd : table) : list (nat * nat * vec3) :=
  flat_map (fun s =>
    let a := off c - (off h + s) in
    if a <? M - 1 then
      match hd s a, hd s (S a) with
      | Some (p, l), None => if Rleb l L then [(s, a, p)] else []
      | _, _ => [] end
    else []) (seq 0 (size h)).
(** 291-300: one state's advection of all rows *)
Definition advance (st : nat) (rows : list (nat * nat * vec3)) (hd : table) : table :=
  fold_left (fun d r => let '(s, a, p) := r in
    put d s (S a) match d s a with Some (_, l) => Some (move st p, (l + dlen st p)%R) | None => None end) rows hd.
(** 303-307: remaining rows; [i1] is the end of the current chunk *)
Definition next_rows (st i1 h : nat) (rows : list (nat * nat * vec3)) : list (nat * nat * vec3) :=
  filter (fun r => let '(s, a, _) := r in (off h + s + a <? i1) && (a <? M - 1))
    (map (fun r => let '(s, a, p) := r in (s, S a, move st p)) rows).
(** 276-312: the loop over the states of the current chunk, [k] left *)
Fixpoint complete (k st i1 h : nat) (rows : list (nat * nat * vec3)) (hd : table) : table :=
  match k with
  | O => hd
  | S k' => let hd' := advance st rows hd in
            match next_rows st i1 h rows with
            | [] => hd'
            | rows' => complete k' (S st) i1 h rows' hd' end
  end.
(** 250-325: the data of chunk h as continued in chunk c *)
Definition continued (c h : nat) (hd : table) : table :=
  match start_rows c h hd with [] => hd | rows => complete (size c) (off c) (off c + size c) h rows hd end.
(** 315-318: newly known entries *)
Definition diff (d d' : table) : table := fun s a => match d s a with Some _ => None | None => d' s a end.

(** 233-331: preceding chunks h - 1, h - 2, ... as long as they have data; result: the data from oldest to newest with their
    sizes, the updates, and whether convergence is blocked *)
Fixpoint past (c h : nat) (s : store) (ups : nat -> option table) : list (nat * table) * (nat -> option table) * bool :=
  match h with
  | O => ([], ups, false)
  | S h' =>
      match edata (s h') with
      | None => ([], ups, false)
      | Some hd =>
          let hd' := continued c h' hd in
          let b := news (size h') hd hd' in
          let ups1 := if b then (fun i => if i =? h' then Some (diff hd hd') else ups i) else ups in
          let '(l, ups2, b') := past c h' s ups1 in
          (l ++ [(size h', hd')], ups2, b || b')
      end
  end.
(** _calc_wakes for chunk c with the chunk store s, 151-333: the data with their sizes (before np.concatenate), the new
    chunk store entry and the convergence block *)
Definition calc_wakes (ord : list nat) (c : nat) (s : store) : list (nat * table) * entry * bool :=
  let db := own ord c s in
  let '(l, ups, b) := past c c s (eupd (s c)) in
  (l ++ [(size c, fst db)], {| edata := Some (fst db); eupd := ups |}, snd db || b).
(** the stored entry, 216 and 319 *)
Definition run (ord : list nat) (c : nat) (s : store) : entry := snd (fst (calc_wakes ord c s)).
(** algo.block_convergence, 217, 228, 322 *)
Definition blocked (ord : list nat) (c : nat) (s : store) : bool := snd (calc_wakes ord c s).
(** 333: np.concatenate(data, axis=0) *)
Fixpoint concat_tabs (l : list (nat * table)) : table :=
  match l with
  | [] => fun _ _ => None
  | (n, t) :: l' => fun s a => if s <? n then t s a else concat_tabs l' (s - n) a
  end.
(** wdata, 333 and 368 *)
Definition wdata (ord : list nat) (c : nat) (s : store) : table := concat_tabs (fst (fst (calc_wakes ord c s))).
(** len(wdata), 388 *)
Definition wlen (ord : list nat) (c : nat) (s : store) : nat := fold_right Nat.add 0 (map fst (fst (fst (calc_wakes ord c s)))).
(** wi0, 235 and 248: offset of the oldest chunk in wdata *)
Definition wi0 (ord : list nat) (c : nat) (s : store) : nat := off (S c - length (fst (fst (calc_wakes ord c s)))).

(** storing the result of a chunk's calculation: pool.py:10-16, engine.py:421-538, numpy.py:169-173 *)
Definition set (s : store) (c : nat) (e : entry) : store := fun c' => if c' =? c then e else s c'.
(** 229: an update of chunk c for chunk h is removed after use (where the store is shared between chunks) *)
Definition drop (s : store) (c h : nat) : store :=
  set s c {| edata := edata (s c); eupd := fun h' => if h' =? h then None else eupd (s c) h' |}.

(** All histories of the chunk store, newest first. A chunk is calculated with a store [v] that is the present one (engines
    that run chunks one after another, numpy.py) or an earlier one in which its own data are current (worker processes that
    were sent a copy at the begin of the iteration, pool.py:224-262), in any order. *)
Inductive history : list store -> Prop :=
| h_start : history [empty]
| h_run : forall s l v c ord, history (s :: l) -> In v (s :: l) -> c < length ns -> edata (v c) = edata (s c) ->
    history (set s c (run ord c v) :: s :: l)
| h_drop : forall s l c h, history (s :: l) -> history (drop s c h :: s :: l).

(** One iteration with isolated workers (pool.py:224-281, engine.py:421-538): every chunk is calculated with the store at the
    begin of the iteration. *)
Definition iteration (ord : list nat) (s : store) : store :=
  fold_left (fun s' c => set s' c (run ord c s)) (seq 0 (length ns)) s.
(** iterations of the iterative algorithm, iterative.py:294-321 *)
Fixpoint iterate (ord : list nat) (t : nat) : store := match t with O => empty | S t' => iteration ord (iterate ord t') end.

(** --- get_wake_coos, 367-432, for one state and one target point --- *)
(** 386-395: state index (relative to wdata), age, position and length of the candidate points; [g] is the state's global
    index *)
Definition candidates (w : table) (len w0 g : nat) : list (nat * nat * vec3 * R) :=
  flat_map (fun a => if (w0 + a <=? g) && (g - a - w0 <? len) then
                       match w (g - a - w0) a with Some (p, l) => [(g - a - w0, a, p, l)] | None => [] end
                     else []) (seq 0 M).
(** cdist, 397 *)
Definition dist2 (p q : vec3) : R := sqrt ((vx p - vx q) * (vx p - vx q) + (vy p - vy q) * (vy p - vy q)).
(** np.argmin, 398: the first minimum *)
Fixpoint nearest (pt : vec3) (best : nat * nat * vec3 * R) (l : list (nat * nat * vec3 * R)) : nat * nat * vec3 * R :=
  match l with
  | [] => best
  | x :: l' => let '(_, _, p, _) := best in let '(_, _, q, _) := x in
               nearest pt (if Rltb (dist2 pt q) (dist2 pt p) then x else best) l'
  end.
(** 403-411: the direction before normalisation; python's index -1 is the last age *)
Definition direction (w : table) (s a : nat) (p : vec3) : option (R * R) :=
  if a <? M - 1 then match w s (S a) with Some (q, _) => Some ((vx q - vx p)%R, (vy q - vy p)%R) | None => None end
  else match w s (if a =? 0 then M - 1 else a - 1) with
       | Some (q, _) => Some ((vx p - vx q)%R, (vy p - vy q)%R) | None => None end.
(** 410-419: wake coordinates x, y; None if the point is not selected *)
Definition project (pt p : vec3) (l : R) (nx : R * R) : option (R * R) :=
  let dx := sqrt (fst nx * fst nx + snd nx * snd nx) in
  let ux := (fst nx / (dx + / 10 ^ 14))%R in let uy := (snd nx / (dx + / 10 ^ 14))%R in
  let px := (vx pt - vx p)%R in let py := (vy pt - vy p)%R in
  let projx := (px * ux + py * uy)%R in
  if Rltb (- dx) projx && Rltb projx dx then Some ((projx + l)%R, (px * - uy + py * ux)%R) else None.
(** 378-432 *)
Definition dyn_coos (w : table) (len w0 g : nat) (pt : vec3) : vec3 :=
  let z := (vz pt - vz (rotor g))%R in
  match candidates w len w0 g with
  | [] => (10 ^ 20, 10 ^ 20, z)%R
  | x :: l => let '(s, a, p, ln) := nearest pt x l in
      match direction w s a p with
      | None => (10 ^ 20, 10 ^ 20, z)%R
      | Some nx => match project pt p ln nx with Some xy => (fst xy, snd xy, z) | None => (10 ^ 20, 10 ^ 20, z)%R end
      end
  end.
End Dyn.

(** iterative.py:74 and 294-321: number of iterations before the loop ends without convergence, by default *)
Definition default_iterations (n_turbines : nat) : nat := S (2 + n_turbines * n_turbines).
(** 113-116: the maximal age if it is not given; [step] is the mean of max_age_mean_ws * dt *)
Definition auto_max_age (max_length_km step : R) : nat := Nat.max (Z.to_nat (rfloor (max_length_km * 10 ^ 3 / step))) 1.
