(** Streamlines2D wake frame (foxes/models/wake_frames/streamlines.py), one state. NaN is [None]; horizontal vectors are pairs; the vertical coordinate is
    the plain height difference (lines 83, 158) and not modelled. *)
From Verif Require Import RBase WindDir_Model OnePoint_Model Timelines_Model Order_Model.
Local Open Scope R_scope.

(** a streamline point: position and wind direction -- streamlines.py:67-68 *)
Definition spoint : Type := option (R * R) * option R.
(** streamlines.py:69-103: the points of one turbine's streamline. [wdf] is the wind direction of the states at a point (arbitrary at NaN points) *)
Fixpoint sline (wdf : option (R * R) -> option R) (step : R) (p0 : R * R) (wd0 : option R) (i : nat) : spoint :=
  match i with
  | O => (Some p0, wd0)
  | S i' =>
      let '(p, w) := sline wdf step p0 wd0 i' in
      let p' := match p, w with Some q, Some d => Some (add2 q (step * fst (wd2uv d 1), step * snd (wd2uv d 1))) | _, _ => None end in
      (p', match wdf p' with Some d => Some d | None => w end)
  end.
(** np.argmin of n + 1 values: the first NaN, if any, else the first minimum -- streamlines.py:149 *)
Fixpoint argmin (d : nat -> option R) (n : nat) : nat :=
  match n with
  | O => O
  | S n' =>
      let b := argmin d n' in
      match d b, d (S n') with
      | None, _ => b
      | Some _, None => S n'
      | Some x, Some y => if Rltb y x then S n' else b
      end
  end.
(** streamlines.py:148: distance to a streamline point *)
Definition sdist (line : nat -> spoint) (p : R * R) (i : nat) : option R := match fst (line i) with Some q => Some (norm2 (sub2 p q)) | None => None end.
(** streamlines.py:136-168: wake coordinates of a point, for a streamline of n + 1 points; [None]: NaN *)
Definition scoos (step : R) (n : nat) (line : nat -> spoint) (p : R * R) : option (R * R) :=
  let i := argmin (sdist line p) n in
  match line i with
  | (Some q, Some w) =>
      let nx := wd2uv w 1 in
      let delta := sub2 p q in
      let projx := dot2 delta nx in
      if Rltb (- step) projx && Rltb projx step then Some (step * INR i + projx, dot2 delta (perp2 nx)) else None
  | _ => None
  end.

(** np.lexsort compares the last key first; NaN is larger than all numbers -- streamlines.py:209 *)
Definition olt (x y : option R) : bool := match x, y with Some a, Some b => Rltb a b | Some _, None => true | None, _ => false end.
(** lexicographic comparison, the primary key is the head -- streamlines.py:209 *)
Fixpoint lex_leb (a b : list (option R)) : bool :=
  match a, b with
  | [], _ => true
  | _ :: _, [] => false
  | x :: a', y :: b' => if olt x y then true else if olt y x then false else lex_leb a' b'
  end.
(** streamlines.py:198-209: [coosx i j] is the coordinate of turbine j in the wake frame of turbine i; stable sort *)
Definition lexsort (n : nat) (coosx : nat -> nat -> option R) : list nat :=
  argsort lex_leb (map (fun j => rev (map (fun i => coosx i j) (seq 0 n))) (seq 0 n)).

(** Streamlines of all turbines (with start positions), as kept in the model data -- streamlines.py:107-134 *)
Definition sdata : Type := nat -> nat -> spoint.
(** streamlines.py:58-105: for turbine positions [pos] and the farm data [amb_wd] *)
Definition calc_streamlines (wdf : option (R * R) -> option R) (step : R) (pos : nat -> R * R) (amb_wd : nat -> option R) : sdata :=
  fun t => sline wdf step (pos t) (amb_wd t).
(** streamlines.py:128-134: recalculated unless the model data has streamlines that start at the present positions of all nt turbines *)
Definition get_streamline_data (nt : nat) (wdf : option (R * R) -> option R) (step : R) (cache : option sdata) (pos : nat -> R * R) (amb_wd : nat -> option R) : sdata :=
  match cache with
  | Some c => if forallb (fun t => match fst (c t O) with Some q => Reqb (fst q) (fst (pos t)) && Reqb (snd q) (snd (pos t)) | None => false end) (seq 0 nt)
              then c else calc_streamlines wdf step pos amb_wd
  | None => calc_streamlines wdf step pos amb_wd
  end.
(** streamlines.py:170-211: the order from streamline data of n + 1 points *)
Definition stream_order (nt : nat) (step : R) (n : nat) (data : sdata) (pos : nat -> R * R) : list nat :=
  lexsort nt (fun i j => match scoos step n (data i) (pos j) with Some (x, _) => Some x | None => None end).
(** The first farm calculation, algorithms/downwind/models/init_farm_data.py:107-135: the order is calculated when the farm data for AMB_WD is all NaN
    (core/engine.py:376-381; it is set later, algorithms/downwind/models/set_amb_farm_results.py:62-64); then positions, and the streamline data which are now in the model data, are
    brought into this order; the wake calculation uses them with the ambient wind directions [amb_wd] (downwind order).
    Result: the order, and the coordinates of point p in the wake of the turbine at downwind position k *)
Definition farm_coos (nt : nat) (wdf : option (R * R) -> option R) (step : R) (n : nat) (pos : nat -> R * R) (amb_wd : nat -> option R) : list nat * (nat -> R * R -> option (R * R)) :=
  let data := get_streamline_data nt wdf step None pos (fun _ => None) in
  let order := stream_order nt step n data pos in
  let pos' := fun k => pos (nth k order O) in
  let data' := fun k => data (nth k order O) in
  (order, fun k => scoos step n (get_streamline_data nt wdf step (Some data') pos' amb_wd k)).
