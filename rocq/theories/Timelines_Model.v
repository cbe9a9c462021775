(** Timelines wake frame (foxes/models/wake_frames/timelines.py). One state, one wake causing turbine (with its own hub height's displacements), one point.
    States are numbered in the whole time series (i0 + index in the chunk). NaN-free data. *)
From Verif Require Import RBase OnePoint_Model.
Local Open Scope R_scope.

(** timelines.py:382-395: (-nx[1], nx[0]) *)
Definition perp2 (a : R * R) : R * R := (- snd a, fst a).
(** trace_si, trace_p, trace_l, trace_d (None: infinity), and the last coordinates found (wcoosx, wcoosy, trace_si) -- timelines.py:359-371 *)
Record tstate := { t_si : nat; t_p : R * R; t_l : R; t_d : option R; t_res : option (R * R * nat) }.
(** timelines.py:374-397. A zero displacement gives NaN directions, for which nothing is selected *)
Definition update (dxy : nat -> R * R) (t : tstate) : tstate :=
  let d := norm2 (t_p t) in
  if match t_d t with None => true | Some d0 => Rleb d d0 end then
    let v := dxy (t_si t) in
    let dx := norm2 v in
    let projx := dot2 (t_p t) v / dx in
    let projy := dot2 (t_p t) (perp2 v) / dx in
    {| t_si := t_si t; t_p := t_p t; t_l := t_l t; t_d := Some d;
       t_res := if negb (Reqb dx 0) && Rltb (- dx) projx && Rltb projx dx then Some (projx + t_l t, projy, t_si t) else t_res t |}
  else t.
(** timelines.py:399-418: [k] is trace_si *)
Fixpoint step_back (dxy : nat -> R * R) (maxlen : R) (k : nat) (t : tstate) : tstate :=
  match k with
  | O => t
  | S k' =>
      if Rltb (t_l t) maxlen then
        let delta := dxy k' in
        step_back dxy maxlen k' (update dxy {| t_si := k'; t_p := sub2 (t_p t) delta; t_l := t_l t + norm2 delta; t_d := t_d t; t_res := t_res t |})
      else t
  end.
(** timelines.py:341-433: downwind and lateral coordinate and source state, for a point p relative to the rotor in state s; None: 1e20 for both coordinates *)
Definition wake_coos (dxy : nat -> R * R) (maxlen : R) (s : nat) (p : R * R) : option (R * R * nat) :=
  t_res (step_back dxy maxlen s (update dxy {| t_si := s; t_p := p; t_l := 0; t_d := None; t_res := None |})).
(** timelines.py:359-362: state [j] of a chunk that starts at state [i0] *)
Definition chunk_coos (dxy : nat -> R * R) (maxlen : R) (i0 j : nat) (p : R * R) : option (R * R * nat) := wake_coos dxy maxlen (i0 + j) p.

(** timelines.py:474-491: [k] = trace_si + 1, remaining length, offset; returns the values after the loop, the first component is trace_si + 1 *)
Fixpoint cl_loop (dxy : nat -> R * R) (k : nat) (l : R) (dp : R * R) : nat * R * (R * R) :=
  match k with
  | O => (O, l, dp)
  | S k' =>
      if Rltb 0 l then
        let dl := norm2 (dxy k') in
        if Rltb (Rabs (l - dl)) (Rabs l) then cl_loop dxy k' (l - dl) (add2 dp (dxy k')) else cl_loop dxy k' l dp
      else (S k', l, dp)
  end.
Inductive cl_result := Point (p : R * R) | NaNPoint | IndexError.
(** timelines.py:459-507: offset of the centreline point at downwind distance x from the rotor, for state j of a chunk; n states in the whole series.
    The trace starts at j, not at i0 + j (line 472). The first iteration needs no trace_si >= 0 test since it starts with trace_si = j >= 0 *)
Definition centreline (n : nat) (dxy : nat -> R * R) (i0 j : nat) (x : R) : cl_result :=
  match cl_loop dxy (S j) x (0, 0) with
  | (si, l, dp) =>
      if Nat.leb n si then IndexError else
      let v := dxy si in
      let dl := norm2 v in
      if Rltb (Rabs l) (2 * dl) then Point (sub2 dp (l / dl * fst v, l / dl * snd v)) else NaNPoint
  end.
