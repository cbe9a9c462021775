(** One-point flow states (foxes/input/states/one_point_flow.py): a time series at a reference point is carried with the wind; displacements from
    foxes/models/wake_frames/timelines.py:56-174. One height, one point, one state; horizontal vectors are pairs. NaN-free data. *)
From Verif Require Import RBase.
Local Open Scope R_scope.

(** np.einsum("...d,...d->...", a, b) *)
Definition dot2 (a b : R * R) : R := fst a * fst b + snd a * snd b.
(** np.linalg.norm(a, axis=-1) *)
Definition norm2 (a : R * R) : R := sqrt (dot2 a a).
(** array arithmetic *)
Definition add2 (a b : R * R) : R * R := (fst a + fst b, snd a + snd b).
(** array arithmetic *)
Definition sub2 (a b : R * R) : R * R := (fst a - fst b, snd a - snd b).
(** array arithmetic *)
Definition neg2 (a : R * R) : R * R := (- fst a, - snd a).

(** timelines.py:62-82,131-136: displacement of state i of n; [dt] are the differences of consecutive times (n - 1 entries, the last one is repeated) *)
Definition displacement (n : nat) (uv : nat -> R * R) (dt : nat -> R) (i : nat) : R * R :=
  let d := dt (Nat.min i (n - 2)) in (fst (uv i) * d, snd (uv i) * d).
(** timelines.py:73-77: time steps from times *)
Definition steps (times : nat -> R) (i : nat) : R := times (S i) - times i.

(** one_point_flow.py:274-297 with hdxy: [h] is the last step, [h0] the displacement of the evaluated state, [q] the traced position.
    A zero h0 gives NaN, hence no match *)
Definition eval_trace (h h0 q : R * R) : option R :=
  if Reqb (norm2 h0) 0 then None
  else
    let projx := dot2 q h0 / norm2 h0 in
    let lx := dot2 h h0 / norm2 h0 in
    if (Rltb lx 0 && Rleb lx projx && Rleb projx 0) || (Rltb 0 lx && Rleb 0 projx && Rleb projx lx) then Some (projx / Rabs lx) else None.
(** one_point_flow.py:283-287, 300: points at a projection of exactly 1e-10 *)
Definition eval_local (h0 q : R * R) : bool := negb (Reqb (norm2 h0) 0) && Reqb (dot2 q h0 / norm2 h0) 1e-10.
(** final state index and coefficient *)
Inductive trace := Before | At (s : nat) (w : R) | After.
(** one_point_flow.py:299-316: backwards in time; [s] is the current trace_si *)
Fixpoint back (dxy : nat -> R * R) (h0 : R * R) (s : nat) (q : R * R) : option (nat * R) :=
  let q' := add2 q (neg2 (dxy s)) in
  match eval_trace (neg2 (dxy s)) h0 q' with
  | Some w => Some (s, w)
  | None => match s with O => None | S s' => back dxy h0 s' q' end
  end.
(** one_point_flow.py:318-341: forwards in time; [k] states are left, [s] is the current trace_si *)
Fixpoint forth (dxy : nat -> R * R) (h0 : R * R) (k s : nat) (q : R * R) : trace :=
  match k with
  | O => After
  | S k' =>
      let q' := add2 q (dxy s) in
      match eval_trace (dxy s) h0 q' with Some w => At s w | None => forth dxy h0 k' (S s) q' end
  end.
(** one_point_flow.py:262-343: [p] is the point minus the reference point, [s] the state's index in the time series of length n *)
Definition find_state (n : nat) (dxy : nat -> R * R) (s : nat) (p : R * R) : trace :=
  if eval_local (dxy s) p then At s (-1)
  else match back dxy (dxy s) s p with
       | Some (s', w) => At s' w
       | None => forth dxy (dxy s) (n - S s) (S s) p
       end.
(** python's index s - 1, for s = 0 the last entry *)
Definition prev (n s : nat) : nat := match s with O => (n - 1)%nat | S s' => s' end.
(** one_point_flow.py:391-419 *)
Definition interp_time (n : nat) (data : nat -> R) (t : trace) : R :=
  match t with
  | Before => data 0%nat
  | After => data (n - 1)%nat
  | At s w => if Rleb w 0 then let c := - w in c * data s + (1 - c) * data (prev n s)
              else w * data (prev n s) + (1 - w) * data s
  end.
(** one_point_flow.py:345-494: the value of a variable (not WS, WD) at the point, in state s *)
Definition flow_value (n : nat) (dxy : nat -> R * R) (data : nat -> R) (s : nat) (p : R * R) : R :=
  interp_time n data (find_state n dxy s p).
(** one_point_flow.py:467-473,481-486: wind vector components are interpolated in the same way *)
Definition flow_uv (n : nat) (dxy : nat -> R * R) (uv : nat -> R * R) (s : nat) (p : R * R) : R * R :=
  (flow_value n dxy (fun i => fst (uv i)) s p, flow_value n dxy (fun i => snd (uv i)) s p).
