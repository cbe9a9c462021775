(** SetFarmVars for turbine positions, hub heights and rotor diameters, and its option once (foxes/models/turbine_models/set_farm_vars.py), together with
    the use of these values in foxes/algorithms/downwind/models/init_farm_data.py. One turbine, one component; NaN is [None]. Ordinary variables: Order_Model. *)
From Verif Require Import RBase.
Local Open Scope R_scope.
Local Open Scope nat_scope.

(** D or H (or one component of xy) of a turbine of the farm: not given, a number, or one number for each state -- core/turbine.py:46-60 *)
Inductive tval := TNone | TNum (x : option R) | TArr (l : list (option R)).
(** numpy's ValueError for shapes *)
Inductive outcome (A : Type) := Done (a : A) | ShapeError.
Arguments Done {A} a. Arguments ShapeError {A}.
(** x[:] = v for an array of length n; None becomes NaN -- set_farm_vars.py:171-175, init_farm_data.py:97-105 *)
Definition fill (n : nat) (v : tval) : outcome (list (option R)) :=
  match v with
  | TNone => Done (repeat None n)
  | TNum x => Done (repeat x n)
  | TArr l => if length l =? n then Done l else match l with [x] => Done (repeat x n) | _ => ShapeError end
  end.
(** np.where(np.isnan(data), x, data), 161-163 and 176 *)
Fixpoint where_nan (data x : list (option R)) : list (option R) :=
  match data, x with
  | d :: data', y :: x' => match d with Some _ => d | None => y end :: where_nan data' x'
  | _, _ => []
  end.
(** set_farm_vars.py:165-176: the turbine's D or H after load_data, for n states *)
Definition load_value (n : nat) (data : list (option R)) (v : tval) : outcome tval :=
  match fill n v with Done x => Done (TArr (where_nan data x)) | ShapeError => ShapeError end.
(** init_farm_data.py:97-105: D or H in a chunk of n states; [dflt]: the turbine type's value *)
Definition init_value (n : nat) (dflt : option R) (v : tval) : outcome (list (option R)) :=
  fill n (match v with TNone => TNum dflt | _ => v end).
(** set_farm_vars.py:153-163: a component of the turbine's position; [TNum] for positions of shape (2,) *)
Definition load_position (n : nat) (data : list (option R)) (v : tval) : outcome tval :=
  match v with
  | TArr l => if length l =? length data then Done (TArr (where_nan data l))
              else match l, data with
                   | [x], _ => ShapeError
                   | _, [d] => Done (TArr (where_nan (repeat d (length l)) l))
                   | _, _ => ShapeError end
  | _ => match fill n v with Done x => Done (TArr (where_nan data x)) | ShapeError => ShapeError end
  end.
(** init_farm_data.py:90-95: positions in a chunk of n states that starts at i0 *)
Definition init_position (i0 n : nat) (v : tval) : outcome (list (option R)) :=
  match v with TArr l => fill n (TArr (firstn n (skipn i0 l))) | _ => fill n v end.

(** --- once --- *)
(** one chunk's calculation, 271-293: [done]: __once_done; [fd], [data]: the variable in the farm data and the settings, at the selected entries *)
Definition once_calc (once : bool) (done : list nat) (i0 : nat) (data fd : list (option R)) : list nat * list (option R) :=
  if negb once || negb (existsb (Nat.eqb i0) done) then (i0 :: done, where_nan data fd) else (done, fd).
(** a run over chunks (i0, settings), with farm data that are NaN at the begin (core/engine.py:374-381), and k calls per chunk in which other models' effect
    on the variable is [upd] (core/farm_controller.py:397-417, farm_wakes_calc.py:102-105) *)
Fixpoint once_calls (once : bool) (upd : list (option R) -> list (option R)) (k : nat) (i0 : nat) (data : list (option R)) (s : list nat * list (option R)) : list nat * list (option R) :=
  match k with O => s | S k' => let '(d, f) := once_calc once (fst s) i0 data (snd s) in once_calls once upd k' i0 data (d, upd f) end.
(** all chunks of a calculation *)
Fixpoint once_run (once : bool) (upd : list (option R) -> list (option R)) (k : nat) (chunks : list (nat * list (option R))) (done : list nat) : list nat * list (list (option R)) :=
  match chunks with
  | [] => (done, [])
  | (i0, data) :: rest =>
      let '(d, f) := once_calls once upd k i0 data (done, repeat None (length data)) in
      let '(d', fs) := once_run once upd k rest d in (d', f :: fs)
  end.
