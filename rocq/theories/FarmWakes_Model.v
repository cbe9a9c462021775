(** The farm wake calculation of the downwind and of the iterative algorithm, for one state.
    /repo/foxes/algorithms/downwind/models/farm_wakes_calc.py:60-174,
    /repo/foxes/algorithms/iterative/models/farm_wakes_calc.py:90-163,
    /repo/foxes/algorithms/iterative/iterative.py:270-345 (sweeps).
    Turbines are listed in processing order. [T]: a turbine with everything that is fixed before the wake
    calculation (position, diameter, ambient rotor point results, settings); [F]: its farm data results;
    [D]: its wake deltas; [W]: its accumulated rotor point results ([wake_res]).
    Simplifications: states are independent of each other (holds for all wake frames except the
    time-dependent ones); a wake model reads the farm data of the wake-causing turbine only
    (wake_frame.py:147-158); ground models other than no_ground are treated in WakeMirror_Model.v. *)
From Verif Require Import Base.

Section Wakes.
  Context {T F D W : Type}.

  (** One wake model with its partial wakes and ground model: new_farm_wake_deltas, the contribution of a
      wake-causing turbine (with its current results) to a target turbine's deltas, and the evaluation of
      a target: finalize_farm_wakes, adding to wake_res, eval_rpoint_results and farm controller. -- core/wake_model.py and partial_wakes_model.py as called at algorithms/downwind/models/farm_wakes_calc.py:91-174 *)
  Record wmodel := mkw {
    w_down : bool;                          (* affects_downwind *)
    w_new : T -> D;
    w_contrib : T -> F -> T -> D -> D;
    w_add : T -> W -> D -> W                (* hres[v] += wres[v], farm_wakes_calc.py:85-95 *)
  }.
  (** ambient rotor point results (deepcopy(amb_res)) and the turbine results obtained from rotor point
      results; farm data before the wake calculation is [ev t (amb t)]. *)
  Variable amb : T -> W.
  Variable ev : T -> W -> F.

  (** One turbine during the calculation. -- algorithms/downwind/models/farm_wakes_calc.py:91-174: rotor, results, wind and wake deltas of a turbine *)
  Record cell := mkc { c_t : T; c_f : F; c_w : W; c_d : D }.

  (** algorithms/downwind/models/farm_wakes_calc.py:91-110: finalize_wakes, controller evaluation *)
  Definition eval_cell (w : wmodel) (c : cell) : cell :=
    let w' := w_add w (c_t c) (c_w c) (c_d c) in mkc (c_t c) (ev (c_t c) w') w' (c_d c).
  (** algorithms/downwind/models/farm_wakes_calc.py:111-140: contribute for one target *)
  Definition contrib_cell (w : wmodel) (src c : cell) : cell :=
    mkc (c_t c) (c_f c) (c_w c) (w_contrib w (c_t src) (c_f src) (c_t c) (c_d c)).

  (** farm_wakes_calc.py:120-142, the loop over oi for a downwind model, at position oi > 0: evaluate the
      turbine, then let it contribute to all later ones. *)
  Fixpoint down_tail (w : wmodel) (l : list cell) (n : nat) : list cell :=
    match n, l with
    | S n', c :: l' => let c' := eval_cell w c in c' :: down_tail w (map (contrib_cell w c') l') n'
    | _, _ => l
    end.
  (** position oi = 0 is not evaluated. *)
  Definition down_pass (w : wmodel) (l : list cell) : list cell :=
    match l with
    | [] => []
    | c :: l' => c :: down_tail w (map (contrib_cell w c) l') (length l')
    end.
  (** lines 145-167, the upwind loop: mirrored, from the last position to the first. *)
  Definition up_pass (w : wmodel) (l : list cell) : list cell := rev (down_pass w (rev l)).

  (** lines 111-117: new deltas for this wake model. *)
  Definition fresh (w : wmodel) (c : cell) : cell := mkc (c_t c) (c_f c) (c_w c) (w_new w (c_t c)).
  (** algorithms/downwind/models/farm_wakes_calc.py:111-140 *)
  Definition pass (w : wmodel) (l : list cell) : list cell :=
    let l0 := map (fresh w) l in if w_down w then down_pass w l0 else up_pass w l0.

  (** lines 107-174; mixing upwind and downwind models raises KeyError at the first model of the
      other kind (after its pass). *)
  Fixpoint run_models (ws : list wmodel) (seen_down seen_up : bool) (l : list cell) : result (list cell) :=
    match ws with
    | [] => Ok l
    | w :: ws' =>
        let l' := pass w l in
        let sd := seen_down || w_down w in
        let su := seen_up || negb (w_down w) in
        if sd && su then Err KeyError else run_models ws' sd su l'
    end.
  (** algorithms/downwind/models/farm_wakes_calc.py:107-117: initial deltas *)
  Definition start (w0 : T -> D) (ts : list T) : list cell :=
    map (fun t => mkc t (ev t (amb t)) (amb t) (w0 t)) ts.
  (** The downwind algorithm's turbine results in processing order ([d0] fills the delta slot before
      the first pass; it is overwritten by [fresh]). *)
  Definition calc_downwind (d0 : D) (ws : list wmodel) (ts : list T) : result (list F) :=
    do l <- run_models ws false false (start (fun _ => d0) ts); Ok (map c_f l).

  (** ** iterative algorithm *)
  (** iterative farm_wakes_calc.py:119-135 for one wake model: for each oi in increasing order, contribute
      to all others with the results of the previous sweep; the deltas of target [tj] at position [j]. *)
  Fixpoint gather_contribs (w : wmodel) (j oi : nat) (srcs : list (T * F)) (tj : T) (dj : D) : D :=
    match srcs with
    | [] => dj
    | (t, f) :: srcs' =>
        gather_contribs w j (S oi) srcs' tj (if oi =? j then dj else w_contrib w t f tj dj)
    end.
  (** lines 111-154 for one target: all wake models in turn add to wake_res. *)
  Fixpoint all_models (ws : list wmodel) (j : nat) (srcs : list (T * F)) (tj : T) (wj : W) : W :=
    match ws with
    | [] => wj
    | w :: ws' => all_models ws' j srcs tj (w_add w tj wj (gather_contribs w j 0 srcs tj (w_new w tj)))
    end.
  (** lines 156-163: one sweep over all turbines (no under-relaxation). *)
  Fixpoint sweep_from (ws : list wmodel) (srcs : list (T * F)) (j : nat) (ts : list T) : list F :=
    match ts with
    | [] => []
    | t :: ts' => ev t (all_models ws j srcs t (amb t)) :: sweep_from ws srcs (S j) ts'
    end.
  (** algorithms/iterative/models/farm_wakes_calc.py:156-163 *)
  Definition sweep (ws : list wmodel) (ts : list T) (fs : list F) : list F := sweep_from ws (combine ts fs) 0 ts.
  (** algorithms/iterative/models/farm_wakes_calc.py:156-163, repeated by iterative.py *)
  Fixpoint sweeps (ws : list wmodel) (ts : list T) (k : nat) : list F :=
    match k with
    | O => map (fun t => ev t (amb t)) ts
    | S k' => sweep ws ts (sweeps ws ts k')
    end.
End Wakes.

(** The whole farm calculation for one state, in farm order: rotor_wd.py:62-66 (order by along-wind key),
    init_farm_data.py:114-137 (apply order), the wake calculation, reorder_farm_output.py:73-86. [key] is the
    along-wind coordinate of a turbine: the theorems take it to be a function of the turbine alone, which
    is the case if the mean wind direction of the farm does not depend on the turbines present. *)
From Verif Require Import Order_Model.
Section FarmLevel.
  Context {T F D W K : Type}.
  Variable amb : T -> W.
  Variable ev : T -> W -> F.
  Variable leb : K -> K -> bool.
  Variable key : T -> K.
  Variables (dT : T) (dF : F) (d0 : D).
  (** models/wake_frames/rotor_wd.py:62-66 *)
  Definition farm_order (farm : list T) : list nat := argsort leb (map key farm).
  (** algorithms/downwind/downwind.py:422-470 (the model list) *)
  Definition calc_farm (ws : list (@wmodel T F D W)) (farm : list T) : result (list F) :=
    do r <- calc_downwind amb ev d0 ws (gather dT farm (farm_order farm));
    Ok (gather dF r (invert (farm_order farm))).
End FarmLevel.

(** rotor_wd.py:62-66 for one state with integer wind vectors: keys are the projections of the positions on
    the sum of the turbines' wind vectors (the code takes the mean; a positive factor does not change
    the order). Turbines: (x, y, u, v). *)
Definition wd_keys (farm : list (Z * Z * Z * Z)) : list Z :=
  let u := fold_right (fun t s => let '(_, _, u, _) := t in (u + s)%Z) 0%Z farm in
  let v := fold_right (fun t s => let '(_, _, _, v) := t in (v + s)%Z) 0%Z farm in
  map (fun t => let '(x, y, _, _) := t in (x * u + y * v)%Z) farm.
(** models/wake_frames/rotor_wd.py:62-66 *)
Definition wd_order (farm : list (Z * Z * Z * Z)) : list nat := argsort Z.leb (wd_keys farm).
(** The farm calculation with that order, farm-ordered results. -- algorithms/downwind/models/{init_farm_data.py:114-137, farm_wakes_calc.py:107-174, reorder_farm_output.py:70-85} *)
Definition calc_farm_wd {F D W} (amb : Z * Z * Z * Z -> W) (ev : Z * Z * Z * Z -> W -> F) (dF : F) (d0 : D)
  (ws : list (@wmodel (Z * Z * Z * Z) F D W)) (farm : list (Z * Z * Z * Z)) : result (list F) :=
  do r <- calc_downwind amb ev d0 ws (gather (0, 0, 0, 0)%Z farm (wd_order farm));
  Ok (gather dF r (invert (wd_order farm))).
