(** Small models and helpers: models/turbine_models/thrust2ct.py, models/turbine_models/rotor_centre_calc.py,
    models/vertical_profiles/data_profile.py, models/farm_models/turbine2farm.py, utils/regularize.py. Floats are real numbers. *)
From Verif Require Import RBase Order_Model Curves_Model FarmWakes_Model Superp_Model PointWakes_Model.
Local Open Scope R_scope.

(** --- Thrust2Ct --- *)
(** one (state, turbine) element: selected by st_sel, thrust, air density, rotor diameter, wind speed, previous thrust coefficient;
    models/turbine_models/thrust2ct.py:85-90 *)
Record telem := mkte { e_sel : bool; e_T : R; e_rho : R; e_D : R; e_ws : R; e_ct : R }.
(** models/turbine_models/thrust2ct.py:85-94; numpy's division by zero (inf, NaN) is not modelled *)
Definition thrust2ct (l : list telem) : list R :=
  map (fun e => if e_sel e then 2 * e_T e / (e_rho e * (PI * (e_D e / 2) ^ 2) * e_ws e ^ 2) else e_ct e) l.

(** --- sqrt_reg, utils/regularize.py:24-26 --- *)
Definition sqrt_reg (x0 x : R) : R :=
  let b := x0 * (1 - ln x0) in
  let y := exp ((x - b) / x0) in
  sqrt (if Rltb x x0 then y else x).

(** --- DataProfile --- *)
(** np.all(np.diff(z) > 0), models/vertical_profiles/data_profile.py:76 *)
Fixpoint ascending (z : list R) : bool :=
  match z with a :: ((b :: _) as z') => Rltb 0 (b - a) && ascending z' | _ => true end.
(** data_profile.py:76-79; rows: (height, value) *)
Definition prof_data (rows : list (R * R)) : list (R * R) :=
  let z := map fst rows in
  if ascending z then rows else let inds := argsort Rleb z in combine (gather 0 z inds) (gather 0 (map snd rows) inds).
(** scipy's interp1d with its default parameters (kind linear, bounds_error), data_profile.py:112, one height; the table is sorted here, so that interp1d's own stable
    sort changes nothing; scipy: IndexError for an empty table *)
Definition interp1d (t : table) (h : R) : result R :=
  match t with
  | [] => Err IndexError
  | (z0, _) :: _ => if Rltb h z0 then Err ValueError else if Rltb (fst (last t (0, 0))) h then Err ValueError else Ok (interp_from t h)
  end.
(** data_profile.py:27-79, 94-112 *)
Definition profile (rows : list (R * R)) (h : R) : result R := interp1d (prof_data rows) h.

(** --- Turbine2FarmModel --- *)
(** numpy: arr[mask] and arr[mask] = ... with a boolean mask need the shape of arr. An elementwise turbine model [g] on the chunk's
    rows; models/farm_models/turbine2farm.py:92-93: the mask is all True with [n_states] rows and [n_turbines] columns *)
Definition t2f {A} (n_states n_turbines : nat) (g : A -> A) (chunk : list (list A)) : result (list (list A)) :=
  if Nat.eqb (length chunk) n_states && forallb (fun r => Nat.eqb (length r) n_turbines) chunk
  then Ok (map (map g) chunk) else Err IndexError.

(** --- RotorCentreCalc: one state, one variable --- *)
Section Hub.
  Context {T F P : Type}.
  Variable amb : P -> R.
  Variable hub : T -> P.
  Variable ev : T -> R -> F.
  Variable ms : list (swake T F P).
  (** the farm data at the time of a call: turbines and results in processing order; models/turbine_models/rotor_centre_calc.py:110-135, the
      wake calculation at the hubs uses whatever the farm data contains; algorithms/downwind/models/point_wakes_calc.py:128-132 *)
  Definition hub_value (l : list (@cell T F R R)) (t : T) : R := point_value amb ms (map (fun c => (c_t c, c_f c)) l) (hub t).
  (** the loop of one wake model: algorithms/downwind/models/farm_wakes_calc.py:120-142; the farm controller evaluates the turbine at
      position oi, where [own] tells whether the turbine's other models run before (its new results are in the farm data) *)
  Fixpoint hub_tail (own : bool) (w : @wmodel T F R R) (done l : list (@cell T F R R)) (n : nat) : list R :=
    match n, l with
    | S n', c :: l' =>
        let c' := eval_cell ev w c in
        hub_value (done ++ (if own then c' else c) :: l') (c_t c) ::
        hub_tail own w (done ++ [c']) (map (contrib_cell w c') l') n'
    | _, _ => []
    end.
  (** the values reported for all turbines in processing order: the first turbine is evaluated before the wake calculation only
      (post-rotor farm controller, all turbines ambient), the others at last in the loop of the last wake model *)
  Definition hub_data (own : bool) (ts : list T) : list R :=
    let wms := map (as_wmodel amb hub) ms in
    let cells := start (fun t => amb (hub t)) ev (fun _ => 0) ts in
    let l0 := map (fresh (last wms (mkw true (fun _ => 0) (fun _ _ _ d => d) (fun _ w _ => w)))) (fold_left (fun l w => pass ev w l) (removelast wms) cells) in
    match ts, l0 with
    | t :: _, c :: l' =>
        let w := last wms (mkw true (fun _ => 0) (fun _ _ _ d => d) (fun _ w _ => w)) in
        hub_value cells t :: hub_tail own w [c] (map (contrib_cell w c) l') (length l')
    | _, _ => []
    end.
End Hub.
