(** Power and thrust curves (foxes/models/turbine_types/PCt_file.py). One (state, turbine) element of the arrays; tables
    are lists of (wind speed, value) rows sorted by wind speed. *)
From Verif Require Import RBase.
Local Open Scope R_scope.

(** models/turbine_types/PCt_file.py:151-200: the columns wind speed and value of the curve file *)
Definition table := list (R * R).
(** np.interp right of the first node: linear between the neighbouring nodes -- np.interp as called at models/turbine_types/PCt_file.py:340-345 *)
Fixpoint interp_from (t : table) (x : R) : R :=
  match t with
  | (x0, y0) :: (((x1, y1) :: _) as t') =>
      if Rltb x x1 then (y1 - y0) / (x1 - x0) * (x - x0) + y0 else interp_from t' x
  | [(_, y0)] => y0
  | [] => 0
  end.
(** np.interp(x, xs, ys, left=0.0, right=0.0), PCt_file.py:340-345 (numpy raises ValueError for an empty table) *)
Definition interp (t : table) (x : R) : result R :=
  match t with
  | [] => Err ValueError
  | (x0, _) :: _ => Ok (if Rltb x x0 then 0 else if Rltb (fst (last t (0, 0))) x then 0 else interp_from t x)
  end.

(** Variables of the farm data used here -- models/turbine_types/PCt_file.py:279-347 (FV.REWS, FV.REWS2, FV.REWS3) *)
Inductive var := REWS | REWS2 | REWS3.
(** equality of variable names, models/turbine_types/PCt_file.py:279-347 *)
Definition veq (a b : var) : bool := match a, b with REWS, REWS | REWS2, REWS2 | REWS3, REWS3 => true | _, _ => false end.
(** one (state, turbine) entry of fdata, models/turbine_types/PCt_file.py:279-347 *)
Definition fdata := var -> R.
(** assignment to fdata[v], models/turbine_types/PCt_file.py:279-347 *)
Definition put (f : fdata) (v : var) (x : R) : fdata := fun u => if veq u v then x else f u.
(** PCt_file.py:305-333. The factor fR multiplies rews3 if rho is given (315), fC multiplies rews2 (330) and fP rews3
    (332) in the yawed case; factors that do not apply are 1. [view]: st_sel is a basic index (np.s_[:, :] or
    np.s_[:, i], farm_controller.py:285-286, if every turbine has this model in every state), so that rews2 and rews3 are views of the
    farm data and the in-place products change it; with a boolean selection (287-293) they are copies.
    Returns the farm data afterwards and the two wind speeds. *)
Definition correct (view : bool) (wsct wsp : var) (fR fC fP : R) (f : fdata) : fdata * R * R :=
  if view then
    let f1 := put f wsp (f wsp * fR) in
    let f2 := put f1 wsct (f1 wsct * fC) in
    let f3 := put f2 wsp (f2 wsp * fP) in
    (f3, f3 wsct, f3 wsp)
  else (f, f wsct * fC, f wsp * fR * fP).
(** the factors: 313-315, 323-332 (0 <= cos) *)
Definition rho_factor (rho_type rho : R) : R := Rpower (rho_type / rho) (1 / 3).
(** models/turbine_types/PCt_file.py:279-347: the yaw correction *)
Definition yaw_factor (cosm p e : R) : R := Rpower (Rpower cosm p) e.
(** PCt_file.py:279-347: the result (farm data afterwards, P, CT) *)
Definition calculate (view : bool) (wsct wsp : var) (tP tC : table) (fR fC fP : R) (f : fdata) : result (fdata * R * R) :=
  let '(f', w2, w3) := correct view wsct wsp fR fC fP f in
  do p <- interp tP w3; do c <- interp tC w2; Ok (f', p, c).

(** PCt_file.py:193-194: nominal power if none is given, from the largest table entry; [unit] is FC.P_UNITS[P_unit] *)
Fixpoint lmaxR (x : R) (l : list R) : R := match l with [] => x | y :: l' => Rmax x (lmaxR y l') end.
(** models/turbine_types/PCt_file.py:193-194 *)
Definition auto_nominal (unit : R) (t : table) : R := match t with [] => 0 | (_, y) :: t' => lmaxR y (map snd t') / unit end.

(** modify_cutin for the thrust curve, PCt_file.py:234-274 with modify_ct=True, modify_P=False. One smoothing sweep (265)
    of an array of n+1 entries *)
Definition sweep (a : R) (n : nat) (c : nat -> R) : nat -> R :=
  fun k => if (0 <? k)%nat && (k <? n)%nat then a * c (k - 1)%nat + (1 - a) * c (k + 1)%nat else c k.
(** models/turbine_types/PCt_file.py:202-277: `for i in range(iterations)` *)
Fixpoint sweeps (a : R) (n it : nat) (c : nat -> R) : nat -> R := match it with O => c | S i => sweeps a n i (sweep a n c) end.
(** 259-265 *)
Definition new_ct (a : R) (n it : nat) (c0 : R) : nat -> R := sweeps a n it (fun k => if (k =? n)%nat then c0 else 0).
(** 240-247: drop the leading rows below the cut-in limit *)
Fixpoint from_cutin (t : table) : table :=
  match t with [] => [] | (x, c) :: t' => if Rltb c 1e-5 then from_cutin t' else t end.
(** 253-274; IndexError if there is no cut-in *)
Definition modify_cutin (a : R) (steps it : nat) (t : table) : result table :=
  match from_cutin t with
  | [] => Err IndexError
  | (x, c) :: r =>
      Ok (if Rltb 0 x then
            map (fun k => (x * INR k / INR steps, new_ct a steps it c k)) (seq 0 steps) ++ (x, c) :: r
          else t)
  end.
(** foxes/algorithms/iterative/iterative.py initialize: for each turbine's type object in the farm, one call -- models/turbine_types/PCt_file.py:202-277 as called repeatedly *)
Fixpoint modify_times (n : nat) (a : R) (steps it : nat) (t : table) : result table :=
  match n with O => Ok t | S n' => do t' <- modify_cutin a steps it t; modify_times n' a steps it t' end.
