(** Rotor models: rotor point weights and positions, rotor averages. Resolutions are naturals, coordinates reals. *)
From Verif Require Import RBase WindDir_Model.
Local Open Scope R_scope.

(** a rotor point: design coordinates y, z in units of the rotor radius (dpoints[:, 1], dpoints[:, 2]; dpoints[:, 0] is
    zero) and its weight *)
Record rpt := { py : R; pz : R; pw : R }.

(** foxes/models/rotor_models/grid.py:74-75, levels.py:70-71: i-th cell centre *)
Definition cell (n i : nat) : R := -1 + (INR i + 1 / 2) * (2 / INR n).
(** grid.py:86-92, levels.py:83-84: k-th of nint sub-points of the cell with centre [c] *)
Definition sub (n nint : nat) (c : R) (k : nat) : R := c - 2 / INR n / 2 + (INR k + 1 / 2) * (2 / INR n / INR nint).
(** levels.py:80 np.linspace(1, -1, nint): a single entry 1 if nint = 1 *)
Definition linsp (nint k : nat) : R := if (nint =? 1)%nat then 1 else 1 - 2 * INR k / INR (nint - 1).
(** grid.py:96-97: np.sum(norm <= 1) of one point *)
Definition inside (x y : R) : R := if Rleb (sqrt (x * x + y * y)) 1 then 1 else 0.
(** pairs of indices, row by row (meshgrid with indexing "ij", reshape) -- models/rotor_models/grid.py:59-160 *)
Definition pairs (n : nat) : list (nat * nat) := list_prod (seq 0 n) (seq 0 n).
(** grid.py:86-97 *)
Definition grid_weight (n nint i j : nat) : R :=
  rsum (map (fun kl => inside (sub n nint (cell n i) (fst kl)) (sub n nint (cell n j) (snd kl))) (pairs nint)) / (INR nint * INR nint).
(** levels.py:80-89 *)
Definition level_weight (n nint i : nat) : R :=
  rsum (map (fun kl => inside (linsp nint (fst kl)) (sub n nint (cell n i) (snd kl))) (pairs nint)) / (INR nint * INR nint).
(** grid.py:100-103, levels.py:91-94: keep positive weights, normalise. An empty result stays empty. *)
Definition reduce_points (l : list rpt) : list rpt :=
  let l' := filter (fun p => Rltb 0 (pw p)) l in
  let s := rsum (map pw l') in
  map (fun p => {| py := py p; pz := pz p; pw := pw p / s |}) l'.
(** grid.py:59-108 *)
Definition grid_points (n nint : nat) (red : bool) : list rpt :=
  if red then reduce_points (map (fun ij => {| py := cell n (fst ij); pz := cell n (snd ij); pw := grid_weight n nint (fst ij) (snd ij) |}) (pairs n))
  else map (fun ij => {| py := cell n (fst ij); pz := cell n (snd ij); pw := 1 / INR (n * n) |}) (pairs n).
(** levels.py:56-99 *)
Definition level_points (n nint : nat) (red : bool) : list rpt :=
  if red then reduce_points (map (fun i => {| py := 0; pz := cell n i; pw := level_weight n nint i |}) (seq 0 n))
  else map (fun i => {| py := 0; pz := cell n i; pw := 1 / INR n |}) (seq 0 n).
(** foxes/models/rotor_models/centre.py:20-62 *)
Definition centre_points : list rpt := [ {| py := 0; pz := 0; pw := 1 |} ].

(** foxes/core/rotor_model.py:131-173 get_rotor_points, one turbine and state *)
Definition rotor_point (centre : vec3) (yaw D : R) (p : rpt) : vec3 :=
  let n := wd2uv yaw 1 in
  let m := (- snd n, fst n) in
  (vx centre + 1 / 2 * D * (py p * fst m), vy centre + 1 / 2 * D * (py p * snd m), vz centre + 1 / 2 * D * pz p).

(** one rotor point's inflow -- core/rotor_model.py:210-254: WD, WS and weight at one rotor point *)
Record inflow := { i_wd : R; i_ws : R; i_w : R }.
(** foxes/core/rotor_model.py:238-241: weighted mean wind vector *)
Definition mean_uv (l : list inflow) : R * R :=
  (rsum (map (fun q => i_w q * fst (wd2uv (i_wd q) (i_ws q))) l), rsum (map (fun q => i_w q * snd (wd2uv (i_wd q) (i_ws q))) l)).
(** foxes/core/rotor_model.py:246-254 *)
Definition rotor_wd (l : list inflow) : R := uv2wd (mean_uv l).
(** core/rotor_model.py:246-254 *)
Definition rotor_ws (l : list inflow) : R := let u := mean_uv l in sqrt (fst u * fst u + snd u * snd u).
(** foxes/core/rotor_model.py:263-268: projection on the rotor axis *)
Definition wsp (yaw : R) (q : inflow) : R :=
  let n := wd2uv yaw 1 in let u := wd2uv (i_wd q) (i_ws q) in fst u * fst n + snd u * snd n.
(** np.sign -- models/rotor_models/grid.py:59-160 *)
Definition sgn (x : R) : R := if Rltb 0 x then 1 else if Rltb x 0 then -1 else 0.
(** x ** (1/3) for x >= 0 *)
Definition cbrt (x : R) : R := if Reqb x 0 then 0 else Rpower x (1 / 3).
(** foxes/core/rotor_model.py:272 *)
Definition rews (yaw : R) (l : list inflow) : R := Rmax (rsum (map (fun q => i_w q * wsp yaw q) l)) 0.
(** foxes/core/rotor_model.py:282-292 *)
Definition rews2 (yaw : R) (l : list inflow) : R :=
  if (1 <? length l)%nat then sqrt (Rmax (rsum (map (fun q => i_w q * (sgn (wsp yaw q) * (wsp yaw q * wsp yaw q))) l)) 0)
  else sqrt (rsum (map (fun q => i_w q * (wsp yaw q * wsp yaw q)) l)).
(** foxes/core/rotor_model.py:302-309; [None]: NaN, the cube root of a negative number in the one-point branch *)
Definition rews3 (yaw : R) (l : list inflow) : option R :=
  let s := rsum (map (fun q => i_w q * (wsp yaw q * wsp yaw q * wsp yaw q)) l) in
  if (1 <? length l)%nat then Some (cbrt (Rmax s 0)) else if Rltb s 0 then None else Some (cbrt s).
(** foxes/core/rotor_model.py:321: any other variable *)
Definition rotor_mean (vals : list (R * R)) : R := rsum (map (fun vw => fst vw * snd vw) vals).
(** foxes/models/rotor_models/centre.py:182-189: CentreRotor with one point: REWS, REWS2 and REWS3 alike *)
Definition centre_rews (yaw : R) (q : inflow) : R := wsp yaw q.
