(** Wake-added turbulence: the IEC / Frandsen and the Crespo-Hernandez top-hat models. One target point. *)
From Coq Require Import Rpower.
From Verif Require Import RBase Induction_Model.
Local Open Scope R_scope.

(** foxes/models/wake_models/top_hat.py:209-227: the masks st_sel and isin for one target point; zero elsewhere
    (the deltas start at zero: ti/iec_ti.py:114, ti/crespo_hernandez.py:156; the superposition rule is Superp_Model) *)
Definition top_hat (radius centreline : R) (ct x r : R) : R :=
  if Rltb 1e-8 x && Rltb 1e-8 ct && Rltb r radius then centreline else 0.

(** foxes/models/wake_models/ti/iec_ti.py:60-67,153-175: the wake radius, either a cone with the given opening angle (in degrees) or
    the linear law of WakeK. [tan_half] = tan (deg2rad (opening_angle / 2)) of line 67 *)
Inductive iec_opening := Cone (tan_half : R) | Linear (k : R).
(** foxes/models/wake_models/ti/iec_ti.py:153-175 *)
Definition iec_radius (o : iec_opening) (D x : R) : R :=
  match o with Cone t => t * x | Linear k => D / 2 + k * x end.
(** foxes/models/wake_models/ti/iec_ti.py:67: the slope of a cone with that opening angle *)
Definition cone_of_angle (deg : R) : iec_opening := Cone (tan (deg / 2 * PI / 180)).

(** foxes/models/wake_models/ti/iec_ti.py:249-256: the two accepted families of the iec_type string; any other string raises (not modelled) *)
Inductive iec_type := Iec2005 | Iec2019.
(** foxes/models/wake_models/ti/iec_ti.py:249-252 *)
Definition iec_centreline (ty : iec_type) (D ws ct x : R) : R :=
  match ty with
  | Iec2005 => sqrt 0.9 / (1.5 + 0.3 * x / D * sqrt ws)
  | Iec2019 => 1 / (1.5 + 0.8 * x / D / sqrt ct)
  end.
(** foxes/models/wake_models/ti/iec_ti.py, through top_hat.py:157-227 *)
Definition iec_ti (ty : iec_type) (o : iec_opening) (D ws ct x r : R) : R :=
  top_hat (iec_radius o D x) (iec_centreline ty D ws ct x) ct x r.

(** foxes/models/wake_models/ti/crespo_hernandez.py:51-62: the constructor's constants *)
Record crespo_pars := { ch_a_near : R; ch_a_far : R; ch_e1 : R; ch_e2 : R; ch_e3 : R; ch_sbeta : R; ch_near : option R }.
(** foxes/models/wake_models/ti/crespo_hernandez.py:51-62: default values *)
Definition crespo_default : crespo_pars :=
  {| ch_a_near := 0.362; ch_a_far := 0.73; ch_e1 := 0.83; ch_e2 := -0.0325; ch_e3 := -0.32; ch_sbeta := 0.25; ch_near := None |}.
(** foxes/models/wake_models/ti/crespo_hernandez.py:218-220 *)
Definition crespo_radius (p : crespo_pars) (ct2a : R -> R) (D k ct x : R) : R :=
  let a := ct2a ct in
  let beta := (1 - a) / (1 - 2 * a) in
  2 * (k * x + ch_sbeta p * sqrt beta * D).
(** foxes/models/wake_models/ti/crespo_hernandez.py:306-314. numpy's ** is Rpower for positive bases (ti > 0, twoa > 0) *)
Definition crespo_near_D (p : crespo_pars) (twoa ti : R) : R :=
  match ch_near p with
  | None => Rpower (Rpower 2 (ch_e1 p) * ch_a_near p / (ch_a_far p * Rpower ti (ch_e2 p)) * Rpower twoa (1 - ch_e1 p)) (1 / ch_e3 p)
  | Some n => n
  end.
(** foxes/models/wake_models/ti/crespo_hernandez.py:300,316-336 *)
Definition crespo_centreline (p : crespo_pars) (ct2a : R -> R) (D ti ct x : R) : R :=
  let twoa := 2 * ct2a ct in
  if Rltb x (crespo_near_D p twoa ti * D) then ch_a_near p * twoa
  else ch_a_far p * Rpower (twoa / 2) (ch_e1 p) * Rpower ti (ch_e2 p) * Rpower (x / D) (ch_e3 p).
(** foxes/models/wake_models/ti/crespo_hernandez.py, through top_hat.py:157-227 *)
Definition crespo_ti (p : crespo_pars) (ct2a : R -> R) (D k ti ct x r : R) : R :=
  top_hat (crespo_radius p ct2a D k ct x) (crespo_centreline p ct2a D ti ct x) ct x r.

(** foxes/models/wake_models/wind/turbopark.py:209-232. [c1], [c2] from the constructor, [ati] the ambient turbulence intensity *)
Definition turbo_sigma (ct2a : R -> R) (sbeta c1 c2 D k ati ct x : R) : R :=
  let a := ct2a ct in
  let beta := (1 - a) / (1 - 2 * a) in
  let epsilon := sbeta * sqrt beta in
  let alpha := c1 * ati in
  let beta := c2 * ati / sqrt ct in
  let u := alpha + beta * x / D in
  D * (epsilon + k / beta * (sqrt (u * u + 1) - sqrt (1 + alpha * alpha)
                             - ln ((sqrt (u * u + 1) + 1) * alpha / ((sqrt (1 + alpha * alpha) + 1) * u)))).
(** foxes/models/wake_models/wind/turbopark.py:163-252 through gaussian.py:97-106: st_sel = (x > 1e-8) & (ct > 1e-8), zero elsewhere *)
Definition turbo_deficit (ct2a : R -> R) (sbeta c1 c2 D k ati ct x r : R) : R :=
  if Rltb 1e-8 x && Rltb 1e-8 ct then
    let sigma := turbo_sigma ct2a sbeta c1 c2 D k ati ct x in
    gauss_ampl ct2a D ct sigma * exp (- 0.5 * ((r / sigma) * (r / sigma)))
  else 0.
