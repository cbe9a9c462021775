(** Rotors, wind arrows, pixels and returned values of flow pictures: foxes/output/flow_plots_2d/get_fig.py, called by foxes/output/flow_plots_2d/flow_plots.py. *)
From Verif Require Import RBase WindDir_Model Grid_Model.
From Coq Require Import List.
Import ListNotations.
Local Open Scope R_scope.

(** the three kinds of pictures, flow_plots.py *)
Inductive kind := PXY | PXZ | PYZ.
(** axis labels: the texts that get_fig.py:188-205 compares with, or any other text *)
Inductive label := LX | LY | LZ | LOther.
(** comparison of labels *)
Definition label_eqb (a b : label) : bool := match a, b with LX, LX | LY, LY | LZ, LZ | LOther, LOther => true | _, _ => false end.
(** the default labels of gen_states_fig_*, flow_plots.py:467-468,653-654,839-840 *)
Definition default_labels (k : kind) : label * label := match k with PXY => (LX, LY) | PXZ => (LX, LZ) | PYZ => (LY, LZ) end.
(** the default labels of get_mean_fig_*, flow_plots.py:20-21,167-168,317-318 *)
Definition mean_labels (k : kind) : label * label := match k with PXY => (LX, LY) | PXZ => (LX, LZ) | PYZ => (LX, LZ) end.
(** turbine data of the picture, flow_plots.py:602-615: rotor diameter, hub height, position, angle in degrees *)
Record turb := { tD : R; tH : R; tX : R; tY : R; t_angle : R }.
(** get_fig.py:184-220: the end points of the line drawn for a rotor. Three tests of the labels in sequence; no match: the local variables x, y are not bound *)
Definition rotor_line (l : label * label) (t : turb) : result ((R * R) * (R * R)) :=
  let theta := rmod (t_angle t + 90) 360 * PI / 180 in
  let init : option (R * R * R * R) := None in
  let st := if label_eqb (fst l) LX && label_eqb (snd l) LY then Some (tX t, tY t, tD t / 2 * sin theta, tD t / 2 * cos theta) else init in
  let st := if label_eqb (fst l) LX && label_eqb (snd l) LZ then Some (tX t, tH t, 0, tD t / 2) else st in
  let st := if label_eqb (fst l) LY && label_eqb (snd l) LZ then Some (tY t, tH t, 0, tD t / 2) else st in
  match st with Some (x, y, cx, cy) => Ok ((x + cx, y + cy), (x - cx, y - cy)) | None => Err NameError end.
(** get_fig.py:140-146: the arrow for the wind direction wd and wind speed ws at a point, for all kinds of pictures (flow_plots.py:117-130,264-277,414-427) *)
Definition arrow (wd ws : R) : R * R := wd2uv wd ws.
(** get_fig.py:109-112: the value drawn at x_pos[i], y_pos[j]; reshape is row-major *)
Definition pixel (nx ny : nat) (d : list R) (i j : nat) : R := nth i (map (fun i => nth j (nth i (map (fun i => map (fun j => nth (i * ny + j) d 0) (seq 0 ny)) (seq 0 nx)) []) 0) (seq 0 nx)) 0.
(** get_fig.py:100-103,222-240: the figure that is returned, [new]: the figure that is created without the argument fig *)
Definition ret_fig (fig : option nat) (new : nat) (add_bar : bool) : option nat :=
  let hfig := match fig with Some f => f | None => new end in
  if add_bar then Some hfig else fig.
