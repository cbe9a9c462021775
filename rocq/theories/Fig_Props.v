(** Theorems about rotors, wind arrows and pixels in flow pictures. *)
From Verif Require Import RBase WindDir_Model WindDir_Proofs Grid_Model Fig_Model Fig_Spec.
From Coq Require Import List.
Import ListNotations.
Local Open Scope R_scope.

(** C239: in horizontal pictures a rotor is a line of length D through the hub, orthogonal to the rotor axis *)
Theorem C239_rotor_xy t : exists p q, rotor_line (default_labels PXY) t = Ok (p, q) /\ is_line p q (in_picture PXY 270 (hub t)) (tD t) (wd2uv (t_angle t) 1).
Proof.
  eexists. eexists. split; [reflexivity|]. unfold is_line, in_picture, hub, vx, vy, wd2uv, wd2wdvec. cbn [fst snd].
  destruct (rmod_deg (t_angle t + 90)) as [k E]. rewrite E. destruct (sin_cos_shift ((t_angle t + 90) * PI / 180) k) as [-> ->].
  replace ((t_angle t + 90) * PI / 180) with (t_angle t * PI / 180 + PI / 2) by field. rewrite sin_plus, cos_plus, sin_PI2, cos_PI2. set (s := sin (t_angle t * PI / 180)). set (c := cos (t_angle t * PI / 180)).
  assert (U : s * s + c * c = 1) by (unfold s, c; pose proof (sin2_cos2 (t_angle t * PI / 180)) as U; unfold Rsqr in U; exact U). clearbody s c.
  split; [ring|]. split; [ring|]. split; [|ring]. transitivity (tD t * tD t * (s * s + c * c)); [field|rewrite U; ring].
Qed.
(** C239: in vertical pictures a rotor is a vertical line of length D at the right place if the direction is the default, 270 *)
Theorem C239_rotor_vertical k t : k <> PXY -> exists p q, rotor_line (default_labels k) t = Ok (p, q) /\ is_line p q (in_picture k 270 (hub t)) (tD t) (1, 0).
Proof.
  intros K. assert (A : wd2uv 270 1 = (1, 0)).
  { unfold wd2uv, wd2wdvec. cbn [fst snd]. replace (270 * PI / 180) with (PI + PI / 2) by field. rewrite sin_plus, cos_plus, sin_PI, cos_PI, sin_PI2, cos_PI2. f_equal; ring. }
  destruct k; [contradiction| |]; (eexists; eexists; split; [reflexivity|]); unfold is_line, in_picture, hub, axis_y, cross, axis_x, axis_z, dot, vx, vy, vz; rewrite A; cbn [fst snd]; repeat split; field.
Qed.
(** C239, refuted: the line is not at the place of the turbine in pictures of another direction: the horizontal coordinate is X (or Y) itself *)
Theorem C239_direction_refuted dir t p q : (rotor_line (default_labels PXZ) t = Ok (p, q) -> (fst p = fst (in_picture PXZ dir (hub t)) <-> tX t = tX t * fst (wd2uv dir 1) + tY t * snd (wd2uv dir 1))) /\
  exists t', fst (in_picture PXZ 90 (hub t')) = -1000 /\ exists p' q', rotor_line (default_labels PXZ) t' = Ok (p', q') /\ fst p' = 1000.
Proof.
  split.
  - intros H. cbn in H. injection H as <- <-. cbn [fst]. unfold in_picture, hub, dot, axis_x, vx, vy, vz. cbn [fst snd]. split; intros E; lra.
  - exists {| tD := 100; tH := 100; tX := 1000; tY := 0; t_angle := 90 |}. split; [|eexists; eexists; split; [reflexivity|cbn; ring]].
    unfold in_picture, hub, dot, axis_x, vx, vy, vz, wd2uv, wd2wdvec. cbn [fst snd tX tY tH]. replace (90 * PI / 180) with (PI / 2) by field. rewrite sin_PI2, cos_PI2. ring.
Qed.
(** C239, refuted: with labels of one's own (translations, kilometres) the rotors raise UnboundLocalError *)
Theorem C239_labels_refuted l t : (forall k, l <> default_labels k) -> rotor_line l t = Err NameError.
Proof. intros H. destruct l as [a b]. pose proof (H PXY). pose proof (H PXZ). pose proof (H PYZ). destruct a, b; cbn in *; try reflexivity; contradiction. Qed.
(** C239: wind arrows in horizontal pictures are the wind vectors *)
Theorem C239_arrow_xy wd ws : arrow wd ws = in_picture PXY 270 (wind wd ws).
Proof. unfold arrow, in_picture, wind, vx, vy. cbn [fst snd]. destruct (wd2uv wd ws); reflexivity. Qed.
(** C239, refuted: in vertical pictures the arrow has the north-south component of the wind as vertical component, and the west-east component as horizontal component, whatever the direction of the picture *)
Theorem C239_arrow_refuted k dir wd ws : k <> PXY -> (arrow wd ws = in_picture k dir (wind wd ws) <-> snd (wd2uv wd ws) = 0 /\ fst (wd2uv wd ws) = fst (in_picture k dir (wind wd ws))).
Proof.
  intros K. unfold arrow. assert (Z : snd (in_picture k dir (wind wd ws)) = 0) by (destruct k; [contradiction|reflexivity|reflexivity]).
  destruct (wd2uv wd ws) as [u v] eqn:E. destruct (in_picture k dir (wind wd ws)) as [a b]. cbn [fst snd] in *. subst b. split; [intros H; injection H as -> ->; auto|intros [-> ->]; reflexivity].
Qed.
(** ... for example southerly wind of 10 m/s, seen along the wind: the arrow points up instead of along the axis *)
Theorem C239_arrow_up_refuted : arrow 180 10 = (0, 10) /\ in_picture PXZ 180 (wind 180 10) = (10, 0).
Proof.
  unfold arrow, in_picture, wind, dot, axis_x, vx, vy, vz, wd2uv, wd2wdvec. cbn [fst snd]. replace (180 * PI / 180) with PI by field. rewrite sin_PI, cos_PI. split; f_equal; ring.
Qed.
(** C239: the value drawn at (x_i, y_j) is the one calculated at this point, which is number i * n_y + j of the grid *)
Theorem C239_pixel nx ny d i j : (i < nx)%nat -> (j < ny)%nat -> pixel nx ny d i j = nth (i * ny + j) d 0.
Proof.
  intros I J. unfold pixel. set (rows := map (fun i => map (fun j => nth (i * ny + j) d 0) (seq 0 ny)) (seq 0 nx)). set (f := fun i => nth j (nth i rows []) 0).
  rewrite (nth_indep _ 0 (f 0%nat)) by (rewrite map_length, seq_length; exact I). rewrite (map_nth f), seq_nth by exact I. unfold f, rows. cbn [Nat.add].
  set (g := fun i => map (fun j => nth (i * ny + j) d 0) (seq 0 ny)). rewrite (nth_indep _ [] (g 0%nat)) by (rewrite map_length, seq_length; exact I). rewrite (map_nth g), seq_nth by exact I. unfold g. cbn [Nat.add].
  set (h := fun j => nth (i * ny + j) d 0). rewrite (nth_indep _ 0 (h 0%nat)) by (rewrite map_length, seq_length; exact J). rewrite (map_nth h), seq_nth by exact J. reflexivity.
Qed.
(** C239: the figure is returned if there is a colour bar or the figure was given; (refuted) without both nothing is returned although a figure was created *)
Theorem C239_figure_refuted fig new : ret_fig fig new true = Some (match fig with Some f => f | None => new end) /\ (forall f b, ret_fig (Some f) new b = Some f) /\ ret_fig None new false = None.
Proof. split; [reflexivity|]. split; [intros f [|]; reflexivity|reflexivity]. Qed.
(** C239, refuted: the horizontal axis of mean yz pictures is labelled x; the rotor test would take it for an xz picture *)
Theorem C239_mean_label_refuted : mean_labels PYZ = default_labels PXZ /\ mean_labels PYZ <> default_labels PYZ /\ mean_labels PXY = default_labels PXY /\ mean_labels PXZ = default_labels PXZ.
Proof. repeat split; discriminate. Qed.
Print Assumptions C239_rotor_xy.
Print Assumptions C239_rotor_vertical.
Print Assumptions C239_direction_refuted.
Print Assumptions C239_labels_refuted.
Print Assumptions C239_arrow_xy.
Print Assumptions C239_arrow_refuted.
Print Assumptions C239_arrow_up_refuted.
Print Assumptions C239_pixel.
Print Assumptions C239_figure_refuted.
Print Assumptions C239_mean_label_refuted.
Example C239_witness : pixel 2 3 [1; 2; 3; 4; 5; 6] 1 2 = 6 /\ rotor_line (LX, LOther) {| tD := 100; tH := 100; tX := 1000; tY := 0; t_angle := 90 |} = Err NameError.
Proof. split; [now rewrite C239_pixel by lia|apply C239_labels_refuted; intros [| |]; discriminate]. Qed.
