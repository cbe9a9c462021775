(** C258: wakes that are mirrored at the ground or at other horizontal planes. *)
From Verif Require Import RBase Superp_Model Superp_Spec Curves_Model Curves_Spec Symm_Model Whole_Model Whole_Spec Whole_Proofs Whole_Props Flow_Model Flow_Spec Flow_Proofs More_Spec More_Proofs More_Props
  Ground_Model Ground_Spec Ground_Proofs.
Local Open Scope R_scope.

(** A farm calculation with mirror planes returns the one and only set of results in which every turbine has the wind speed that the superposed wakes of all turbines and of all their images leave over at its hub, and the
    thrust and the power that belong to it. *)
Theorem C258_only_balanced_results : forall c hs farm, good_scene c -> good_farm farm ->
  exists res, mirror_farm c hs farm = Ok res /\ mirror_balanced c hs farm res /\ forall ys, mirror_balanced c hs farm ys -> ys = res.
Proof. intros c hs farm HS HF. exact (mirror_result c hs farm HS HF). Qed.
Print Assumptions C258_only_balanced_results.
(** No turbine has more wind than the state nor less than the lower limit; with power curves that do not fall no turbine produces more than alone. *)
Theorem C258_bounds : forall c hs farm res, good_scene c -> good_farm farm -> mirror_farm c hs farm = Ok res -> forall j, (j < length farm)%nat ->
  r_ws (nth j res no_res) <= c_wsp c /\ (forall l, c_low c = Some l -> l <= r_ws (nth j res no_res)) /\
  (let y := t_set (nth j farm no_turb) in Curves_Spec.increasing (y_P y) -> c_wsp c <= fst (last (y_P y) (0, 0)) -> exists full, interp (y_P y) (c_wsp c) = Ok full /\ r_p (nth j res no_res) <= full).
Proof.
  intros c hs farm res HS HF E j Hj. destruct (mirror_result c hs farm HS HF) as (r & E' & B & _). rewrite E in E'. injection E' as <-. split; [rewrite <- (gwind_hub c hs farm res B j Hj); now apply gwind_below|]. split; [intros l El; rewrite <- (gwind_hub c hs farm res B j Hj); now apply gwind_low|].
  intros y Hi Hl. exists (value (y_P y) (c_wsp c)). split; [|now apply (gpower c hs farm HS HF res B j Hj)]. apply value_ok. destruct (HF _ (nth_In farm no_turb Hj)) as [(_ & Y & _) _]. exact Y.
Qed.
Print Assumptions C258_bounds.
(** calc_points returns the wind speed that all turbines and images leave over: the wind of the turbines at the hubs, nowhere more than the wind of the state, and all of it at points out of reach of all turbines and all images. *)
Theorem C258_points : forall c hs farm res, good_scene c -> good_farm farm -> mirror_farm c hs farm = Ok res ->
  (forall p, mirror_point c hs farm res p = {| p_ws := mirror_wind c hs farm res p; p_amb := c_wsp c |}) /\
  (forall p, mirror_wind c hs farm res p <= c_wsp c) /\
  (forall j, (j < length farm)%nat -> p_ws (mirror_point c hs farm res (t_pos (nth j farm no_turb))) = r_ws (nth j res no_res)) /\
  (forall p, (forall s, In s farm -> out_of_reach c s p /\ forall h, In h hs -> out_of_reach c (image h s) p) -> p_ws (mirror_point c hs farm res p) = c_wsp c).
Proof.
  intros c hs farm res HS HF E. destruct (mirror_result c hs farm HS HF) as (r & E' & B & _). rewrite E in E'. injection E' as <-. split; [intros p; now apply gpoint|]. split; [intros p; now apply gwind_below|]. split.
  - intros j Hj. rewrite gpoint by assumption. cbn [p_ws]. now apply gwind_hub.
  - intros p H. rewrite gpoint by assumption. cbn [p_ws]. now apply gundisturbed.
Qed.
Print Assumptions C258_points.
(** With one plane the wind is the same at every point and at its mirror image: no flow through the plane. *)
Theorem C258_one_plane_symmetric : forall c h farm res p, good_scene c -> good_farm farm -> mirror_farm c [h] farm = Ok res ->
  p_ws (mirror_point c [h] farm res (vx p, vy p, h + vz p)) = p_ws (mirror_point c [h] farm res (vx p, vy p, h - vz p)).
Proof.
  intros c h farm res p HS HF E. destruct (mirror_result c [h] farm HS HF) as (r & E' & B & _). rewrite E in E'. injection E' as <-. rewrite !gpoint by assumption. cbn [p_ws]. rewrite <- (mirror_symmetric c h farm res (vx p, vy p, h + vz p) HS HF B).
  f_equal. unfold image_point, vx, vy, vz. cbn [fst snd]. f_equal. ring.
Qed.
Print Assumptions C258_one_plane_symmetric.
(** Without planes: the results of Downwind without a ground model. *)
Theorem C258_no_planes : forall c farm, good_scene c -> good_farm farm -> mirror_farm c [] farm = farm_results c farm.
Proof.
  intros c farm HS HF. destruct (mirror_result c [] farm HS HF) as (r & E & B & _). destruct (result_balanced c farm HS HF) as (r' & E' & _ & U). rewrite E, E'. f_equal. apply U. now apply mirror_none.
Qed.
Print Assumptions C258_no_planes.
(** Planes with images whose wakes reach no hub change nothing. *)
Theorem C258_far_planes : forall c hs more farm, good_scene c -> good_farm farm -> (forall s h t, In s farm -> In h more -> In t farm -> out_of_reach c (image h s) (t_pos t)) ->
  mirror_farm c (hs ++ more) farm = mirror_farm c hs farm.
Proof.
  intros c hs more farm HS HF H. destruct (mirror_result c hs farm HS HF) as (r & E & B & _). destruct (mirror_result c (hs ++ more) farm HS HF) as (r' & E' & B' & _). rewrite E, E'. f_equal. exact (gsame c hs more farm r r' HS HF B B' H).
Qed.
Print Assumptions C258_far_planes.
(** Further planes take wind or leave it as it is, at all turbines and points, if the deficits refer to the ambient wind speed and the thrust coefficients do not fall with less wind (Gaussian wakes: are the same). *)
Theorem C258_planes_take_wind : forall c hs more farm, good_scene c -> good_farm farm -> of_ambient c -> (forall t, In t farm -> steady_thrust c (t_set t)) ->
  exists res res', mirror_farm c hs farm = Ok res /\ mirror_farm c (hs ++ more) farm = Ok res' /\
    (forall j, (j < length farm)%nat -> r_ws (nth j res' no_res) <= r_ws (nth j res no_res)) /\
    (forall p, p_ws (mirror_point c (hs ++ more) farm res' p) <= p_ws (mirror_point c hs farm res p)).
Proof.
  intros c hs more farm HS HF HA HT. destruct (mirror_result c hs farm HS HF) as (r & E & B & _). destruct (mirror_result c (hs ++ more) farm HS HF) as (r' & E' & B' & _). exists r, r'. split; [exact E|]. split; [exact E'|].
  assert (W : forall j, (j < length farm)%nat -> r_ws (nth j r' no_res) <= r_ws (nth j r no_res)) by (intros j Hj; exact (gwind_less c hs more farm r r' HS HF B B' j HA HT Hj)). split; [exact W|].
  intros p. rewrite !gpoint by assumption. cbn [p_ws]. apply (gpoint_less c hs more farm r r' HS HF B B' p HA HT). intros i Hi _. now apply W.
Qed.
Print Assumptions C258_planes_take_wind.
(** A turbine with its hub at the height z. *)
Definition at_z (z : R) : turb ttype := mkturb (0, 0, z) 100 tube.
Lemma at_z_good z : good_farm [at_z z].
Proof. intros t [<-|[]]. destruct (tube_good (at_xy 0 0)) as [G _]; [cbn; auto|]. split; [exact G|]. cbn. lra. Qed.
(** its wake in the west wind of [west_amb] 500 m behind it *)
Lemma at_z_effect z f z' : r_ct f = 8 / 9 -> (Rabs (z' - z) < 50 -> effect west_amb (at_z z) f (probe (500, 0, z')) = Some (10, - (2 / 3))) /\ (50 <= Rabs (z' - z) -> out_of_reach west_amb (at_z z) (500, 0, z')).
Proof.
  intros Hc. assert (S1 : sin (270 * PI / 180) = -1). { replace (270 * PI / 180) with (3 * (PI / 2)) by field. apply sin_3PI2. }
  assert (K1 : cos (270 * PI / 180) = 0). { replace (270 * PI / 180) with (3 * (PI / 2)) by field. apply cos_3PI2. }
  assert (X : behind 270 (at_z z) (probe (500, 0, z')) = 500). { unfold behind. rewrite S1, K1. cbn. unfold vx, vy. cbn. lra. }
  assert (B : beside 270 (at_z z) (probe (500, 0, z')) = Rabs (z' - z)). { unfold beside. rewrite S1, K1. cbn. unfold vx, vy, vz. cbn [fst snd]. rewrite <- sqrt_Rsqr_abs. unfold Rsqr. f_equal. ring. }
  split; intros H.
  - unfold effect. change (c_wd west_amb) with 270. rewrite X, B, Hc. destruct (Rlt_dec _ _) as [L|L]; [|exfalso; lra]. destruct (Rlt_dec _ _) as [L'|L']; [|exfalso; lra]. change (c_amb west_amb) with true. cbv iota. f_equal. f_equal.
    unfold formula. change (c_def west_amb) with Jensen. cbv iota. cbn [at_z t_diam t_set tube y_k]. destruct (Rlt_dec _ _) as [Q|Q]; [|exfalso; lra]. unfold induction. change (c_ctmax west_amb) with (99/100). rewrite Rmin_left by lra.
    replace (1 - 8 / 9) with ((1/3) * (1/3)) by lra. rewrite sqrt_square by lra. replace (100 + 2 * 0 * 500) with 100 by ring. replace (100 / 100) with 1 by lra. lra.
  - right. split; [reflexivity|]. change (c_wd west_amb) with 270. rewrite X, B. cbn. lra.
Qed.
Lemma at_z_hub z h hs res : mirror_balanced west_amb hs [at_z z] res -> h = nth 0 res no_res -> r_ct h = 8 / 9.
Proof.
  intros B ->. assert (U : mirror_wind west_amb hs [at_z z] res (0, 0, z) = 10).
  { apply gundisturbed; [exact west_amb_good|apply at_z_good|exact B|]. intros s [<-|[]]. split; [|intros h _]; left; unfold behind; cbn; unfold vx, vy; cbn; lra. }
  destruct B as [_ B]. destruct (B 0%nat (Nat.lt_0_succ _)) as (_ & C & _). cbv zeta in C. cbn [nth at_z t_pos t_set] in C. rewrite U in C. rewrite tube_ct in C by lra. now injection C as <-.
Qed.
(** With two planes the planes need not be planes of symmetry: a turbine between the ground and a plane at 200 m has images at -100 m and 300 m, but none at -300 m; the wind speeds 500 m behind it are 10/3 m/s at 300 m and 10 m/s at -300 m. *)
Theorem C258_two_planes_not_symmetric : exists c h1 h2 farm res p, good_scene c /\ good_farm farm /\ mirror_farm c [h1; h2] farm = Ok res /\ h1 < h2 /\ (forall t, In t farm -> h1 < vz (t_pos t) < h2) /\
  p_ws (mirror_point c [h1; h2] farm res (vx p, vy p, h1 + vz p)) = 10 / 3 /\ p_ws (mirror_point c [h1; h2] farm res (vx p, vy p, h1 - vz p)) = 10.
Proof.
  destruct (mirror_result west_amb [0; 200] [at_z 100] west_amb_good (at_z_good 100)) as (res & E & B & _). exists west_amb, 0, 200, [at_z 100], res, (500, 0, 300). split; [exact west_amb_good|]. split; [apply at_z_good|]. split; [exact E|]. split; [lra|]. split; [intros t [<-|[]]; cbn; unfold vz; cbn; lra|].
  pose proof (at_z_hub 100 _ [0; 200] res B eq_refl) as Hc. rewrite !gpoint by (exact west_amb_good || apply at_z_good || exact B). cbn [p_ws]. unfold vx, vy, vz. cbn [fst snd]. replace (0 + 300) with 300 by ring. replace (0 - 300) with (-300) by ring.
  assert (I1 : image 0 (at_z 100) = at_z (-100)) by (unfold image, at_z; cbn; unfold vx, vy, vz; cbn; f_equal; f_equal; ring). assert (I2 : image 200 (at_z 100) = at_z 300) by (unfold image, at_z; cbn; unfold vx, vy, vz; cbn; f_equal; f_equal; ring). split.
  - rewrite (gwind_final west_amb [0; 200] [at_z 100] west_amb_good (at_z_good 100) res _ B). rewrite <- spec_effects. unfold with_images. cbn [length seq flat_map nth map app fst snd]. rewrite I1, I2.
    destruct (at_z_effect 100 (nth 0 res no_res) 300 Hc) as [_ A1]. destruct (at_z_effect (-100) (nth 0 res no_res) 300 Hc) as [_ A2]. destruct (at_z_effect 300 (nth 0 res no_res) 300 Hc) as [A3 _]. rewrite A3 by (rewrite Rabs_right; lra).
    assert (R1 : out_of_reach west_amb (at_z 100) (500, 0, 300)) by (apply A1; rewrite Rabs_right; lra). assert (R2 : out_of_reach west_amb (at_z (-100)) (500, 0, 300)) by (apply A2; rewrite Rabs_right; lra).
    destruct (reach_effect _ _ (nth 0 res no_res) _ R1) as [-> |[s1 ->]]; destruct (reach_effect _ _ (nth 0 res no_res) _ R2) as [-> |[s2 ->]]; unfold final_wake, wake_delta, final_delta, clamp; cbn; unfold Rmax; repeat destruct (Rle_dec _ _); lra.
  - apply gundisturbed; [exact west_amb_good|apply at_z_good|exact B|]. intros s [<-|[]]. split; [|intros h [<-|[<-|[]]]; rewrite ?I1, ?I2]; apply (at_z_effect _ (nth 0 res no_res) _ Hc); rewrite Rabs_left; lra.
Qed.
Print Assumptions C258_two_planes_not_symmetric.
(** A low turbine and its image in the ground: 500 m behind it the wind speed is 10/3 m/s at the height of 80 m without a ground model and with one, and at the ground 10/3 m/s without and 0 with one. *)
Example C258_nonvacuous : good_scene west_amb /\ good_farm [at_z 40] /\ of_ambient west_amb /\ (forall t, In t [at_z 40] -> steady_thrust west_amb (t_set t)) /\
  exists res, mirror_farm west_amb [0] [at_z 40] = Ok res /\ mirror_wind west_amb [0] [at_z 40] res (500, 0, 80) = 10 / 3 /\ mirror_wind west_amb [0] [at_z 40] res (500, 0, 0) = 0 /\ mirror_wind west_amb [] [at_z 40] res (500, 0, 0) = 10 / 3.
Proof.
  split; [exact west_amb_good|]. split; [apply at_z_good|]. split; [now left|]. split; [intros t [<-|[]]; now apply tube_steady|].
  destruct (mirror_result west_amb [0] [at_z 40] west_amb_good (at_z_good 40)) as (res & E & B & _). exists res. split; [exact E|]. pose proof (at_z_hub 40 _ [0] res B eq_refl) as Hc.
  assert (I1 : image 0 (at_z 40) = at_z (-40)) by (unfold image, at_z; cbn; unfold vx, vy, vz; cbn; f_equal; f_equal; ring).
  unfold mirror_wind, with_images. cbn [length seq flat_map nth map app fst snd]. rewrite I1. split; [|split].
  - rewrite (proj1 (at_z_effect 40 _ 80 Hc)) by (rewrite Rabs_right; lra). destruct (reach_effect _ _ (nth 0 res no_res) _ (proj2 (at_z_effect (-40) _ 80 Hc) ltac:(rewrite Rabs_right; lra))) as [-> |[s1 ->]];
    unfold limited; cbn; unfold Rmax; repeat destruct (Rle_dec _ _); lra.
  - rewrite (proj1 (at_z_effect 40 _ 0 Hc)) by (rewrite Rabs_left; lra). rewrite (proj1 (at_z_effect (-40) _ 0 Hc)) by (rewrite Rabs_right; lra). unfold limited; cbn; unfold Rmax; repeat destruct (Rle_dec _ _); lra.
  - rewrite (proj1 (at_z_effect 40 _ 0 Hc)) by (rewrite Rabs_left; lra). unfold limited; cbn; unfold Rmax; repeat destruct (Rle_dec _ _); lra.
Qed.
