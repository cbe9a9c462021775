(** C257: complete farm calculations with rotors of several points. *)
From Verif Require Import RBase WindDir_Model Rotor_Model Rotor_Spec Rotor_Proofs Superp_Model Superp_Spec Curves_Model Curves_Spec Curves_Proofs Symm_Model Whole_Model Whole_Spec Whole_Proofs Whole_Props Flow_Model Flow_Spec Flow_Proofs
  Rotors_Model Rotors_Spec Rotors_Proofs.
Local Open Scope R_scope.

(** One and only one set of results is in balance, and it is the one that is returned. *)
Theorem C257_only_balanced_results : forall c rule farm, good_scene c -> floor_at_zero c -> good_weights rule -> good_farm farm ->
  exists res, rotor_farm c rule farm = Ok res /\ rotor_balanced c rule farm res /\ forall other, rotor_balanced c rule farm other -> other = res.
Proof. intros c rule farm HS HL HW HF. exact (rotor_result c rule farm HS HL HW HF). Qed.
Print Assumptions C257_only_balanced_results.
(** The mean is not above the root of the mean square, that is not above the cube root of the mean cube, that is not above the undisturbed wind; and the mean is not below the lower limit. *)
Theorem C257_wind_speeds : forall c rule farm res j, good_scene c -> floor_at_zero c -> good_weights rule -> good_farm farm -> rotor_farm c rule farm = Ok res -> (j < length farm)%nat ->
  let f := nth j res no_rres in q_ws f <= q_ws2 f <= q_ws3 f /\ q_ws3 f <= c_wsp c /\ forall l, c_low c = Some l -> l <= q_ws f.
Proof.
  intros c rule farm res j HS HL HW HF E Hj f. destruct (rotor_nonneg c rule farm HS HL HW HF res E) as (L & P & _ & B). specialize (B j Hj). cbv zeta in B. fold f in B. destruct B as (B1 & (B2 & B2') & (B3 & B3') & _).
  set (u := fun p => wind_at c farm (map as_tres res) (on_rotor (c_wd c) (nth j farm no_turb) p)) in *. assert (U : forall p, 0 <= u p <= c_wsp c /\ forall l, c_low c = Some l -> l <= u p) by (intros p; now apply wind_range).
  split; [|split].
  - exact (means_order rule u _ _ _ HW (fun p _ => proj1 (proj1 (U p))) B1 B2 B2' B3 B3').
  - destruct (Rle_lt_dec (q_ws3 f) (c_wsp c)) as [K|K]; [exact K|exfalso]. pose proof (mean_below rule 3 u (c_wsp c) HW (fun p _ => proj1 (U p))). pose proof (pow_strict 2 (c_wsp c) (q_ws3 f) ltac:(left; apply HS) K). lra.
  - intros l El. rewrite B1. pose proof (mean_lin rule 0 l 1 u 1 1 HW) as G. assert (0 * mean_power rule 1 u + l <= 1 * mean_power rule 1 u); [|lra]. apply G. intros p _. destruct (U p) as [_ Ul]. specialize (Ul l El). cbn [pow]. lra.
Qed.
Print Assumptions C257_wind_speeds.
(** A turbine that is behind no other one, or with Jensen wakes one whose rotor points are all beside the wakes, has the undisturbed wind. *)
Theorem C257_undisturbed : forall c rule farm res j, good_scene c -> floor_at_zero c -> good_weights rule -> good_farm farm -> rotor_farm c rule farm = Ok res -> (j < length farm)%nat ->
  (forall i, (i < length farm)%nat -> let s := nth i farm no_turb in let t := nth j farm no_turb in
     behind (c_wd c) s t <= 0 \/ (c_def c = Jensen /\ forall p, In p rule -> t_diam s / 2 + y_k (t_set s) * behind (c_wd c) s t <= beside (c_wd c) s (probe (on_rotor (c_wd c) t p)))) ->
  let f := nth j res no_rres in q_ws f = c_wsp c /\ q_ws2 f = c_wsp c /\ q_ws3 f = c_wsp c.
Proof.
  intros c rule farm res j HS HL HW HF E Hj H f. destruct (rotor_nonneg c rule farm HS HL HW HF res E) as (L & P & _ & B). specialize (B j Hj). cbv zeta in B. fold f in B. destruct B as (B1 & (B2 & B2') & (B3 & B3') & _).
  assert (U : forall p, In p rule -> wind_at c farm (map as_tres res) (on_rotor (c_wd c) (nth j farm no_turb) p) = c_wsp c).
  { intros p Hp. apply wind_undisturbed'; auto. intros i Hi. cbv zeta. rewrite behind_rotor. destruct (H i Hi) as [K|[K1 K2]]; [now left|]. right. auto. }
  rewrite (mean_const rule 1 _ _ HW U) in B1. rewrite (mean_const rule 2 _ _ HW U) in B2'. rewrite (mean_const rule 3 _ _ HW U) in B3'. assert (W : 0 <= c_wsp c) by (left; apply HS). split; [rewrite B1; cbn; ring|]. split; [now apply (pow_inj 1)|now apply (pow_inj 2)].
Qed.
Print Assumptions C257_undisturbed.
(** With power curves that do not fall up to the wind speed of the state, no turbine produces more than alone. *)
Theorem C257_power : forall c rule farm res j, good_scene c -> floor_at_zero c -> good_weights rule -> good_farm farm -> rotor_farm c rule farm = Ok res -> (j < length farm)%nat ->
  let y := t_set (nth j farm no_turb) in Curves_Spec.increasing (y_P y) -> c_wsp c <= fst (last (y_P y) (0, 0)) ->
  exists alone, interp (y_P y) (c_wsp c) = Ok alone /\ q_p (nth j res no_rres) <= alone.
Proof.
  intros c rule farm res j HS HL HW HF E Hj y Hi Hl. destruct (C257_wind_speeds c rule farm res j HS HL HW HF E Hj) as (_ & Hu & _). destruct (rotor_nonneg c rule farm HS HL HW HF res E) as (_ & _ & _ & B). specialize (B j Hj). cbv zeta in B. destruct B as (_ & _ & _ & _ & B).
  fold y in B. destruct (HF _ (nth_In farm no_turb Hj)) as [(_ & Y2 & _ & Y4 & _ & Y6 & _) _]. fold y in Y2, Y4, Y6. destruct (interp_mono _ _ _ Y4 Hi Y6 Hu Hl Y2) as (a & b & A & A' & C). exists b. split; [exact A'|]. rewrite B in A. injection A as ->. exact C.
Qed.
Print Assumptions C257_power.
(** The rotor averages are the averages of what calc_points returns at the rotor points with these farm results. *)
Theorem C257_points : forall c rule farm res j, good_scene c -> floor_at_zero c -> good_weights rule -> good_farm farm -> rotor_farm c rule farm = Ok res -> (j < length farm)%nat ->
  let at_rotor p := p_ws (at_point c farm (map as_tres res) (on_rotor (c_wd c) (nth j farm no_turb) p)) in
  q_ws (nth j res no_rres) = mean_power rule 1 at_rotor /\ q_ws2 (nth j res no_rres) ^ 2 = mean_power rule 2 at_rotor /\ q_ws3 (nth j res no_rres) ^ 3 = mean_power rule 3 at_rotor.
Proof.
  intros c rule farm res j HS HL HW HF E Hj at_rotor. destruct (rotor_nonneg c rule farm HS HL HW HF res E) as (L & P & _ & B). specialize (B j Hj). cbv zeta in B. destruct B as (B1 & (_ & B2) & (_ & B3) & _).
  assert (K : forall k, mean_power rule k at_rotor = mean_power rule k (fun p => wind_at c farm (map as_tres res) (on_rotor (c_wd c) (nth j farm no_turb) p))).
  { intros k. apply mean_ext. intros p _. unfold at_rotor. apply (at_point_rotor c farm HS HF); [now rewrite map_length|exact P]. }
  rewrite !K. auto.
Qed.
Print Assumptions C257_points.
(** With the one point of the centre rotor these are the results of C250. *)
Theorem C257_centre_rotor : forall c farm, good_scene c -> floor_at_zero c -> good_farm farm -> exists res, rotor_farm c centre_points farm = Ok res /\ farm_results c farm = Ok (map as_tres res).
Proof.
  intros c farm HS HL HF. assert (HW : good_weights centre_points) by (split; [intros p [<-|[]]; cbn; lra|cbn; lra]).
  destruct (C257_only_balanced_results c centre_points farm HS HL HW HF) as (res & E & B & _). exists res. split; [exact E|]. destruct (C250_only_balanced_results c farm HS HF) as (r & E' & _ & U). rewrite E'. f_equal. symmetry. apply U. now apply centre_balanced.
Qed.
Print Assumptions C257_centre_rotor.
(** All rotor models that are modelled have such weights. *)
Lemma rule_weights rule : good_rule rule -> good_weights rule.
Proof. intros (A & B & _). split; assumption. Qed.
(** Two points of equal weight; the second turbine stands 100 m beside the axis of a wake of radius 100 m: one of the points is in the wake, 10 (1 - 1/6) m/s, the other one not. *)
Definition two_points : list rpt := [{| py := 1 / 2; pz := 0; pw := 1 / 2 |}; {| py := -1 / 2; pz := 0; pw := 1 / 2 |}].
Definition half2 : list (turb ttype) := [mkturb (1000, 100, 100) 100 flat; mkturb (0, 0, 100) 100 flat].
Example C257_nonvacuous : good_rule two_points /\ good_scene west /\ floor_at_zero west /\ good_farm half2 /\ exists a b, rotor_farm west two_points half2 = Ok [a; b] /\ q_ws b = 10 /\ q_ws a = 10 * (1 - 1 / 12) /\ q_ws a < q_ws2 a.
Proof.
  destruct C250_nonvacuous as (HS & HF0 & _). assert (HR : good_rule two_points). { unfold good_rule, two_points. cbn. repeat split; intros; repeat match goal with H : _ \/ _ |- _ => destruct H as [<-|H] end; try contradiction; cbn; lra. }
  assert (HL : floor_at_zero west) by (exists 0; split; [reflexivity|lra]).
  assert (HY : good_type flat) by (apply (HF0 _ (or_introl eq_refl))). assert (HF : good_farm half2). { intros t [<-|[<-|[]]]; cbn; (split; [exact HY|lra]). }
  split; [exact HR|]. split; [exact HS|]. split; [exact HL|]. split; [exact HF|]. pose proof (rule_weights _ HR) as HW.
  destruct (C257_only_balanced_results west two_points half2 HS HL HW HF) as (res & E & (L & B) & _). destruct res as [|a [|b [|]]]; try discriminate L. exists a, b. split; [exact E|].
  assert (S1 : sin (270 * PI / 180) = -1). { replace (270 * PI / 180) with (3 * (PI / 2)) by field. apply sin_3PI2. }
  assert (K1 : cos (270 * PI / 180) = 0). { replace (270 * PI / 180) with (3 * (PI / 2)) by field. apply cos_3PI2. }
  destruct (C257_undisturbed west two_points half2 [a; b] 1 HS HL HW HF E ltac:(cbn; lia)) as (Hb & Hb2 & _).
  { intros i Hi. left. unfold behind. cbn [west c_wd]. rewrite S1, K1. cbn in Hi. destruct i as [|[|i]]; [| |lia]; cbn; lra. }
  cbn [nth] in Hb, Hb2. cbn [west c_wsp] in Hb, Hb2. split; [exact Hb|].
  assert (Cb : q_ct b = 8/9). { pose proof (B 1%nat ltac:(cbn; lia)) as B1. cbv zeta in B1. cbn [nth half2 t_set flat y_C] in B1. destruct B1 as (_ & _ & _ & B1 & _). rewrite Hb2 in B1. rewrite value_ok in B1 by discriminate. injection B1 as <-.
    unfold value, interp. cbn [last fst]. replace (Rltb 10 0) with false by (symmetry; apply Rltb_false; lra). replace (Rltb 20 10) with false by (symmetry; apply Rltb_false; lra). cbn [interp_from]. destruct (Rltb 10 20); lra. }
  set (t1 := mkturb (1000, 100, 100) 100 flat) in *. set (t2 := mkturb (0, 0, 100) 100 flat) in *.
  assert (EF : forall p (v : R), (py p = 1/2 /\ v = 0 \/ py p = -1/2 /\ v = - (1/6)) -> pz p = 0 -> effect west t2 (as_tres b) (probe (on_rotor 270 t1 p)) = Some (10, v)).
  { intros p v Hp Hz. unfold effect. cbn [west c_wd c_wsp c_amb as_tres r_ct r_ws]. rewrite behind_rotor. assert (X : behind 270 t2 t1 = 1000). { unfold behind. rewrite S1, K1. cbn. unfold vx, vy. cbn. lra. }
    rewrite X, Cb, Hb. destruct (Rlt_dec 1e-8 1000) as [_|Q]; [|exfalso; lra]. destruct (Rlt_dec 1e-8 (8/9)) as [_|Q]; [|exfalso; lra]. cbn [t_diam t2 t_set flat y_k]. apply f_equal. apply f_equal2; [reflexivity|].
    assert (Y : beside 270 t2 (probe (on_rotor 270 t1 p)) = 100 + 50 * py p). { unfold beside, on_rotor, probe. cbn [t_pos t1 t2 t_diam]. rewrite S1, K1. unfold vx, vy, vz. cbn [fst snd]. rewrite Hz. transitivity (sqrt ((100 + 50 * py p) * (100 + 50 * py p))); [f_equal; field|]. apply sqrt_square. lra. }
    rewrite Y. unfold formula. cbn [west c_def c_ctmax]. unfold induction. rewrite Rmin_left by lra. replace (1 - 8/9) with (1/3 * (1/3)) by lra. rewrite sqrt_square by lra. destruct Hp as [[-> ->]|[-> ->]]; destruct (Rlt_dec _ _); lra. }
  assert (E0 : forall p, effect west t1 (as_tres a) (probe (on_rotor 270 t1 p)) = None). { intros p. apply effect_self. rewrite behind_rotor. unfold behind. lra. }
  assert (WA : forall p (v : R), (py p = 1/2 /\ v = 0 \/ py p = -1/2 /\ v = - (1/6)) -> pz p = 0 -> wind_at west half2 [as_tres a; as_tres b] (on_rotor 270 t1 p) = 10 * (1 + v)).
  { intros p v Hp Hz. unfold wind_at. cbn [half2 length seq map nth]. fold t1 t2. rewrite E0, (EF p v Hp Hz). cbn [west c_s c_low c_high c_wsp combination]. unfold absol, Superp_Spec.covering. cbn [flat_map app map fst snd rsum limited]. rewrite Rmax_left; lra. }
  pose proof (B 0%nat ltac:(cbn; lia)) as B0. cbv zeta in B0. cbn [nth half2] in B0. fold t1 t2 in B0. destruct B0 as (B1 & (B2 & B2') & _). unfold mean_power in B1, B2'. cbn [two_points map] in B1, B2'. change [t1; t2] with half2 in B1, B2'. change (c_wd west) with 270 in B1, B2'.
  rewrite (WA {| py := 1/2; pz := 0; pw := 1/2 |} 0) in B1, B2' by (cbn; auto). rewrite (WA {| py := -1/2; pz := 0; pw := 1/2 |} (- (1/6))) in B1, B2' by (cbn; auto). cbn in B1, B2'. split; [lra|].
  destruct (Rlt_le_dec (q_ws a) (q_ws2 a)) as [K|K]; [exact K|exfalso]. assert (Q : q_ws a = 10 * (1 - 1/12)) by lra. rewrite Q in K. nra.
Qed.
