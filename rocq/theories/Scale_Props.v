(** C231: results do not depend on the size of the wind farm, if everything is enlarged. *)
From Coq Require Import Reals Lra.
From Flocq Require Import Core.
From Verif Require Import RBase WindDir_Model Rotor_Model Symm_Model Induction_Model TiWake_Model Blockage_Model Blockage_Proofs Yaw_Model Scale_Spec Scale_Proofs.
Local Open Scope R_scope.

(** C231: if all positions, hub heights and rotor diameters, and the wind field, are enlarged by the same factor, all results are unchanged, for wake models without
    length scale and if no evaluation point is in the first 1e-8 m behind a rotor *)
Theorem C231_enlarged : forall (P A F D W : Type) (amb0 : R -> A -> W) (ev0 : P -> W -> F) dps (dT : turb P) (dF : F) (d0 : D)
    (f f' : field A) l (ms : list (smodel P F D W)) farm,
  0 < l -> stretched l f f' -> (forall t, In t farm -> 0 < t_diam t) -> (forall m, In m ms -> scale_free l m) ->
  (forall s t q, In s farm -> In t farm -> In q dps -> clear l (vx (wake_coos (t_pos s) (wake_wd f s) (rotor_point (t_pos t) (a_wd (f (t_pos t))) (t_diam t) q)))) ->
  calc amb0 ev0 dps dT dF d0 f' ms (map (enlarged l) farm) = calc amb0 ev0 dps dT dF d0 f ms farm.
Proof. intros. now apply calc_scaled. Qed.
(** ... the wind deficits of the Jensen, Bastankhah 2014 and TurbOPark models, and the turbulence of the IEC and Crespo-Hernandez models, are without length scale, for all parameters *)
Theorem C231_deficits_partial ct2a l D k ct x r : 0 < l -> clear l x ->
  jensen_deficit ct2a (l * D) k ct (l * x) (l * r) = jensen_deficit ct2a D k ct x r
  /\ (forall sbeta, gauss_deficit ct2a sbeta (l * D) k ct (l * x) (l * r) = gauss_deficit ct2a sbeta D k ct x r)
  /\ (forall sbeta c1 c2 ati, turbo_deficit ct2a sbeta c1 c2 (l * D) k ati ct (l * x) (l * r) = turbo_deficit ct2a sbeta c1 c2 D k ati ct x r).
Proof. intros H C. repeat split; intros; [now apply jensen_scaled|now apply gauss_scaled|now apply turbo_scaled]. Qed.
Theorem C231_turbulence_partial l D ct x r : 0 < l -> clear l x ->
  (forall ty o ws, iec_ti ty o (l * D) ws ct (l * x) (l * r) = iec_ti ty o D ws ct x r)
  /\ (forall p ct2a k ti, crespo_ti p ct2a (l * D) k ti ct (l * x) (l * r) = crespo_ti p ct2a D k ti ct x r).
Proof. intros H C. split; intros; [now apply iec_scaled|now apply crespo_scaled]. Qed.
(** ... Bastankhah and Porte-Agel (2016): the deficit is without length scale, the deflection of yawed wakes is a length, for all parameters, near and far wake *)
Theorem C231_bastankhah16_partial ct2a l p x y z : 0 < l -> clear l x ->
  deficit ct2a (larger l p) (l * x) (l * y) (l * z) = deficit ct2a p x y z /\ deflection ct2a (larger l p) (l * x) = l * deflection ct2a p x.
Proof. intros L C. split; [now apply deficit_s|now apply deflection_s]. Qed.
(** ... Rankine half bodies: the velocity contributions outside of both bodies are equal (the bodies themselves are not exactly similar: additive constants and rounding) *)
Theorem C231_rankine_partial ct2a l ws D ct x y z : 0 < l ->
  let outside D x r := Rltb (rhb_shape (rhb_m ct2a ws D ct) ws (round12 x) r) (-1) || Rltb (round12 x) (rhb_xs (rhb_m ct2a ws D ct) ws) in
  outside D x (sqrt (y * y + z * z)) = true -> outside (l * D) (l * x) (sqrt (l * y * (l * y) + l * z * (l * z))) = true ->
  rankine ct2a ws (l * D) ct (l * x) (l * y) (l * z) = rankine ct2a ws D ct x y z.
Proof.
  intros L outside O O'. unfold outside in *. unfold rankine. rewrite O, O'. rewrite Bool.andb_true_r. destruct (Rltb 1e-8 ct); [|reflexivity]. rewrite cube_norm_scale by exact L.
  assert (M : rhb_m ct2a ws (l * D) ct = l * l * rhb_m ct2a ws D ct) by (unfold rhb_m; unfold Rdiv; ring). rewrite M. set (m := rhb_m ct2a ws D ct). set (n := sqrt (x * x + y * y + z * z)).
  assert (E : l * l * m / (4 * (l * n * (l * n) * (l * n))) = / l * (m / (4 * (n * n * n)))).
  { replace (4 * (l * n * (l * n) * (l * n))) with ((l * l) * (l * (4 * (n * n * n)))) by ring. rewrite div_scale by nra. unfold Rdiv. rewrite Rinv_mult. ring. }
  rewrite E. set (A := m / (4 * (n * n * n))). clearbody A. f_equal; field; lra.
Qed.
(** ... the self similar and Rathmann induction models, everywhere *)
Theorem C231_induction ct2a pre l R0 ct x y z : 0 < l ->
  (forall gamma, self_similar ct2a gamma pre (l * R0) ct (l * x) (l * y) (l * z) = self_similar ct2a gamma pre R0 ct x y z)
  /\ self_similar2020 ct2a pre (l * R0) ct (l * x) (l * y) (l * z) = self_similar2020 ct2a pre R0 ct x y z
  /\ rathmann ct2a pre (l * R0) ct (l * x) (l * y) (l * z) = rathmann ct2a pre R0 ct x y z.
Proof. intros H. repeat split; intros; [now apply self_similar_scaled|now apply self_similar2020_scaled|now apply rathmann_scaled]. Qed.
(** ... but within 1e-8 m behind a rotor there is no wake, and a larger farm has one *)
Theorem C231_near_rotor_refuted ct2a D k ct : 0 < D -> 0 < k -> 1e-8 < ct -> 0 < ct2a ct ->
  jensen_deficit ct2a (2 * D) k ct (2 * 1e-8) (2 * 0) <> jensen_deficit ct2a D k ct 1e-8 0.
Proof.
  intros HD Hk Hc Ha. assert (P : 0 < 1e-8) by lra. unfold jensen_deficit. set (e := 1e-8) in *. clearbody e. rewrite (proj2 (Rltb_false e e)) by lra. cbn [andb].
  rewrite (proj2 (Rltb_true e (2 * e))) by lra. rewrite (proj2 (Rltb_true e ct)) by exact Hc. rewrite (proj2 (Rltb_true (2 * 0) _)) by (unfold jensen_radius; nra). cbn [andb]. unfold jensen_centreline, jensen_radius.
  assert (Q : 0 < 2 * D / 2 / (2 * D / 2 + k * (2 * e))) by (apply Rdiv_lt_0_compat; nra).
  set (q := 2 * D / 2 / (2 * D / 2 + k * (2 * e))) in *. assert (0 < q * q * (2 * ct2a ct)) by (apply Rmult_lt_0_compat; nra). lra.
Qed.
(** ... and the vortex sheet model rounds the distance in meters: the sign changes *)
Theorem C231_vortex_sheet_partial ct2a pre l D ct x y z : 0 < l -> round12 (l * x) = l * round12 x ->
  vortex_sheet ct2a pre (l * D) ct (l * x) (l * y) (l * z) = vortex_sheet ct2a pre D ct x y z.
Proof.
  intros H E. unfold vortex_sheet. rewrite E, norm_scale by exact H. set (r := sqrt (y * y + z * z)). rewrite norm_scale by exact H. replace (l * D / 2) with (l * (D / 2)) by field.
  rewrite div_scale, Rltb_scale by exact H. unfold block_delta. replace (Rleb (l * round12 x) 0) with (Rleb (round12 x) 0); [replace (Rltb 0 (l * round12 x)) with (Rltb 0 (round12 x)); [reflexivity|]|].
  - rewrite <- (Rltb_scale l 0) by exact H. now rewrite Rmult_0_r.
  - destruct (Rleb (round12 x) 0) eqn:Q; symmetry; [apply Rleb_true in Q; apply Rleb_true; nra|apply Rleb_false in Q; apply Rleb_false; nra].
Qed.
Lemma round12_tiny : round12 (1 / 10000000000000) = 0.
Proof.
  unfold round12. replace (1 / 10000000000000 * 1000000000000) with (1 / 10) by field.
  replace (ZnearestE (1 / 10)) with 0%Z; [lra|]. symmetry. apply Znearest_imp. rewrite Rminus_0_r. rewrite Rabs_pos_eq; lra.
Qed.
Lemma round12_one : round12 1 = 1.
Proof.
  unfold round12. rewrite Rmult_1_l. replace (ZnearestE 1000000000000) with 1000000000000%Z; [lra|]. symmetry.
  apply Znearest_imp. replace (1000000000000 - 1000000000000) with 0 by ring. rewrite Rabs_R0. lra.
Qed.
Theorem C231_vortex_sheet_refuted ct2a D ct : 0 < D -> 1e-8 < ct -> 0 < ct2a ct -> let l := 10000000000000 in
  vortex_sheet ct2a false D ct (1 / l) D 0 < 0 < vortex_sheet ct2a false (l * D) ct (l * (1 / l)) (l * D) (l * 0).
Proof.
  intros HD Hc Ha l.
  assert (B : forall u, 0 < vs_block (ct2a ct) u).
  { intros u. unfold vs_block. apply Rmult_lt_0_compat; [exact Ha|]. assert (S : Rabs u < sqrt (1 + u * u)).
    { rewrite <- (sqrt_Rsqr_abs u). apply sqrt_lt_1_alt. unfold Rsqr. split; nra. }
    assert (P : 0 < sqrt (1 + u * u)) by (pose proof (Rabs_pos u); lra). assert (N : u < sqrt (1 + u * u)) by (pose proof (Rle_abs u); lra).
    apply Rmult_lt_reg_r with (sqrt (1 + u * u)); [exact P|]. rewrite Rmult_plus_distr_r. unfold Rdiv. rewrite Rmult_assoc, Rinv_l by lra. lra. }
  unfold l. split.
  - unfold vortex_sheet. rewrite round12_tiny. unfold block_delta. rewrite (proj2 (Rltb_true _ _) Hc), (proj2 (Rleb_true 0 0)) by lra. cbn [andb]. pose proof (B (sqrt (sqrt (D * D + 0 * 0) * sqrt (D * D + 0 * 0) + 0 * 0) / (D / 2))). lra.
  - replace (10000000000000 * (1 / 10000000000000)) with 1 by field. unfold vortex_sheet. rewrite round12_one. unfold block_delta.
    rewrite (proj2 (Rltb_true _ _) Hc), (proj2 (Rleb_false 1 0)) by lra. rewrite (proj2 (Rltb_true 0 1)) by lra. rewrite (proj2 (Rltb_true (10000000000000 * D / 2) _)); [cbn [andb negb]; apply B|].
    rewrite Rmult_0_r, Rmult_0_l, Rplus_0_r, sqrt_square by lra. lra.
Qed.
Print Assumptions C231_enlarged.
Print Assumptions C231_deficits_partial.
Print Assumptions C231_turbulence_partial.
Print Assumptions C231_bastankhah16_partial.
Print Assumptions C231_rankine_partial.
Print Assumptions C231_induction.
Print Assumptions C231_near_rotor_refuted.
Print Assumptions C231_vortex_sheet_partial.
Print Assumptions C231_vortex_sheet_refuted.
(** a wake model without length scale: Jensen wakes, the mean deficit over the target points is added; settings and results are the wake growth and the thrust coefficient *)
Definition jensen_model (ct2a : R -> R) : smodel R R R R :=
  mks true (fun _ _ => 0) (fun k D ct pts _ _ d => d + rsum (map (fun p => jensen_deficit ct2a D k ct (vx p) (sqrt (vy p * vy p + vz p * vz p))) pts) / INR (length pts)) (fun _ _ w d => w + d).
Example C231_jensen ct2a l : 0 < l -> scale_free l (jensen_model ct2a).
Proof.
  intros H. repeat split. intros k D ct pts t dt d HD Hp. cbn [jensen_model s_contrib]. rewrite map_length, map_map. do 3 f_equal. apply map_ext_in. intros p I.
  change (vx (scaled l p)) with (l * vx p). change (vy (scaled l p)) with (l * vy p). change (vz (scaled l p)) with (l * vz p). rewrite norm_scale by exact H. apply jensen_scaled; [exact H|now apply Hp].
Qed.
(** two turbines, one behind the other, in west wind: twice as large *)
Example C231_witness : let f : field unit := fun _ => mkair 270 9 tt in let t x : turb R := mkturb (x, 0, 100) 100 (4 / 100) in
  stretched 2 f f /\ map (enlarged 2) [t 0; t 500] = [mkturb (2 * 0, 2 * 0, 2 * 100) (2 * 100) (4 / 100); mkturb (2 * 500, 2 * 0, 2 * 100) (2 * 100) (4 / 100)]
  /\ clear 2 500 /\ clear 2 0 /\ clear 2 (-500).
Proof. split; [now intros p|]. split; [reflexivity|]. unfold clear. repeat split; lra. Qed.
Example C231_bastankhah16_witness : clear 3 500 /\ selected (Build_ypar 100 (8 / 10) (6 / 100) (58 / 100) (7 / 100) (2 / 100) (1 / 5)) 500 = true.
Proof. split; [right; lra|]. unfold selected. apply andb_true_intro. split; apply Rltb_true; cbn [yct]; lra. Qed.
