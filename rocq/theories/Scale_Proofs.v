(** Lemmas about enlarged wind farms. *)
From Coq Require Import Permutation Reals Lra.
From Verif Require Import RBase WindDir_Model WindDir_Proofs Rotor_Model Order_Model Order_Spec Order_Proofs FarmWakes_Model AnyOrder_Model Symm_Model Symm_Proofs
  Induction_Model TiWake_Model Blockage_Model Scale_Spec.
Local Open Scope R_scope.

(** sorting does not change with the unit *)
Lemma insert_scale (l : R) p : 0 < l -> forall k, insert Rleb (l * fst p, snd p) (map (fun q => (l * fst q, snd q)) k) = map (fun q : R * nat => (l * fst q, snd q)) (insert Rleb p k).
Proof.
  intros H. induction k as [|q k IH]; cbn [insert map]; [reflexivity|]. cbn [fst snd].
  replace (Rleb (l * fst p) (l * fst q)) with (Rleb (fst p) (fst q)).
  - destruct (Rleb (fst p) (fst q)); cbn [map fst snd]; [reflexivity|]. now rewrite IH.
  - destruct (Rleb (fst p) (fst q)) eqn:E; symmetry; [apply Rleb_true in E; apply Rleb_true; now apply Rmult_le_compat_l; [lra|]|apply Rleb_false in E; apply Rleb_false; now apply Rmult_lt_compat_l].
Qed.
Lemma argsort_scale (l : R) (k : list R) : 0 < l -> argsort Rleb (map (fun x => l * x) k) = argsort Rleb k.
Proof.
  intros H. unfold argsort. rewrite map_length. set (q := seq 0 (length k)).
  assert (E : combine (map (fun x => l * x) k) q = map (fun q : R * nat => (l * fst q, snd q)) (combine k q)).
  { generalize q. induction k as [|x k IH]; intros [|n r]; cbn; try reflexivity. now rewrite IH. }
  rewrite E. assert (I : forall k, isort Rleb (map (fun q : R * nat => (l * fst q, snd q)) k) = map (fun q : R * nat => (l * fst q, snd q)) (isort Rleb k)).
  { induction k0 as [|p k0 IH]; cbn [isort fold_right map]; [reflexivity|]. fold (isort Rleb k0). rewrite <- insert_scale by exact H. unfold isort in IH at 1. now rewrite IH. }
  rewrite I, map_map. now apply map_ext.
Qed.
Lemma coos_scaled l o wd p : wake_coos (scaled l o) wd (scaled l p) = scaled l (wake_coos o wd p).
Proof. unfold wake_coos, scaled, dot, vsub, vx, vy, vz. cbn [fst snd]. apply f_equal2; [apply f_equal2|]; ring. Qed.
Lemma point_scaled l c yaw D q : rotor_point (scaled l c) yaw (l * D) q = scaled l (rotor_point c yaw D q).
Proof. unfold rotor_point, scaled, vx, vy, vz. cbn [fst snd]. apply f_equal2; [apply f_equal2|]; ring. Qed.
Lemma rsum_scale {T} (u : T -> R) a k : rsum (map (fun t => a * u t) k) = a * rsum (map u k).
Proof. induction k as [|x k IH]; cbn; [ring|]. unfold rsum in *. lra. Qed.

Section Scaled.
  Context {P A F D W : Type}.
  Variables (amb0 : R -> A -> W) (ev0 : P -> W -> F) (dT : turb P) (dF : F) (d0 : D).
  Lemma calc_scaled (f f' : field A) l dps (ms : list (smodel P F D W)) farm : 0 < l -> stretched l f f' -> (forall t, In t farm -> 0 < t_diam t) ->
    (forall m, In m ms -> scale_free l m) ->
    (forall s t q, In s farm -> In t farm -> In q dps -> clear l (vx (wake_coos (t_pos s) (wake_wd f s) (rotor_point (t_pos t) (a_wd (f (t_pos t))) (t_diam t) q)))) ->
    calc amb0 ev0 dps dT dF d0 f' ms (map (enlarged l) farm) = calc amb0 ev0 dps dT dF d0 f ms farm.
  Proof.
    intros Hl Hf Hd Hm Hc. unfold calc, calc_with.
    assert (Hal : along f' (map (enlarged l) farm) = map (fun x => l * x) (along f farm)).
    { unfold along. assert (N : mean_dir f' (map (enlarged l) farm) = mean_dir f farm).
      { unfold mean_dir. rewrite map_length, !map_map. cbn [enlarged t_pos]. f_equal; f_equal; f_equal; apply map_ext; intros t; now rewrite Hf. }
      rewrite N, !map_map. apply map_ext. intros t. cbn [enlarged t_pos]. unfold scaled, vx, vy. cbn [fst snd]. ring. }
    rewrite Hal, argsort_scale by exact Hl. set (o := argsort Rleb (along f farm)).
    assert (Ho : isperm (length farm) o). { unfold o. replace (length farm) with (length (along f farm)) by apply map_length. apply argsort_perm. }
    assert (Hk : forall k, In k o -> (k < length farm)%nat) by (intros k I; now apply (perm_in _ _ _ Ho)).
    rewrite gather_map by exact Hk.
    assert (G : forall t, In t (gather dT farm o) -> In t farm) by (intros t I; apply in_map_iff in I as (k & <- & K); apply nth_In; auto).
    rewrite (calc_gc (amb amb0 f) (amb amb0 f') (ev ev0) (ev ev0) (enlarged l) (fun t => In t farm) ) with (ws := map (as_model dps f) ms); [reflexivity| | | |].
    - intros t _. unfold amb. cbn [enlarged t_pos]. now rewrite Hf.
    - intros t w _. reflexivity.
    - clear -Hm Hf Hc Hd. induction ms as [|m ms IH]; cbn [map]; constructor; [|apply IH; intros; apply Hm; now right]. destruct (Hm m (or_introl eq_refl)) as (M1 & M2 & M3).
      unfold corr. cbn [as_model w_down w_new w_add w_contrib enlarged t_set t_diam t_pos]. repeat split; try reflexivity; intros; [apply M1| |apply M2].
      rewrite <- (M3 _ _ _ _ _ _ _ (Hd s H)) at 1.
      + f_equal. unfold target_points. rewrite !map_map. apply map_ext. intros q. cbn [enlarged t_pos t_diam]. rewrite Hf, point_scaled. unfold wake_wd. cbn [enlarged t_pos]. rewrite !Hf. apply coos_scaled.
      + intros p I. unfold target_points in I. rewrite map_map in I. apply in_map_iff in I. destruct I as (q & <- & Q). now apply Hc.
    - apply Forall_forall. exact G.
  Qed.
End Scaled.

(** *** wake models *)
Lemma Rltb_scale l a b : 0 < l -> Rltb (l * a) (l * b) = Rltb a b.
Proof.
  intros H. destruct (Rltb a b) eqn:E; [apply Rltb_true in E; apply Rltb_true; now apply Rmult_lt_compat_l|apply Rltb_false in E; apply Rltb_false; apply Rmult_le_compat_l; lra].
Qed.
Lemma div_scale l a b : 0 < l -> l * a / (l * b) = a / b.
Proof. intros H. unfold Rdiv. rewrite Rinv_mult. transitivity (l * / l * (a * / b)); [ring|]. rewrite Rinv_r by lra. ring. Qed.
Lemma mask_scale l x : 0 < l -> clear l x -> Rltb 1e-8 (l * x) = Rltb 1e-8 x.
Proof.
  intros H [C|(C1 & C2)]; [|now rewrite !(proj2 (Rltb_true _ _))]. assert (l * x <= 0) by nra. assert (P : 0 < 1e-8) by lra. now rewrite !(proj2 (Rltb_false _ _)) by lra.
Qed.
Lemma norm_scale l a b : 0 < l -> sqrt (l * a * (l * a) + l * b * (l * b)) = l * sqrt (a * a + b * b).
Proof.
  intros H. replace (l * a * (l * a) + l * b * (l * b)) with (l * l * (a * a + b * b)) by ring. rewrite sqrt_mult_alt by nra. f_equal. apply sqrt_square. lra.
Qed.
Lemma jensen_scaled ct2a l D k ct x r : 0 < l -> clear l x -> jensen_deficit ct2a (l * D) k ct (l * x) (l * r) = jensen_deficit ct2a D k ct x r.
Proof.
  intros H C. unfold jensen_deficit, jensen_radius. rewrite mask_scale by assumption. replace (l * D / 2 + k * (l * x)) with (l * (D / 2 + k * x)) by field. rewrite Rltb_scale by exact H.
  unfold jensen_centreline. replace (l * D / 2) with (l * (D / 2)) by field. now rewrite div_scale.
Qed.
Lemma gauss_scaled ct2a sbeta l D k ct x r : 0 < l -> clear l x -> gauss_deficit ct2a sbeta (l * D) k ct (l * x) (l * r) = gauss_deficit ct2a sbeta D k ct x r.
Proof.
  intros H C. unfold gauss_deficit. rewrite mask_scale by assumption.
  replace (gauss_sigma ct2a sbeta (l * D) k ct (l * x)) with (l * gauss_sigma ct2a sbeta D k ct x) by (unfold gauss_sigma; ring).
  unfold gauss_ampl. now rewrite !div_scale.
Qed.
Lemma turbo_scaled ct2a sbeta c1 c2 l D k ati ct x r : 0 < l -> clear l x ->
  turbo_deficit ct2a sbeta c1 c2 (l * D) k ati ct (l * x) (l * r) = turbo_deficit ct2a sbeta c1 c2 D k ati ct x r.
Proof.
  intros H C. unfold turbo_deficit. rewrite mask_scale by assumption.
  assert (E : turbo_sigma ct2a sbeta c1 c2 (l * D) k ati ct (l * x) = l * turbo_sigma ct2a sbeta c1 c2 D k ati ct x).
  { unfold turbo_sigma. replace (c2 * ati / sqrt ct * (l * x) / (l * D)) with (c2 * ati / sqrt ct * x / D); [ring|].
    replace (c2 * ati / sqrt ct * (l * x)) with (l * (c2 * ati / sqrt ct * x)) by ring. now rewrite div_scale. }
  rewrite E. unfold gauss_ampl. now rewrite !div_scale.
Qed.
Lemma iec_scaled ty o l D ws ct x r : 0 < l -> clear l x -> iec_ti ty o (l * D) ws ct (l * x) (l * r) = iec_ti ty o D ws ct x r.
Proof.
  intros H C. unfold iec_ti, top_hat. rewrite mask_scale by assumption.
  replace (iec_radius o (l * D) (l * x)) with (l * iec_radius o D x) by (destruct o; cbn; field). rewrite Rltb_scale by exact H.
  replace (iec_centreline ty (l * D) ws ct (l * x)) with (iec_centreline ty D ws ct x); [reflexivity|].
  destruct ty; unfold iec_centreline.
  - replace (0.3 * (l * x)) with (l * (0.3 * x)) by ring. now rewrite div_scale.
  - replace (0.8 * (l * x)) with (l * (0.8 * x)) by ring. now rewrite div_scale.
Qed.
Lemma crespo_scaled p ct2a l D k ti ct x r : 0 < l -> clear l x -> crespo_ti p ct2a (l * D) k ti ct (l * x) (l * r) = crespo_ti p ct2a D k ti ct x r.
Proof.
  intros H C. unfold crespo_ti, top_hat. rewrite mask_scale by assumption.
  replace (crespo_radius p ct2a (l * D) k ct (l * x)) with (l * crespo_radius p ct2a D k ct x) by (unfold crespo_radius; ring). rewrite Rltb_scale by exact H.
  replace (crespo_centreline p ct2a (l * D) ti ct (l * x)) with (crespo_centreline p ct2a D ti ct x); [reflexivity|].
  unfold crespo_centreline. cbv zeta. replace (crespo_near_D p (2 * ct2a ct) ti * (l * D)) with (l * (crespo_near_D p (2 * ct2a ct) ti * D)) by ring.
  rewrite Rltb_scale by exact H. now rewrite div_scale.
Qed.
Lemma self_similar_scaled ct2a gamma pre l R0 ct x y z : 0 < l -> self_similar ct2a gamma pre (l * R0) ct (l * x) (l * y) (l * z) = self_similar ct2a gamma pre R0 ct x y z.
Proof. intros H. unfold self_similar. now rewrite norm_scale, !div_scale. Qed.
Lemma self_similar2020_scaled ct2a pre l R0 ct x y z : 0 < l -> self_similar2020 ct2a pre (l * R0) ct (l * x) (l * y) (l * z) = self_similar2020 ct2a pre R0 ct x y z.
Proof. intros H. unfold self_similar2020. now rewrite norm_scale, !div_scale. Qed.
Lemma rathmann_scaled ct2a pre l R0 ct x y z : 0 < l -> rathmann ct2a pre (l * R0) ct (l * x) (l * y) (l * z) = rathmann ct2a pre R0 ct x y z.
Proof. intros H. unfold rathmann. now rewrite norm_scale, !div_scale. Qed.

(** Bastankhah and Porte-Agel (2016) *)
From Verif Require Import Yaw_Model.
Definition larger (l : R) (p : ypar) : ypar := Build_ypar (l * yD p) (yct p) (yti p) (yalpha p) (ybeta p) (yk p) (ygamma p).
Section B16s.
  Variables (ct2a : R -> R) (l : R) (p : ypar).
  Hypothesis L : 0 < l.
  Lemma x0_s : x0 ct2a (larger l p) = l * x0 ct2a p.
  Proof. unfold x0, twoa, cosg. cbn. unfold Rdiv. ring. Qed.
  Lemma sy0_s : sigma_y0 (larger l p) = l * sigma_y0 p.
  Proof. unfold sigma_y0, cosg. cbn. unfold Rdiv. ring. Qed.
  Lemma sz0_s : sigma_z0 (larger l p) = l * sigma_z0 p.
  Proof. unfold sigma_z0. cbn. unfold Rdiv. ring. Qed.
  Lemma sy_s x : sigma_y ct2a (larger l p) (l * x) = l * sigma_y ct2a p x.
  Proof. unfold sigma_y. rewrite x0_s, sy0_s. cbn. ring. Qed.
  Lemma sz_s x : sigma_z ct2a (larger l p) (l * x) = l * sigma_z ct2a p x.
  Proof. unfold sigma_z. rewrite x0_s, sz0_s. cbn. ring. Qed.
  Lemma rpc0_s : r_pc0 ct2a (larger l p) = l * r_pc0 ct2a p.
  Proof. unfold r_pc0, twoa, cosg. cbn [larger yD yct ygamma]. ring. Qed.
  Lemma rpc_s x : r_pc ct2a (larger l p) (l * x) = l * r_pc ct2a p x.
  Proof. unfold r_pc. rewrite x0_s, rpc0_s, div_scale by exact L. ring. Qed.
  Lemma rpcs_s x : r_pc_s ct2a (larger l p) (l * x) = l * r_pc_s ct2a p x.
  Proof. unfold r_pc_s. rewrite x0_s, sy0_s, div_scale by exact L. ring. Qed.
  Lemma sqsd_s x : sqsd ct2a (larger l p) (l * x) = sqsd ct2a p x.
  Proof.
    unfold sqsd. rewrite sy_s, sz_s. f_equal. unfold cosg. cbn [larger yD ygamma].
    replace (8 * (l * sigma_y ct2a p x) * (l * sigma_z ct2a p x)) with ((l * l) * (8 * sigma_y ct2a p x * sigma_z ct2a p x)) by ring.
    replace (cos (ygamma p) * (l * yD p * (l * yD p))) with ((l * l) * (cos (ygamma p) * (yD p * yD p))) by ring. apply div_scale. nra.
  Qed.
  Lemma cteff_s x : ct_eff ct2a (larger l p) (l * x) = ct_eff ct2a p x.
  Proof.
    unfold ct_eff. rewrite sy_s, sz_s. unfold cosg. cbn [larger yD ygamma yct].
    replace (8 * (l * sigma_y ct2a p x) * (l * sigma_z ct2a p x)) with ((l * l) * (8 * sigma_y ct2a p x * sigma_z ct2a p x)) by ring.
    replace (yct p * cos (ygamma p) * (l * yD p * (l * yD p))) with ((l * l) * (yct p * cos (ygamma p) * (yD p * yD p))) by ring. apply div_scale. nra.
  Qed.
  Lemma near_s x : near ct2a (larger l p) (l * x) = near ct2a p x.
  Proof. unfold near. rewrite x0_s. now apply Rltb_scale. Qed.
  Lemma sel_s x : clear l x -> selected (larger l p) (l * x) = selected p x.
  Proof. intros C. unfold selected. now rewrite mask_scale. Qed.
  Lemma deflection_s x : clear l x -> deflection ct2a (larger l p) (l * x) = l * deflection ct2a p x.
  Proof.
    intros C. unfold deflection. rewrite sel_s, near_s by exact C. destruct (selected p x); [|ring]. destruct (near ct2a p x).
    - unfold delta_near. change (theta ct2a (larger l p)) with (theta ct2a p). ring.
    - unfold delta_far. rewrite sqsd_s, x0_s. change (theta ct2a (larger l p)) with (theta ct2a p). change (yct (larger l p)) with (yct p). change (yk (larger l p)) with (yk p).
      change (cosg (larger l p)) with (cosg p). change (twoa ct2a (larger l p)) with (twoa ct2a p). change (yD (larger l p)) with (l * yD p). cbv zeta. unfold Rdiv. ring.
  Qed.
  Lemma deficit_s x y z : clear l x -> deficit ct2a (larger l p) (l * x) (l * y) (l * z) = deficit ct2a p x y z.
  Proof.
    intros C. unfold deficit. rewrite sel_s, near_s by exact C. destruct (selected p x); [|reflexivity]. destruct (near ct2a p x).
    - unfold near_factor. rewrite norm_scale, rpc_s, rpcs_s, Rltb_scale by exact L. change (ampl_near ct2a (larger l p)) with (ampl_near ct2a p). set (r := sqrt (y * y + z * z)).
      replace (l * r - l * r_pc ct2a p x) with (l * (r - r_pc ct2a p x)) by ring. now rewrite div_scale by exact L.
    - unfold far_factor, ampl_far. rewrite cteff_s, sy_s, sz_s. now rewrite !div_scale by exact L.
  Qed.
End B16s.
(** Rankine half body, in the outer region *)
Lemma cube_norm_scale l x y z : 0 < l -> sqrt (l * x * (l * x) + l * y * (l * y) + l * z * (l * z)) = l * sqrt (x * x + y * y + z * z).
Proof.
  intros H. replace (l * x * (l * x) + l * y * (l * y) + l * z * (l * z)) with ((l * l) * (x * x + y * y + z * z)) by ring. rewrite sqrt_mult by nra. now rewrite sqrt_square by lra.
Qed.
