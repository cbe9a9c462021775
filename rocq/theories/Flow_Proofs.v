(** Proofs for C253. *)
From Coq Require Import Permutation.
From Verif Require Import RBase Chunk_Model Chunk_Spec Chunk_Proofs EngineRun_Model EngineRun_Spec EngineRun_Proofs WindDir_Model Superp_Model Superp_Spec Superp_Proofs PointWakes_Proofs Symm_Model Curves_Model Curves_Spec Whole_Model Whole_Spec Whole_Proofs
  YieldRun_Model YieldRun_Spec YieldRun_Proofs Flow_Model Flow_Spec.
Local Open Scope R_scope.

Lemma effect_pos c s f t t' : t_pos t = t_pos t' -> effect c s f t = effect c s f t'.
Proof. intros H. unfold effect, behind, beside. now rewrite H. Qed.
Lemma coords_probe c s p : coords c s (probe p) = wake_coos (t_pos s) (wake_wd (uniform c) s) p.
Proof.
  unfold coords. f_equal. unfold rotor_point, probe. cbn [t_pos t_diam py pz]. destruct p as [[x y] z]. unfold vx, vy, vz. cbn [fst snd]. f_equal; [f_equal|]; ring.
Qed.
Section At.
Variables (c : scene) (farm : list (turb ttype)) (res : list tres).
Hypothesis HS : good_scene c.
Hypothesis HF : good_farm farm.
Hypothesis HB : balanced c farm res.
Let n := length farm.
Lemma res_eq : farm_results c farm = Ok res.
Proof. destruct (result_balanced c farm HS HF) as (r & E & _ & U). now rewrite (U res HB). Qed.
Definition peffects (p : vec3) : list contrib := map (fun i => effect c (nth i farm no_turb) (nth i res no_res) (probe p)) (seq 0 n).
Lemma combine_seq : combine farm res = map (fun i => (nth i farm no_turb, nth i res no_res)) (seq 0 n).
Proof.
  destruct HB as [L _]. unfold n. clear HB HF HS. revert res L. induction farm as [|t l IH]; intros r L; destruct r as [|f r]; try discriminate L; [reflexivity|]. cbn [combine length seq map nth]. f_equal.
  rewrite (IH r) by (now injection L). rewrite <- seq_shift, map_map. reflexivity.
Qed.
Lemma point_contribs p : map (fun tf => sm_c (flow_wake c) (fst tf) (snd tf) p) (combine farm res) = peffects p.
Proof.
  rewrite combine_seq, map_map. apply map_ext_in. intros i Hi. apply in_seq in Hi. cbn [flow_wake sm_c fst snd]. rewrite <- coords_probe. fold n in Hi. destruct (HF (nth i farm no_turb) ltac:(apply nth_In; fold n; lia)) as [Y D]. now apply effect_ok.
Qed.
Lemma peffects_fine p : fine (c_s c) (peffects p).
Proof.
  unfold fine, peffects. apply Forall_map. apply Forall_forall. intros j J. apply in_seq in J. destruct (effect _ _ _ _) as [[sc r]|] eqn:E; [|exact I]. assert (Hj : (j < length farm)%nat) by (fold n; lia).
  destruct (HF (nth j farm no_turb) (nth_In _ _ Hj)) as [Y D]. destruct (effect_neg c _ _ _ _ _ HS Y D E) as (A & B & C). split; [exact A|]. destruct (result_bounds c farm HS HF res res_eq j Hj) as [_ Bl].
  destruct HS as (Hw & _ & _ & _ & _ & _ & _ & [K|[K|(l & K & L)]]).
  - right. rewrite C by exact K. lra.
  - now left.
  - right. destruct B as [-> | ->]; [lra|]. specialize (Bl l K). lra.
Qed.
Lemma at_point_wind p : at_point c farm res p = {| p_ws := wind_at c farm res p; p_amb := c_wsp c |}.
Proof.
  unfold at_point, point_value. cbn [fold_left]. rewrite point_contribs. f_equal. cbn [flow_wake sm_s sm_quad sm_low sm_high]. unfold wind_at. fold n. fold (peffects p). apply final_limited; [apply HS|apply HS|apply peffects_fine].
Qed.
Lemma wind_below p : wind_at c farm res p <= c_wsp c.
Proof.
  pose proof (at_point_wind p) as E. apply (f_equal p_ws) in E. cbn [p_ws] in E. rewrite <- E. unfold at_point, point_value. cbn [fold_left p_ws]. rewrite point_contribs. cbn [flow_wake sm_s sm_quad sm_low sm_high].
  destruct HS as (Hw & _ & Hs & Hp & _ & Hl & _). pose proof (final_below (c_s c) (c_low c) (c_high c) (c_wsp c) _ Hs Hp ltac:(lra) Hl (peffects_fine p)). lra.
Qed.
Lemma wind_low p l : c_low c = Some l -> l <= wind_at c farm res p.
Proof. intros E. unfold wind_at. rewrite E. apply limited_low. intros h E'. destruct HS as (_ & _ & _ & _ & _ & A & B & _). specialize (A l E). specialize (B h E'). lra. Qed.
Lemma wind_hub j : (j < length farm)%nat -> wind_at c farm res (t_pos (nth j farm no_turb)) = r_ws (nth j res no_res).
Proof.
  intros Hj. destruct HB as [_ B]. destruct (B j Hj) as (E & _). cbv zeta in E. rewrite E. unfold wind_at. reflexivity.
Qed.
Lemma wind_undisturbed p : (forall i, (i < length farm)%nat -> let s := nth i farm no_turb in behind (c_wd c) s (probe p) <= 0 \/ (c_def c = Jensen /\ t_diam s / 2 + y_k (t_set s) * behind (c_wd c) s (probe p) <= beside (c_wd c) s (probe p))) ->
  wind_at c farm res p = c_wsp c.
Proof.
  intros H. pose proof (at_point_wind p) as E. apply (f_equal p_ws) in E. cbn [p_ws] in E. rewrite <- E. unfold at_point, point_value. cbn [fold_left p_ws]. rewrite point_contribs. cbn [flow_wake sm_s sm_quad sm_low sm_high].
  destruct HS as (Hw & _ & Hs & Hp & _ & Hl & Hh & _). assert (D0 : wake_delta (c_s c) (peffects p) = 0).
  { unfold wake_delta, peffects. assert (B : forall i, In i (seq 0 n) -> (i < length farm)%nat) by (intros i J; apply in_seq in J; fold n; lia). revert B. generalize (seq 0 n) as l. induction l as [|i l IH]; intros B; cbn [map fold_left]; [reflexivity|].
    replace (add_wake (c_s c) 0 _) with 0; [apply IH; intros k K; apply B; now right|]. symmetry. specialize (H i (B i (or_introl eq_refl))). cbv zeta in H.
    destruct H as [K|[K1 K2]]; [now rewrite effect_self|]. unfold effect. destruct (Rlt_dec _ _); [|reflexivity]. destruct (Rlt_dec _ _); [|reflexivity].
    unfold formula. rewrite K1. destruct (Rlt_dec _ _) as [L|L]; [lra|]. destruct (c_s c); try discriminate Hs; cbn [add_wake]; rewrite ?Rmult_0_r, ?Rabs_R0, ?npow_0; try lra; try (apply Rmax_left; lra). }
  unfold final_wake. rewrite D0, final_zero; [ring|lra|exact Hl|exact Hh].
Qed.
End At.
Lemma combine_map_l {A B} (f : A -> B) l : combine l (map f l) = map (fun a => (a, f a)) l.
Proof. induction l as [|a l IH]; [reflexivity|]. cbn. now rewrite IH. Qed.
Lemma points_ok c farm np css csp zs rows ps m sched : zs <> [] -> length rows = length zs -> valid_setting np css csp -> (1 <= m)%nat -> shape ps (length zs) m -> schedule_points np css csp (length zs) m sched ->
  calc_points c farm np css csp zs rows ps sched = Ok (chunk_points c farm (combine zs rows) ps).
Proof.
  intros H0 LR HV Hm Hsh HP. unfold calc_points. assert (L : (1 <= length zs)%nat) by (destruct zs; [contradiction|cbn; lia]).
  assert (Hh : length (hd [] ps) = m). { destruct Hsh as [Lp Fp]. destruct ps as [|r ps]; [cbn in Lp; lia|]. now inversion Fp. }
  rewrite Hh. destruct (C01_lemma np css csp (Z.of_nat (length zs)) (Z.of_nat m) (length zs) HV ltac:(lia) ltac:(lia) ltac:(lia)) as (ls & lt & E & _). rewrite E. cbn [bind fst snd]. specialize (HP ls lt E).
  assert (LX : length (combine zs rows) = length zs) by (rewrite combine_length, LR; lia).
  assert (Q : per_pair (chunk_points c farm)) by (exists (fun x => at_point (at_state c (fst x)) farm (snd x)); reflexivity).
  pose proof Q as (g & Hg). rewrite (engine_points_lemma _ _ _ (chunk_points c farm) Q np css csp (combine zs rows) ps m ls lt (length zs) sched HV); rewrite ?LX; auto; try lia.
  rewrite (run_single_ok (chunk_points c farm) g Hg (combine zs rows) ps (length zs) m LX Hsh L). now rewrite Hg.
Qed.
Lemma flow_ok c farm np css csp zs ps m sched sched_p : good_farm farm -> good_states c zs -> valid_setting np css csp -> (1 <= m)%nat -> shape ps (length zs) m ->
  schedule np css csp (length zs) sched -> schedule_points np css csp (length zs) m sched_p ->
  calc_flow c farm np css csp zs ps sched sched_p = Ok (map (rows_of c farm) zs, map (fun zr => map (at_point (with_wind c (fst zr)) farm (rows_of c farm (fst zr))) (snd zr)) (combine zs ps)).
Proof.
  intros HF HZ HV Hm Hsh HP HP'. unfold calc_flow. rewrite (run_ok c farm np css csp zs sched HF HZ HV HP). cbn [bind]. rewrite (points_ok c farm np css csp zs _ ps m sched_p); auto; [|apply HZ|now rewrite map_length].
  cbn [bind]. do 2 f_equal. unfold chunk_points. rewrite combine_map_l. destruct Hsh as [L _]. clear -L. revert ps L. induction zs as [|z zs IH]; intros [|r ps] L; try discriminate L; [reflexivity|]. cbn [map combine fst snd]. f_equal. apply IH. now injection L.
Qed.
Lemma pick_map {A B} (f : wstate -> A -> B) (zs : list wstate) (ps : list (list A)) m (dA : A) (dB : B) s k : shape ps (length zs) m -> (s < length zs)%nat -> (k < m)%nat ->
  pick dB (map (fun zr => map (f (fst zr)) (snd zr)) (combine zs ps)) s k = f (nth s zs no_state) (pick dA ps s k).
Proof.
  intros [L Fp] Hs Hk. unfold pick. revert ps s L Fp Hs. induction zs as [|z zs IH]; intros [|r ps] s L Fp Hs; try (cbn in *; lia); try discriminate L. inversion Fp as [|? ? F1 F2]; subst. destruct s as [|s]; cbn [combine map nth fst snd].
  - rewrite (nth_indep _ dB (f z dA)) by (rewrite map_length; lia). apply map_nth.
  - apply IH; [now injection L|exact F2|cbn in Hs; lia].
Qed.
