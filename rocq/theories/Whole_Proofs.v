(** Proofs for C250. *)
From Coq Require Import Permutation.
From Verif Require Import RBase WindDir_Model WindDir_Proofs Superp_Model Superp_Spec Superp_Proofs Order_Model Order_Spec Order_Proofs FarmWakes_Model FarmWakes_Spec FarmWakes_Proofs FarmIter_Proofs
  AnyOrder_Model AnyOrder_Spec AnyOrder_Proofs Induction_Model Induction_Spec Induction_Proofs Curves_Model Curves_Spec Curves_Proofs Symm_Model Symm_Proofs PointWakes_Proofs Whole_Model Whole_Spec.
Local Open Scope R_scope.

(** ** geometry *)
Lemma uv_explicit wd : wd2uv wd 1 = (- sin (wd * PI / 180), - cos (wd * PI / 180)).
Proof. unfold wd2uv, wd2wdvec. cbn [fst snd]. f_equal; ring. Qed.
Definition coords (c : scene) (s t : turb ttype) : vec3 := wake_coos (t_pos s) (wake_wd (uniform c) s) (rotor_point (t_pos t) (c_wd c) (t_diam t) {| py := 0; pz := 0; pw := 1 |}).
Lemma coords_x c s t : 0 < c_wsp c -> vx (coords c s t) = behind (c_wd c) s t.
Proof.
  intros H. unfold coords, wake_coos. rewrite (wake_wd_uv (uniform c) s H). cbn [uniform a_wd]. rewrite uv_explicit. unfold rotor_point, dot, vsub, behind. cbn [fst snd py pz]. unfold vx, vy, vz. cbn [fst snd]. ring.
Qed.
Lemma coords_r c s t : 0 < c_wsp c -> sqrt (vy (coords c s t) * vy (coords c s t) + vz (coords c s t) * vz (coords c s t)) = beside (c_wd c) s t.
Proof.
  intros H. unfold coords, wake_coos. rewrite (wake_wd_uv (uniform c) s H). cbn [uniform a_wd]. rewrite uv_explicit. unfold rotor_point, dot, vsub, beside. cbn [fst snd py pz]. unfold vx, vy, vz. cbn [fst snd].
  f_equal. ring.
Qed.
(** ** deficits *)
Lemma betz_is cm ct : betz cm ct = induction cm ct.
Proof. unfold betz, induction. lra. Qed.
Lemma gauss_exp r s : 0 < s -> - 0.5 * (r / s * (r / s)) = - (r ^ 2 / (2 * s ^ 2)).
Proof. intros H. assert (s <> 0) by lra. replace (-0.5) with (- (1 / 2)) by lra. field. assumption. Qed.
Lemma deficit_formula c D k ct x r : 0 <= c_ctmax c < 1 -> (match c_def c with Gauss sbeta => 0 < sbeta | Jensen => True end) -> 0 < D -> 0 <= k -> 1e-8 < x -> 1e-8 < ct -> deficit c D k ct x r = formula c D k ct x r.
Proof.
  intros Hc Hs HD Hk Hx Ht. set (e := 1e-8) in *. assert (He : 0 < e) by (unfold e; lra). unfold deficit, formula. destruct (c_def c) as [|sbeta].
  - destruct (Rlt_dec r (D / 2 + k * x)) as [L|L].
    + rewrite jensen_formula by assumption. rewrite betz_is. assert (0 < D / 2 + k * x) by nra. replace (D / (D + 2 * k * x)) with (D / 2 / (D / 2 + k * x)) by (field; lra). cbn [pow]. ring.
    + apply Rnot_lt_le in L. apply jensen_zero. right. right. exact L.
  - unfold gauss_deficit. fold e. replace (Rltb e x) with true by (symmetry; now apply Rltb_true). replace (Rltb e ct) with true by (symmetry; now apply Rltb_true). cbn [andb]. cbv zeta. unfold gauss_sigma, gauss_ampl. cbv zeta. rewrite betz_is.
    set (a := induction (c_ctmax c) ct). set (sg := k * x + sbeta * sqrt ((1 - a) / (1 - 2 * a)) * D).
    assert (Ha : a < 1 / 2) by (unfold a; rewrite <- betz_is; apply betz_lt_half; lra).
    assert (S0 : 0 < sqrt ((1 - a) / (1 - 2 * a))) by (apply sqrt_lt_R0; apply Rdiv_lt_0_compat; lra).
    assert (Hsg : 0 < sg) by (unfold sg; assert (0 < sbeta * sqrt ((1 - a) / (1 - 2 * a)) * D) by (repeat apply Rmult_lt_0_compat; assumption); assert (0 <= k * x) by (apply Rmult_le_pos; lra); lra).
    rewrite betz_is. replace ((sg / D) ^ 2) with (sg / D * (sg / D)) by ring. rewrite <- (gauss_exp r sg Hsg). reflexivity.
Qed.
Lemma deficit_sign c D k ct x r : 0 <= c_ctmax c < 1 -> (match c_def c with Gauss sbeta => 0 < sbeta | Jensen => True end) -> 0 < D -> 0 <= k -> deficit c D k ct x r <= 0.
Proof.
  intros Hc Hs HD Hk. unfold deficit. destruct (c_def c) as [|sbeta].
  - apply jensen_bounds; auto. now apply betz_physical.
  - apply gauss_bounds; auto. now apply betz_physical.
Qed.
Lemma effect_ok c s f t : good_scene c -> good_type (t_set s) -> 0 < t_diam s -> wake_contrib c (t_set s) (t_diam s) f (coords c s t) = effect c s f t.
Proof.
  intros (Hw & Hc & _ & _ & Hs & _) Hy HD. unfold wake_contrib, effect. rewrite coords_x, coords_r by exact Hw.
  destruct (Rlt_dec 1e-8 (behind (c_wd c) s t)) as [L|L].
  - replace (Rltb 1e-8 (behind (c_wd c) s t)) with true by (symmetry; now apply Rltb_true). destruct (Rlt_dec 1e-8 (r_ct f)) as [L'|L'].
    + replace (Rltb 1e-8 (r_ct f)) with true by (symmetry; now apply Rltb_true). cbn [andb]. rewrite deficit_formula; auto. apply Hy.
    + replace (Rltb 1e-8 (r_ct f)) with false by (symmetry; apply Rltb_false; now apply Rnot_lt_le). reflexivity.
  - replace (Rltb 1e-8 (behind (c_wd c) s t)) with false by (symmetry; apply Rltb_false; now apply Rnot_lt_le). reflexivity.
Qed.
Lemma effect_self c s f t : behind (c_wd c) s t <= 0 -> effect c s f t = None.
Proof. intros H. unfold effect. destruct (Rlt_dec 1e-8 _) as [L|L]; [exfalso; set (e := 1e-8) in *; assert (0 < e) by (unfold e; lra); lra|reflexivity]. Qed.
Lemma effect_neg c s f t sc r : good_scene c -> good_type (t_set s) -> 0 < t_diam s -> effect c s f t = Some (sc, r) -> r <= 0 /\ (sc = c_wsp c \/ sc = r_ws f) /\ (c_amb c = true -> sc = c_wsp c).
Proof.
  intros G Hy HD. rewrite <- effect_ok by assumption. destruct G as (Hw & Hc & _ & _ & Hs & _). unfold wake_contrib. destruct (_ && _); [|discriminate]. intros E. injection E as <- <-.
  split; [apply deficit_sign; auto; apply Hy|]. destruct (c_amb c); auto. split; auto. intros; discriminate.
Qed.
(** ** superposition with limits *)
Lemma limited_clamp low high a w : a + clamp low high a w = limited low high (a + w).
Proof.
  unfold clamp, limited. destruct low as [l|], high as [h|]; cbn zeta; unfold Rmax, Rmin; repeat destruct (Rle_dec _ _); lra.
Qed.
Definition zero_scale (c : contrib) : contrib := match c with Some (_, r) => Some (0, r) | None => None end.
Definition is_local (s : superp) : Prop := match s with WSLinearLocal | WSQuadraticLocal | WSMaxLocal | WSPowLocal _ => True | _ => False end.
Lemma local_zero s cs : is_local s -> wake_delta s (map zero_scale cs) = wake_delta s cs.
Proof.
  intros H. unfold wake_delta. generalize 0. induction cs as [|c cs IH]; intros d; cbn [map fold_left]; [reflexivity|]. rewrite IH. f_equal. destruct c as [[sc r]|]; [|reflexivity]. destruct s; cbn in H; try contradiction; reflexivity.
Qed.
Lemma local_comb s a cs : is_local s -> combination s false a (map zero_scale cs) = combination s false a cs.
Proof.
  intros H. assert (E : local (map zero_scale cs) = local cs).
  { unfold local. induction cs as [|[[sc r]|] cs IH]; cbn; [reflexivity| |exact IH]. now rewrite IH. }
  destruct s; cbn in H; try contradiction; cbn; now rewrite E.
Qed.
(** contributions whose scales are not negative, unless they are not used *)
Definition fine (s : superp) (cs : list contrib) : Prop := Forall (fun c => match c with None => True | Some (sc, r) => r <= 0 /\ (is_local s \/ 0 <= sc) end) cs.
Lemma fine_good s cs : is_ws s = true -> fine s cs -> exists cs', Forall (good s) cs' /\ wake_delta s cs' = wake_delta s cs /\ (forall a, combination s false a cs' = combination s false a cs).
Proof.
  intros Hs H. assert (D : is_local s \/ ~ is_local s) by (destruct s; cbn; tauto). destruct D as [L|L].
  - exists (map zero_scale cs). split; [|split; [now apply local_zero|intros; now apply local_comb]]. apply Forall_map. eapply Forall_impl; [|exact H]. intros [[sc r]|] A; cbn; [|exact I]. rewrite Hs. split; [lra|apply A].
  - exists cs. split; [|auto]. eapply Forall_impl; [|exact H]. intros [[sc r]|] A; cbn; [|exact I]. rewrite Hs. destruct A as [A [B|B]]; [contradiction|auto].
Qed.
Lemma final_limited s low high a cs : is_ws s = true -> pow_ok s -> fine s cs -> a + final_wake s false low high a cs = limited low high (a + combination s false a cs).
Proof.
  intros Hs Hp H. destruct (fine_good s cs Hs H) as (cs' & G & E & C). rewrite <- C, <- (superp_combination s false a cs' Hp G). unfold final_wake, final_delta. rewrite Hs, <- E, limited_clamp. reflexivity.
Qed.
Lemma final_below s low high a cs : is_ws s = true -> pow_ok s -> 0 <= a -> (forall l, low = Some l -> l <= a) -> fine s cs -> final_wake s false low high a cs <= 0.
Proof.
  intros Hs Hp Ha Hl H. destruct (fine_good s cs Hs H) as (cs' & G & E & _). unfold final_wake. rewrite <- E. now apply ws_never_above.
Qed.

(** ** the calculation *)
Section Calc.
Variables (c : scene) (farm : list (turb ttype)).
Hypothesis HS : good_scene c.
Hypothesis HF : good_farm farm.
Let n := length farm.
Let tb (i : nat) := nth i farm no_turb.
Let w := as_model centre_points (uniform c) (wake_smodel c).
Let ambt : turb ttype -> R := amb amb_ws (uniform c).
Let evt : turb ttype -> R -> tres := ev turbine_results.
Let key (t : turb ttype) : R := vx (t_pos t) * fst (wd2uv (c_wd c) 1) + vy (t_pos t) * snd (wd2uv (c_wd c) 1).

Lemma tb_good i : (i < n)%nat -> good_type (t_set (tb i)) /\ 0 < t_diam (tb i).
Proof. intros H. apply HF. now apply nth_In. Qed.
Lemma key_behind s t : key t - key s = behind (c_wd c) s t.
Proof. unfold key, behind. rewrite uv_explicit. cbn [fst snd]. ring. Qed.
Lemma along_key : along (uniform c) farm = map key farm.
Proof.
  unfold along. destruct farm as [|t0 f0] eqn:Ef; [reflexivity|]. rewrite <- Ef. assert (N : INR (length farm) <> 0) by (rewrite Ef; cbn [length]; apply not_0_INR; lia).
  assert (M : mean_dir (uniform c) farm = wd2uv (c_wd c) 1).
  { unfold mean_dir. cbn [uniform a_wd]. assert (K : forall v : R, rsum (map (fun _ : turb ttype => v) farm) = INR (length farm) * v).
    { intros v. clear. induction farm as [|x l IH]; [cbn; ring|]. cbn [map length]. rewrite S_INR. unfold rsum in *. cbn [fold_right]. rewrite IH. ring. }
    rewrite !K. destruct (wd2uv (c_wd c) 1) as [a b]. cbn [fst snd]. f_equal; field; exact N. }
  rewrite M. reflexivity.
Qed.
Lemma results_calc : farm_results c farm = calc_with ambt evt no_turb no_res 0 [w] farm (farm_order Rleb key farm).
Proof. unfold farm_results, calc. rewrite along_key. reflexivity. Qed.
Lemma contrib_w s f t d : w_contrib w s f t d = add_wake (c_s c) d (wake_contrib c (t_set s) (t_diam s) f (coords c s t)).
Proof. reflexivity. Qed.
Lemma rleb_total a b : Rleb a b = true \/ Rleb b a = true.
Proof. destruct (Rle_lt_dec a b); [left|right]; apply Rleb_true; lra. Qed.
Lemma rleb_trans a b d : Rleb a b = true -> Rleb b d = true -> Rleb a d = true.
Proof. rewrite !Rleb_true. lra. Qed.
Lemma w_neutral t x : w_add w t x (w_new w t) = x.
Proof. destruct HS as (Hw & _ & _ & _ & _ & Hl & Hh & _). cbn. rewrite final_zero; [ring|lra|exact Hl|exact Hh]. Qed.
Lemma w_comm s f s' f' t d : w_contrib w s f t (w_contrib w s' f' t d) = w_contrib w s' f' t (w_contrib w s f t d).
Proof. rewrite !contrib_w. apply add_wake_comm. Qed.
Lemma contrib_none s f t : key t <= key s -> wake_contrib c (t_set s) (t_diam s) f (coords c s t) = None.
Proof.
  intros H. unfold wake_contrib. rewrite coords_x by apply HS. rewrite <- key_behind. replace (Rltb 1e-8 (key t - key s)) with false; [reflexivity|]. symmetry. apply Rltb_false.
  set (e := 1e-8). assert (0 < e) by (unfold e; lra). lra.
Qed.
Lemma w_adm : admissible no_turb [w] farm (farm_order Rleb key farm).
Proof.
  apply (sorted_admissible Rleb key).
  - intros w' [<-|[]] s f t d H. rewrite contrib_w, contrib_none by now apply Rleb_true. reflexivity.
  - apply farm_order_sorted; [exact rleb_total|exact rleb_trans].
Qed.
(** all contributions to turbine i, with the given wind speeds at the turbines *)
Definition contribs (u : nat -> R) (i : nat) : list contrib := map (fun j => effect c (tb j) (turbine_results (t_set (tb j)) (u j)) (tb i)) (seq 0 n).
Lemma deltas_contribs (u : nat -> R) i : (i < n)%nat -> deltas w (map (fun j => (tb j, evt (tb j) (u j))) (others farm i)) (tb i) (w_new w (tb i)) = wake_delta (c_s c) (contribs u i).
Proof.
  intros Hi. unfold deltas, wake_delta, contribs, others. change (w_new w (tb i)) with 0. fold n. assert (B : forall j, In j (seq 0 n) -> (j < n)%nat) by (intros j J; apply in_seq in J; lia).
  revert B. generalize 0 as d. generalize (seq 0 n) as l. induction l as [|j l IH]; intros d B; cbn [filter map fold_left]; [reflexivity|]. destruct (Nat.eqb_spec j i) as [->|N]; cbn [negb].
  - rewrite IH by (intros k K; apply B; now right). rewrite effect_self; [reflexivity|]. unfold behind. lra.
  - cbn [map fold_left fst snd]. rewrite IH by (intros k K; apply B; now right). f_equal. rewrite contrib_w. destruct (tb_good j (B j (or_introl eq_refl))) as [Y Dm]. rewrite effect_ok by auto. reflexivity.
Qed.
Lemma solves_iff u : solves evt no_turb farm w (fun i => ambt (tb i)) u <-> forall i, (i < n)%nat -> u i = c_wsp c + final_wake (c_s c) false (c_low c) (c_high c) (c_wsp c) (contribs u i).
Proof.
  unfold solves. split; intros H i Hi; specialize (H i Hi); fold (tb i) in *.
  - rewrite H at 1. change (map (fun j => (nth j farm no_turb, evt (nth j farm no_turb) (u j))) (others farm i)) with (map (fun j => (tb j, evt (tb j) (u j))) (others farm i)). rewrite deltas_contribs by exact Hi. reflexivity.
  - change (map (fun j => (nth j farm no_turb, evt (nth j farm no_turb) (u j))) (others farm i)) with (map (fun j => (tb j, evt (tb j) (u j))) (others farm i)). rewrite deltas_contribs by exact Hi. exact H.
Qed.
Lemma calc_solution : exists u, solves evt no_turb farm w (fun i => ambt (tb i)) u /\ farm_results c farm = Ok (map (fun i => turbine_results (t_set (tb i)) (u i)) (seq 0 n)).
Proof.
  set (o := farm_order Rleb key farm). destruct w_adm as [P A]. fold o in P, A.
  destruct (pass_solves ambt evt no_turb farm w o eq_refl w_neutral w_comm P (fun k l Hk Hl f d => A k l Hk Hl w (or_introl eq_refl) f d) (fun i => ambt (tb i)) _ (start_holds ambt evt no_turb 0 farm o P)) as (u & Su & Hu).
  exists u. split; [exact Su|]. rewrite results_calc. fold o. unfold calc_with, calc_downwind. rewrite run_down by (constructor; [reflexivity|constructor]). cbn [fold_left bind].
  f_equal. exact (results_of evt no_turb no_res farm o u _ P Hu).
Qed.
Lemma solution_unique u v : solves evt no_turb farm w (fun i => ambt (tb i)) u -> solves evt no_turb farm w (fun i => ambt (tb i)) v -> forall i, (i < n)%nat -> u i = v i.
Proof.
  destruct w_adm as [P A]. exact (solves_unique ambt evt no_turb farm w _ w_comm P (fun k l Hk Hl f d => A k l Hk Hl w (or_introl eq_refl) f d) (fun i => ambt (tb i)) u v).
Qed.
Lemma contribs_fine u i : (forall l, c_low c = Some l -> 0 <= l -> forall j, (j < n)%nat -> 0 <= u j) -> fine (c_s c) (contribs u i).
Proof.
  intros Hu. unfold fine, contribs. apply Forall_map. apply Forall_forall. intros j J. apply in_seq in J. destruct (effect _ _ _ _) as [[sc r]|] eqn:E; [|exact I].
  destruct (tb_good j ltac:(lia)) as [Y Dm]. destruct (effect_neg c _ _ _ _ _ HS Y Dm E) as (A & B & C). split; [exact A|]. destruct HS as (Hw & _ & _ & _ & _ & _ & _ & [K|[K|(l & K & L)]]).
  - right. rewrite C by exact K. lra.
  - now left.
  - right. destruct B as [->| ->]; [lra|]. cbn [turbine_results r_ws]. apply (Hu l K L). lia.
Qed.
Lemma limited_low l h x : (forall h', h = Some h' -> l <= h') -> l <= limited (Some l) h x.
Proof. intros H. unfold limited. pose proof (Rmax_r x l). destruct h as [h|]; cbn zeta; [|lra]. specialize (H h eq_refl). unfold Rmin. destruct (Rle_dec _ _); lra. Qed.
Lemma low_high l : c_low c = Some l -> forall h', c_high c = Some h' -> l <= h'.
Proof. intros E h' E'. destruct HS as (_ & _ & _ & _ & _ & A & B & _). specialize (A l E). specialize (B h' E'). lra. Qed.
Lemma solution_low u l : solves evt no_turb farm w (fun i => ambt (tb i)) u -> c_low c = Some l -> forall j, (j < n)%nat -> l <= u j.
Proof.
  intros S E j Hj. rewrite solves_iff in S. rewrite (S j Hj). unfold final_wake, final_delta. assert (Hs : is_ws (c_s c) = true) by apply HS. rewrite Hs, limited_clamp, E. apply limited_low. now apply low_high.
Qed.
Lemma solution_fine u i : solves evt no_turb farm w (fun i => ambt (tb i)) u -> fine (c_s c) (contribs u i).
Proof. intros S. apply contribs_fine. intros l E Hl j Hj. pose proof (solution_low u l S E j Hj). lra. Qed.
Lemma value_ok t x : t <> [] -> interp t x = Ok (value t x).
Proof. intros H. unfold value. destruct t as [|[x0 y0] t]; [contradiction|]. reflexivity. Qed.
Lemma nth_map_seq {B} (f : nat -> B) (d : B) i : (i < n)%nat -> nth i (map f (seq 0 n)) d = f i.
Proof. intros H. rewrite (nth_indep _ d (f 0%nat)) by (rewrite map_length, seq_length; exact H). rewrite map_nth, seq_nth by exact H. reflexivity. Qed.
Lemma contribs_res u i : contribs u i = map (fun j => effect c (tb j) (nth j (map (fun i => turbine_results (t_set (tb i)) (u i)) (seq 0 n)) no_res) (tb i)) (seq 0 n).
Proof. unfold contribs. apply map_ext_in. intros j J. apply in_seq in J. rewrite nth_map_seq by lia. reflexivity. Qed.
Lemma solution_balanced u : solves evt no_turb farm w (fun i => ambt (tb i)) u -> balanced c farm (map (fun i => turbine_results (t_set (tb i)) (u i)) (seq 0 n)).
Proof.
  intros S. split; [now rewrite map_length, seq_length|]. intros j Hj. fold (tb j). cbv zeta.
  change (map (fun i => effect c (nth i farm no_turb) (nth i (map (fun i => turbine_results (t_set (tb i)) (u i)) (seq 0 n)) no_res) (tb j)) (seq 0 (length farm)))
    with (map (fun i => effect c (tb i) (nth i (map (fun i => turbine_results (t_set (tb i)) (u i)) (seq 0 n)) no_res) (tb j)) (seq 0 n)). rewrite <- contribs_res. rewrite nth_map_seq by exact Hj.
  destruct (tb_good j Hj) as [Y _]. destruct Y as (Y1 & Y2 & _). pose proof (solution_fine u j S) as Fn. rewrite solves_iff in S. pose proof (S j Hj) as E.
  rewrite final_limited in E by (apply HS || exact Fn). rewrite <- E. cbn [turbine_results r_ws r_ct r_p]. split; [reflexivity|]. split; apply value_ok; assumption.
Qed.
Lemma balanced_solution ys : balanced c farm ys -> let u := fun i => r_ws (nth i ys no_res) in solves evt no_turb farm w (fun i => ambt (tb i)) u /\ ys = map (fun i => turbine_results (t_set (tb i)) (u i)) (seq 0 n).
Proof.
  intros [L B] u. assert (E : forall j, (j < n)%nat -> nth j ys no_res = turbine_results (t_set (tb j)) (u j)).
  { intros j Hj. destruct (B j Hj) as (B1 & B2 & B3). cbv zeta in B1, B2, B3. rewrite <- B1 in B2, B3. fold (tb j) in B2, B3. unfold turbine_results, value, u. rewrite B2, B3. now destruct (nth j ys no_res). }
  assert (EC : forall i, map (fun j => effect c (nth j farm no_turb) (nth j ys no_res) (nth i farm no_turb)) (seq 0 (length farm)) = contribs u i).
  { intros i. unfold contribs. apply map_ext_in. intros j J. apply in_seq in J. rewrite E by (fold n in J; lia). reflexivity. }
  split.
  - apply solves_iff. intros i Hi. destruct (B i Hi) as (B1 & _). cbv zeta in B1. rewrite EC in B1. rewrite final_limited; [exact B1|apply HS|apply HS|]. apply contribs_fine. intros l El Hl j Hj.
    destruct (B j Hj) as (B2 & _). cbv zeta in B2. unfold u. rewrite B2, El. apply Rle_trans with l; [exact Hl|]. apply limited_low. now apply low_high.
  - apply (nth_ext _ _ no_res no_res); [now rewrite map_length, seq_length|]. intros j Hj. rewrite L in Hj. rewrite nth_map_seq by exact Hj. now apply E.
Qed.
Lemma result_balanced : exists res, farm_results c farm = Ok res /\ balanced c farm res /\ forall ys, balanced c farm ys -> ys = res.
Proof.
  destruct calc_solution as (u & S & E). eexists. split; [exact E|]. split; [now apply solution_balanced|]. intros ys B. destruct (balanced_solution ys B) as [S' ->]. apply map_ext_in. intros i I. apply in_seq in I.
  rewrite (solution_unique _ u S' S i ltac:(lia)). reflexivity.
Qed.
Lemma result_bounds res : farm_results c farm = Ok res -> forall j, (j < n)%nat -> r_ws (nth j res no_res) <= c_wsp c /\ (forall l, c_low c = Some l -> l <= r_ws (nth j res no_res)).
Proof.
  intros Er j Hj. destruct calc_solution as (u & S & E). rewrite E in Er. injection Er as <-. rewrite nth_map_seq by exact Hj. cbn [turbine_results r_ws]. split.
  - pose proof (solution_fine u j S) as Fn. rewrite solves_iff in S. rewrite (S j Hj). destruct HS as (Hw & _ & Hs & Hp & _ & Hl & _). pose proof (final_below (c_s c) (c_low c) (c_high c) (c_wsp c) _ Hs Hp ltac:(lra) Hl Fn). lra.
  - intros l El. exact (solution_low u l S El j Hj).
Qed.
Lemma result_unwaked res j : farm_results c farm = Ok res -> (j < n)%nat ->
  (forall i, (i < n)%nat -> behind (c_wd c) (tb i) (tb j) <= 0 \/ (c_def c = Jensen /\ t_diam (tb i) / 2 + y_k (t_set (tb i)) * behind (c_wd c) (tb i) (tb j) <= beside (c_wd c) (tb i) (tb j))) ->
  r_ws (nth j res no_res) = c_wsp c.
Proof.
  intros Er Hj H. destruct calc_solution as (u & S & E). rewrite E in Er. injection Er as <-. rewrite nth_map_seq by exact Hj. cbn [turbine_results r_ws]. rewrite solves_iff in S. rewrite (S j Hj).
  assert (Z : final_wake (c_s c) false (c_low c) (c_high c) (c_wsp c) (contribs u j) = 0).
  { destruct HS as (Hw & _ & Hs & Hp & _ & Hl & Hh & _). assert (D0 : wake_delta (c_s c) (contribs u j) = 0).
    { unfold wake_delta, contribs. assert (B : forall i, In i (seq 0 n) -> (i < n)%nat) by (intros i J; apply in_seq in J; lia). revert B. generalize (seq 0 n) as l. induction l as [|i l IH]; intros B; cbn [map fold_left]; [reflexivity|].
      replace (add_wake (c_s c) 0 (effect c (tb i) (turbine_results (t_set (tb i)) (u i)) (tb j))) with 0; [apply IH; intros k K; apply B; now right|]. symmetry.
      destruct (H i (B i (or_introl eq_refl))) as [K|[K1 K2]]; [now rewrite effect_self|]. unfold effect. destruct (Rlt_dec _ _); [|reflexivity]. destruct (Rlt_dec _ _); [|reflexivity].
      unfold formula. rewrite K1. destruct (Rlt_dec _ _) as [L|L]; [lra|]. destruct (c_s c); try discriminate Hs; cbn [add_wake]; rewrite ?Rmult_0_r, ?Rabs_R0, ?npow_0; try lra; try (apply Rmax_left; lra). }
    unfold final_wake. rewrite D0. apply final_zero; [lra|exact Hl|exact Hh]. }
  rewrite Z. ring.
Qed.
Lemma result_power res j : farm_results c farm = Ok res -> (j < n)%nat ->
  Curves_Spec.increasing (y_P (t_set (tb j))) -> c_wsp c <= fst (last (y_P (t_set (tb j))) (0, 0)) -> 0 <= r_p (nth j res no_res) <= value (y_P (t_set (tb j))) (c_wsp c).
Proof.
  intros Er Hj Hi Hl. destruct (result_bounds res Er j Hj) as [Hu _]. destruct calc_solution as (u & S & E). rewrite E in Er. injection Er as <-. rewrite nth_map_seq in Hu |- * by exact Hj. cbn [turbine_results r_ws r_p] in *.
  destruct (tb_good j Hj) as [(Y1 & Y2 & Y3 & Y4 & Y5 & Y6 & Y7) _].
  destruct (interp_mono _ (u j) (c_wsp c) Y4 Hi Y6 Hu Hl Y2) as (y & y' & A & B & C). unfold value. rewrite A, B. split; [|exact C].
  assert (V : exists hi, 0 <= hi /\ values_in 0 hi (y_P (t_set (tb j)))).
  { clear -Y6. induction (y_P (t_set (tb j))) as [|[x v] t IH]; [exists 0; split; [lra|intros x y []]|]. destruct IH as (hi & H0 & H); [intros; eapply Y6; right; eassumption|].
    exists (Rmax hi v). split; [pose proof (Rmax_l hi v); lra|]. intros a b [K|K]; [injection K as <- <-; split; [eapply Y6; now left|apply Rmax_r]|]. destruct (H a b K). pose proof (Rmax_l hi v). lra. }
  destruct V as (hi & H0 & V). apply (interp_bounds (y_P (t_set (tb j))) (u j) 0 hi y Y4 V); [lra|exact A].
Qed.
End Calc.
