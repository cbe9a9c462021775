(** Proofs for C265. *)
From Coq Require Import Permutation.
From Verif Require Import RBase WindDir_Model WindDir_Proofs Superp_Model Superp_Spec Superp_Proofs Order_Model Order_Spec Order_Proofs FarmWakes_Model FarmWakes_Spec FarmWakes_Proofs FarmIter_Proofs
  AnyOrder_Model AnyOrder_Spec AnyOrder_Proofs Induction_Model Induction_Spec Induction_Proofs Blockage_Model Blockage_Proofs Curves_Model Curves_Spec Curves_Proofs Symm_Model Symm_Proofs PointWakes_Proofs Whole_Model Whole_Spec Whole_Proofs UpWake_Model UpWake_Spec.

(** ** the upwind loop is the downwind loop in reverse order *)
Section Rev.
  Context {T F D W : Type}.
  Variable ev : T -> W -> F.
  Notation wmodel := (@wmodel T F D W).
  Notation cell := (@cell T F D W).
  (** the same wake model, treated as a downwind model *)
  Definition flip (w : wmodel) : wmodel := mkw true (w_new w) (w_contrib w) (w_add w).
  Lemma map_contrib_t (w : wmodel) c l : map (@c_t T F D W) (map (contrib_cell w c) l) = map (@c_t T F D W) l.
  Proof. rewrite map_map. reflexivity. Qed.
  Lemma eval_flip (w : wmodel) c : eval_cell ev w c = eval_cell ev (flip w) c.
  Proof. reflexivity. Qed.
  (** only the effects of turbines on those that come later matter *)
  Definition alike (w w' : wmodel) (s t : T) : Prop := forall f d, w_contrib w s f t d = w_contrib w' s f t d.
  Lemma contrib_alike (w w' : wmodel) c l : Forall (alike w w' (c_t c)) (map (@c_t T F D W) l) -> map (contrib_cell w c) l = map (contrib_cell w' c) l.
  Proof. induction l as [|a l IH]; intros H; [reflexivity|]. cbn [map] in *. inversion H; subst. rewrite IH by assumption. f_equal. unfold contrib_cell. now rewrite H2. Qed.
  Lemma tail_alike (w w' : wmodel) : (forall t x d, w_add w t x d = w_add w' t x d) -> forall k l, ForallOrdPairs (alike w w') (map (@c_t T F D W) l) -> down_tail ev w l k = down_tail ev w' l k.
  Proof.
    intros Ha. induction k as [|k IH]; intros l H; [reflexivity|]. destruct l as [|c l]; [reflexivity|]. cbn [down_tail map] in *. inversion H; subst.
    assert (E : eval_cell ev w c = eval_cell ev w' c) by (unfold eval_cell; now rewrite Ha). rewrite <- E. f_equal.
    rewrite <- (contrib_alike w w') by assumption. apply IH. now rewrite map_contrib_t.
  Qed.
  Lemma down_alike (w w' : wmodel) l : (forall t x d, w_add w t x d = w_add w' t x d) -> ForallOrdPairs (alike w w') (map (@c_t T F D W) l) -> down_pass ev w l = down_pass ev w' l.
  Proof.
    intros Ha H. destruct l as [|c l]; [reflexivity|]. cbn [down_pass map] in *. inversion H; subst. f_equal. rewrite <- (contrib_alike w w') by assumption. apply tail_alike; [exact Ha|]. now rewrite map_contrib_t.
  Qed.
  Lemma down_flip (w : wmodel) l : down_pass ev w l = down_pass ev (flip w) l.
  Proof. apply down_alike; [reflexivity|]. generalize (map (@c_t T F D W) l). intros ts. induction ts as [|t ts IH]; constructor; [|exact IH]. apply Forall_forall. intros x _ f d. reflexivity. Qed.
  Lemma up_is_rev (w w' : wmodel) l : w_down w = false -> (forall t x d, w_add w t x d = w_add w' t x d) -> (forall t, w_new w t = w_new w' t) -> ForallOrdPairs (alike w w') (rev (map (@c_t T F D W) l)) ->
    pass ev w l = rev (pass ev (flip w') (rev l)).
  Proof.
    intros Hw Ha Hn H. unfold pass. rewrite Hw. cbn [flip w_down]. unfold up_pass. f_equal. rewrite (down_alike w w').
    - change (mkw true (w_new w') (w_contrib w') (w_add w')) with (flip w'). rewrite <- down_flip. f_equal. rewrite <- map_rev. apply map_ext. intros c. unfold fresh. cbn. now rewrite Hn.
    - exact Ha.
    - rewrite <- map_rev, map_map. rewrite map_rev. exact H.
  Qed.
  Variables (dT : T) (farm : list T).
  Lemma holds_rev o wf (l : list cell) : length o = length farm -> holds ev dT farm o wf l -> holds ev dT farm (rev o) wf (rev l).
  Proof.
    intros Lo (L & H). split; [now rewrite rev_length|]. intros k dc K. rewrite !rev_nth by lia. rewrite L, Lo. apply H. lia.
  Qed.
End Rev.
Local Open Scope R_scope.

(** ** effects *)
(** the blockage formula of the model *)
Definition block_formula (c : scene) (b : bset) (ct x r : R) : R :=
  match b_model b with
  | SelfSimilar gamma => ss_block (betz (c_ctmax c)) gamma ct x r
  | SelfSimilar2020 => ss20_block (betz (c_ctmax c)) ct x r
  | Rathmann => rath_block (betz (c_ctmax c)) ct x r
  end.
Lemma axial_is x : ss_mu x = axial x.
Proof. unfold ss_mu, axial. now replace (x ^ 2) with (x * x) by ring. Qed.
Lemma radial_is h r : ss_rad h r = radial h r.
Proof. unfold ss_rad, radial. f_equal. unfold Rdiv at 1. now rewrite Rmult_1_l. Qed.
Lemma factor_is ct x : ss20_gamma ct x = factor20 ct x.
Proof. unfold ss20_gamma, factor20. cbv zeta. rewrite !axial_is. replace (-1 * Rabs x) with (- Rabs x) by ring.
  replace (-1.381 * (ct * ct * ct) + 2.627 * (ct * ct) + -1.524 * ct + 1.336) with (-1.381 * ct ^ 3 + 2.627 * ct ^ 2 - 1.524 * ct + 1.336) by (cbn [pow]; lra). reflexivity.
Qed.
Lemma shape_is x r : rath_G x r = rathmann_shape x r.
Proof.
  unfold rath_G, rathmann_shape. cbv zeta. replace (x ^ 2) with (x * x) by ring. replace (r ^ 2) with (r * r) by ring. replace ((r - 1) ^ 2) with ((r - 1) * (r - 1)) by ring. replace ((r + 1) ^ 2) with ((r + 1) * (r + 1)) by ring.
  set (q := 2 * x / _). replace (q ^ 2) with (q * q) by ring. reflexivity.
Qed.
Lemma slow_is c b ct x r : block_formula c b ct x r = slow_down c b ct x r.
Proof.
  unfold block_formula, slow_down. destruct (b_model b); unfold ss_block, ss20_block, rath_block; rewrite betz_is, axial_is, ?radial_is, ?factor_is, ?shape_is; try reflexivity.
  - unfold ss_r_half. now replace (x ^ 2) with (x * x) by ring.
  - unfold ss20_r_half. replace (-0.672 * x + 0.4897) with (0.4897 - 0.672 * x) by lra. reflexivity.
Qed.
Lemma value_is c b R0 ct wx wy wz : block_value c b R0 ct wx wy wz =
  block_delta (b_pre b) ct (round12 (wx / R0)) (Rltb 1 (sqrt (wy * wy + wz * wz) / R0)) (slow_down c b ct (round12 (wx / R0)) (sqrt (wy * wy + wz * wz) / R0)) (slow_down c b ct (- round12 (wx / R0)) (sqrt (wy * wy + wz * wz) / R0)).
Proof. rewrite <- !slow_is. unfold block_value, block_formula. destruct (b_model b); reflexivity. Qed.
Lemma contrib_effect c b s f t : good_scene c -> block_contrib c b (t_diam s) f (coords c s t) = block_effect c b s f t.
Proof.
  intros (Hw & _). unfold block_contrib, block_effect. cbv zeta. rewrite value_is. rewrite coords_x, coords_r by exact Hw. fold (radii_behind c s t). fold (radii_beside c s t). unfold block_delta.
  destruct (Rlt_dec 1e-8 (r_ct f)) as [L|L].
  - replace (Rltb 1e-8 (r_ct f)) with true by (symmetry; now apply Rltb_true). cbn [andb]. destruct (Rle_dec (radii_behind c s t) 0) as [M|M].
    + replace (Rleb (radii_behind c s t) 0) with true by (symmetry; now apply Rleb_true). cbn [orb]. reflexivity.
    + replace (Rleb (radii_behind c s t) 0) with false by (symmetry; apply Rleb_false; lra). replace (Rltb 0 (radii_behind c s t)) with true by (symmetry; apply Rltb_true; lra). cbn [orb andb].
      destruct (b_pre b); cbn [negb andb]; [reflexivity|]. destruct (Rlt_dec 1 (radii_beside c s t)) as [N|N].
      * replace (Rltb 1 (radii_beside c s t)) with true by (symmetry; now apply Rltb_true). reflexivity.
      * replace (Rltb 1 (radii_beside c s t)) with false by (symmetry; apply Rltb_false; lra). reflexivity.
  - replace (Rltb 1e-8 (r_ct f)) with false by (symmetry; apply Rltb_false; lra). reflexivity.
Qed.
(** parameters and a thrust coefficient for which the formulas slow down *)
Definition slows (b : bset) (ct : R) : Prop := match b_model b with SelfSimilar gamma => 0 <= gamma | SelfSimilar2020 => ct <= 1 | Rathmann => True end.
Lemma slow_pos c b ct x r : 0 <= c_ctmax c < 1 -> slows b ct -> 0 <= ct -> x <= 0 -> 0 <= slow_down c b ct x r.
Proof.
  intros Hc Hg Ht Hx. rewrite <- slow_is. unfold block_formula, slows in *. assert (Ha : forall a, 0 <= a -> 0 <= betz (c_ctmax c) a) by (intros a A; apply betz_nonneg; [apply Hc|exact A]). pose proof (mu_bounds x Hx) as Mu. destruct (b_model b) as [gamma| |].
  - apply (ss_block_bounds (betz (c_ctmax c)) gamma ct x r Ha); [nra|exact Hx].
  - unfold ss20_block. pose proof (ss20_gamma_bounds ct x ltac:(lra)) as G. pose proof (rad_bounds (ss20_r_half x) r). apply Rmult_le_pos; [apply Rmult_le_pos|]; try lra. apply Ha. nra.
  - unfold rath_block, rath_G. cbv zeta. assert (S : 0 < sqrt (x * x + r * r + 1)) by (apply sqrt_lt_R0; nra). apply Rmult_le_pos; [apply Rmult_le_pos; [now apply Ha|lra]|]. apply Rmult_le_pos; [|nra]. apply Rmult_le_pos; [apply sqrt_pos|]. apply Rlt_le. apply Rdiv_lt_0_compat; lra.
Qed.
Lemma effect_front c b s f t : radii_behind c s t <= 0 -> block_effect c b s f t = block_effect c (front_only b) s f t.
Proof. intros H. unfold block_effect. cbv zeta. destruct (Rlt_dec _ _); [|reflexivity]. destruct (Rle_dec _ 0); [reflexivity|contradiction]. Qed.
Lemma effect_behind c b s f t : 0 < radii_behind c s t -> block_effect c (front_only b) s f t = None.
Proof. intros H. unfold block_effect. cbv zeta. destruct (Rlt_dec _ _); [|reflexivity]. destruct (Rle_dec _ 0); [lra|reflexivity]. Qed.
Lemma effect_sign c b s f t sc r : good_scene c -> slows b (r_ct f) -> block_effect c (front_only b) s f t = Some (sc, r) -> r <= 0 /\ (sc = c_wsp c \/ sc = r_ws f) /\ (c_amb c = true -> sc = c_wsp c).
Proof.
  intros (_ & Hc & _) Hg. unfold block_effect. cbv zeta. destruct (Rlt_dec _ _) as [L|L]; [|discriminate]. destruct (Rle_dec _ 0) as [M|M]; [|discriminate]. cbn [front_only b_pre]. intros E. injection E as <- <-. set (e := 1e-8) in *. assert (0 < e) by (unfold e; lra).
  pose proof (slow_pos c (front_only b) (r_ct f) _ (radii_beside c s t) Hc Hg ltac:(lra) M). split; [lra|]. destruct (c_amb c); auto. split; auto. discriminate.
Qed.
Lemma behind_opp wd s t : behind wd t s = - behind wd s t.
Proof. unfold behind. ring. Qed.
Lemma radii_back c s t : 0 < t_diam s -> behind (c_wd c) s t <= 0 -> radii_behind c s t <= 0.
Proof. intros H B. unfold radii_behind. apply round12_nonpos. unfold Rdiv at 1. assert (0 < / (t_diam s / 2)) by (apply Rinv_0_lt_compat; lra). nra. Qed.
Lemma radii_ahead c s t : 0 < t_diam s -> 1e-12 * t_diam s < behind (c_wd c) s t -> 0 < radii_behind c s t.
Proof.
  intros H B. unfold radii_behind. set (q := behind (c_wd c) s t / (t_diam s / 2)). assert (Q : 2e-12 <= q).
  { unfold q. apply Rmult_le_reg_r with (t_diam s / 2); [lra|]. unfold Rdiv at 3. rewrite Rmult_assoc. rewrite Rinv_l by lra. lra. }
  pose proof (round12_err q) as E. unfold Rabs in E. destruct (Rcase_abs _); lra.
Qed.

(** ** the calculation *)
Section Calc.
Variables (c : scene) (b : bset) (farm : list (turb ttype)).
Hypothesis HS : good_scene c.
Hypothesis HB : good_block b farm.
Hypothesis HF : good_farm farm.
Hypothesis HT : staggered c farm.
Let n := length farm.
Let tb (i : nat) := nth i farm no_turb.
Let w := as_model centre_points (uniform c) (block_smodel c b).
Let w1 := as_model centre_points (uniform c) (block_smodel c (front_only b)).
Let ambt : turb ttype -> R := amb amb_ws (uniform c).
Let evt : turb ttype -> R -> tres := ev turbine_results.
Let key (t : turb ttype) : R := vx (t_pos t) * fst (wd2uv (c_wd c) 1) + vy (t_pos t) * snd (wd2uv (c_wd c) 1).
Let o := farm_order Rleb key farm.

Lemma u_good i : (i < n)%nat -> good_type (t_set (tb i)) /\ 0 < t_diam (tb i).
Proof. intros H. apply HF. now apply nth_In. Qed.
Lemma u_key s t : key t - key s = behind (c_wd c) s t.
Proof. unfold key, behind. rewrite uv_explicit. cbn [fst snd]. ring. Qed.
Lemma u_calc : block_farm c b farm = calc_with ambt evt no_turb no_res 0 [w] farm o.
Proof. unfold block_farm, calc. rewrite along_key by assumption. reflexivity. Qed.
Lemma u_contrib b' s f t d : w_contrib (as_model centre_points (uniform c) (block_smodel c b')) s f t d = add_wake (c_s c) d (block_effect c b' s f t).
Proof. rewrite <- contrib_effect by exact HS. reflexivity. Qed.
Lemma u_neutral t x : w_add (flip w1) t x (w_new (flip w1) t) = x.
Proof. destruct HS as (Hw & _ & _ & _ & _ & Hl & Hh & _). cbn. rewrite final_zero; [ring|lra|exact Hl|exact Hh]. Qed.
Lemma u_comm s f s' f' t d : w_contrib (flip w1) s f t (w_contrib (flip w1) s' f' t d) = w_contrib (flip w1) s' f' t (w_contrib (flip w1) s f t d).
Proof. unfold w1. cbn [flip w_contrib]. change (s_contrib (block_smodel c (front_only b))) with (s_contrib (block_smodel c (front_only b))). pose proof (u_contrib (front_only b)) as K. cbn [as_model w_contrib] in K. cbn [as_model w_contrib]. rewrite !K. apply add_wake_comm. Qed.
Lemma u_perm : isperm n o.
Proof. unfold o, farm_order. pose proof (argsort_perm Rleb (map key farm)) as P. now rewrite map_length in P. Qed.
Lemma u_perm' : isperm n (rev o).
Proof. pose proof u_perm as P. unfold isperm in *. rewrite <- Permutation_rev. exact P. Qed.
Lemma u_len : length o = n.
Proof. exact (perm_length _ _ u_perm). Qed.
Lemma u_sorted k l : (k < l)%nat -> (l < n)%nat -> 1e-12 * t_diam (tb (nth k o 0%nat)) < behind (c_wd c) (tb (nth k o 0%nat)) (tb (nth l o 0%nat)).
Proof.
  intros Hk Hl. destruct (farm_order_sorted Rleb key no_turb rleb_total rleb_trans farm) as [_ S]. specialize (S k l Hk Hl). apply Rleb_true in S. fold o in S. fold (tb (nth k o 0%nat)) (tb (nth l o 0%nat)) in S.
  assert (Ik : (nth k o 0 < n)%nat) by (apply (perm_nth_lt n); [exact u_perm|lia]). assert (Il : (nth l o 0 < n)%nat) by (apply (perm_nth_lt n); [exact u_perm|lia]).
  assert (N : nth k o 0%nat <> nth l o 0%nat). { intros E. pose proof (perm_nodup _ _ u_perm) as ND. rewrite NoDup_nth in ND. pose proof u_len. specialize (ND k l ltac:(lia) ltac:(lia) E). lia. }
  pose proof (HT _ _ Ik Il N) as H. fold (tb (nth k o 0%nat)) (tb (nth l o 0%nat)) in H. rewrite <- u_key in H |- *. rewrite Rabs_right in H by lra. exact H.
Qed.
Lemma u_adm k l : (k < l)%nat -> (l < n)%nat -> forall f d, w_contrib (flip w1) (tb (nth l (rev o) 0%nat)) f (tb (nth k (rev o) 0%nat)) d = d.
Proof.
  intros Hk Hl f d. pose proof u_len as L. rewrite !rev_nth by lia. rewrite L. pose proof (u_contrib (front_only b)) as K. unfold w1. cbn [flip w_contrib]. cbn [as_model w_contrib] in *. rewrite K.
  rewrite effect_behind; [reflexivity|]. apply radii_ahead; [apply u_good; apply (perm_nth_lt n); [exact u_perm|lia]|]. apply u_sorted; lia.
Qed.
Lemma u_pass l wf : holds evt no_turb farm o wf l -> pass evt w l = rev (pass evt (flip w1) (rev l)).
Proof.
  intros (L & H). apply up_is_rev; [reflexivity|reflexivity|reflexivity|].
  assert (E : map (@c_t _ _ _ _) l = map tb o).
  { apply (nth_ext _ _ no_turb no_turb); [rewrite !map_length, u_len; exact L|]. intros k Hk. rewrite map_length in Hk. destruct l as [|c0 l0] eqn:El; [cbn in Hk; lia|]. rewrite <- El in *. rewrite (nth_indep _ no_turb (c_t c0)) by (now rewrite map_length). rewrite map_nth.
    rewrite (nth_indep _ no_turb (tb 0%nat)) by (rewrite map_length, u_len; lia). rewrite map_nth. fold n in L, H. apply H. lia. }
  rewrite E, <- map_rev. assert (G : forall p, (forall i j, (i < j)%nat -> (j < length p)%nat -> alike w w1 (tb (nth i p 0%nat)) (tb (nth j p 0%nat))) -> ForallOrdPairs (alike w w1) (map tb p)).
  { clear. induction p as [|a p IH]; intros G; cbn [map]; constructor.
    - apply Forall_map. apply Forall_forall. intros x I. destruct (In_nth _ _ 0%nat I) as (j & J & <-). apply (G 0%nat (S j)); cbn; lia.
    - apply IH. intros i j Hi Hj. apply (G (S i) (S j)); cbn; lia. }
  apply G. intros i j Hi Hj f d. rewrite rev_length in Hj. pose proof u_len as Lo. rewrite !rev_nth by lia. unfold w, w1. rewrite !u_contrib. f_equal. apply effect_front. apply radii_back; [apply u_good; apply (perm_nth_lt n); [exact u_perm|lia]|].
  rewrite behind_opp. assert (Q : (length o - S j < length o - S i)%nat) by lia. pose proof (u_sorted _ _ Q ltac:(lia)) as K. set (z := 1e-12) in *. assert (0 < z) by (unfold z; lra).
  destruct (u_good (nth (length o - S j) o 0%nat)) as [_ Dm]; [apply (perm_nth_lt n); [exact u_perm|lia]|]. nra.
Qed.
(** all contributions of the others to turbine i *)
Definition u_effects (fs : nat -> tres) (i : nat) : list contrib := map (fun j => block_effect c (front_only b) (tb j) (fs j) (tb i)) (others farm i).
Let fr (u : nat -> R) (j : nat) : tres := turbine_results (t_set (tb j)) (u j).
Lemma u_deltas (u : nat -> R) i : deltas (flip w1) (map (fun j => (tb j, evt (tb j) (u j))) (others farm i)) (tb i) (w_new (flip w1) (tb i)) = wake_delta (c_s c) (u_effects (fr u) i).
Proof.
  unfold deltas, wake_delta, u_effects. change (w_new (flip w1) (tb i)) with 0. generalize 0 as d. generalize (others farm i) as l. pose proof (u_contrib (front_only b)) as K. induction l as [|j l IH]; intros d; cbn [map fold_left]; [reflexivity|].
  rewrite IH. f_equal. cbn [fst snd flip w_contrib]. unfold w1. rewrite K. reflexivity.
Qed.
Lemma u_solves u : solves evt no_turb farm (flip w1) (fun i => ambt (tb i)) u <-> forall i, (i < n)%nat -> u i = c_wsp c + final_wake (c_s c) false (c_low c) (c_high c) (c_wsp c) (u_effects (fr u) i).
Proof.
  unfold solves. assert (E : forall i, deltas (flip w1) (map (fun j => (nth j farm no_turb, evt (nth j farm no_turb) (u j))) (others farm i)) (nth i farm no_turb) (w_new (flip w1) (nth i farm no_turb)) = wake_delta (c_s c) (u_effects (fr u) i)) by (intros i; apply u_deltas).
  split; intros H i Hi; specialize (H i Hi).
  - rewrite E in H. exact H.
  - rewrite E. exact H.
Qed.
Lemma u_solution : exists u, solves evt no_turb farm (flip w1) (fun i => ambt (tb i)) u /\ block_farm c b farm = Ok (map (fr u) (seq 0 n)).
Proof.
  pose proof (start_holds ambt evt no_turb 0 farm o u_perm) as H0. set (l0 := start ambt evt (fun _ => 0) (gather no_turb farm o)) in *. pose proof (holds_rev evt no_turb farm o _ l0 u_len H0) as H1.
  destruct (pass_solves ambt evt no_turb farm (flip w1) (rev o) eq_refl u_neutral u_comm u_perm' u_adm _ _ H1) as (u & Su & Hu). exists u. split; [exact Su|]. rewrite u_calc. unfold calc_with, calc_downwind. fold l0.
  cbn [run_models]. change (w_down w) with false. cbn [orb negb andb bind]. rewrite (u_pass l0 _ H0). f_equal.
  assert (H2 : holds evt no_turb farm o u (rev (pass evt (flip w1) (rev l0)))). { rewrite <- (rev_involutive o). apply holds_rev; [rewrite rev_length; exact u_len|exact Hu]. }
  exact (results_of evt no_turb no_res farm o u _ u_perm H2).
Qed.
Lemma u_unique u v : solves evt no_turb farm (flip w1) (fun i => ambt (tb i)) u -> solves evt no_turb farm (flip w1) (fun i => ambt (tb i)) v -> forall i, (i < n)%nat -> u i = v i.
Proof. exact (solves_unique ambt evt no_turb farm (flip w1) (rev o) u_comm u_perm' u_adm _ u v). Qed.
Lemma u_others i j : In j (others farm i) -> (j < n)%nat.
Proof. unfold others. intros I. apply filter_In in I as [I _]. apply in_seq in I. unfold n. lia. Qed.
Lemma u_slows u j : (j < n)%nat -> slows b (r_ct (fr u j)).
Proof.
  intros Hj. unfold slows. pose proof HB as HB'. unfold good_block in HB'. destruct (b_model b); [exact HB'| |exact I]. destruct (u_good j Hj) as [(Y1 & _ & Y3 & _ & Y5 & _) _]. cbn [fr turbine_results r_ct].
  assert (V : values_in 0 1 (y_C (t_set (tb j)))). { intros x v K. split; [now apply (Y5 x v)|]. apply (HB' (tb j) x v); [now apply nth_In|exact K]. }
  apply (interp_bounds (y_C (t_set (tb j))) (u j) 0 1 _ Y3 V); [lra|]. now apply value_ok.
Qed.
Lemma u_fine fs i : (forall j, (j < n)%nat -> slows b (r_ct (fs j))) -> (forall l, c_low c = Some l -> 0 <= l -> forall j, (j < n)%nat -> 0 <= r_ws (fs j)) -> fine (c_s c) (u_effects fs i).
Proof.
  intros Hs Hu. unfold fine, u_effects. apply Forall_map. apply Forall_forall. intros j J. apply u_others in J. destruct (block_effect _ _ _ _ _) as [[sc r]|] eqn:E; [|exact I].
  destruct (effect_sign c b _ _ _ _ _ HS (Hs j J) E) as (A & B & C). split; [exact A|]. destruct HS as (Hw & _ & _ & _ & _ & _ & _ & [K|[K|(l & K & L)]]).
  - right. rewrite C by exact K. lra.
  - now left.
  - right. destruct B as [->| ->]; [lra|]. apply (Hu l K L). exact J.
Qed.
Lemma u_low u l : solves evt no_turb farm (flip w1) (fun i => ambt (tb i)) u -> c_low c = Some l -> forall j, (j < n)%nat -> l <= u j.
Proof.
  intros S E j Hj. rewrite u_solves in S. rewrite (S j Hj). unfold final_wake, final_delta. assert (Hs : is_ws (c_s c) = true) by apply HS. rewrite Hs, limited_clamp, E. apply limited_low. now apply (low_high c HS).
Qed.
Lemma u_sfine u i : solves evt no_turb farm (flip w1) (fun i => ambt (tb i)) u -> fine (c_s c) (u_effects (fr u) i).
Proof. intros S. apply u_fine; [intros j Hj; now apply u_slows|]. intros l E Hl j Hj. pose proof (u_low u l S E j Hj). cbn. lra. Qed.
Lemma u_nth {B} (f : nat -> B) (d : B) i : (i < n)%nat -> nth i (map f (seq 0 n)) d = f i.
Proof. intros H. rewrite (nth_indep _ d (f 0%nat)) by (rewrite map_length, seq_length; exact H). rewrite map_nth, seq_nth by exact H. reflexivity. Qed.
Lemma u_ext fs fs' i : (forall j, (j < n)%nat -> fs j = fs' j) -> u_effects fs i = u_effects fs' i.
Proof. intros H. unfold u_effects. apply map_ext_in. intros j J. apply u_others in J. now rewrite H. Qed.
Lemma other_is res i : other_effects c (front_only b) farm res i = u_effects (fun j => nth j res no_res) i.
Proof. reflexivity. Qed.
Lemma u_result : exists res, block_farm c b farm = Ok res /\ block_balanced c (front_only b) farm res /\ (forall ys, block_balanced c (front_only b) farm ys -> ys = res) /\ forall j, (j < n)%nat -> r_ws (nth j res no_res) <= c_wsp c.
Proof.
  destruct u_solution as (u & S & E). exists (map (fr u) (seq 0 n)). split; [exact E|]. assert (EX : forall i, u_effects (fun j => nth j (map (fr u) (seq 0 n)) no_res) i = u_effects (fr u) i) by (intros i; apply u_ext; intros j Hj; now apply u_nth).
  split; [split; [rewrite map_length, seq_length; reflexivity|]|split].
  - intros j Hj. cbv zeta. rewrite other_is, EX. rewrite u_nth by exact Hj. pose proof (u_sfine u j S) as Fn. pose proof S as S'. rewrite u_solves in S'. pose proof (S' j Hj) as Ej. rewrite final_limited in Ej by (apply HS || exact Fn). rewrite <- Ej.
    destruct (u_good j Hj) as [(Y1 & Y2 & _) _]. unfold fr. cbn [turbine_results r_ws r_ct r_p]. split; [reflexivity|]. split; apply value_ok; assumption.
  - intros ys [L B]. set (v := fun i => r_ws (nth i ys no_res)). assert (Ey : forall j, (j < n)%nat -> nth j ys no_res = fr v j).
    { intros j Hj. destruct (B j Hj) as (B1 & B2 & B3). cbv zeta in B1, B2, B3. rewrite <- B1 in B2, B3. fold (tb j) in B2, B3. unfold fr, turbine_results, value, v. rewrite B2, B3. now destruct (nth j ys no_res). }
    assert (Sv : solves evt no_turb farm (flip w1) (fun i => ambt (tb i)) v).
    { apply u_solves. intros i Hi. destruct (B i Hi) as (B1 & _). cbv zeta in B1. rewrite other_is in B1. rewrite (u_ext _ (fr v)) in B1 by exact Ey. rewrite final_limited; [exact B1|apply HS|apply HS|]. apply u_fine; [intros j Hj; now apply u_slows|]. intros l El Hl j Hj. cbn [fr turbine_results r_ws]. destruct (B j Hj) as (B2 & _). cbv zeta in B2. unfold v. rewrite B2, El. apply Rle_trans with l; [exact Hl|]. apply limited_low. now apply (low_high c HS). }
    apply (nth_ext _ _ no_res no_res); [rewrite map_length, seq_length; exact L|]. intros j Hj. rewrite L in Hj. fold n in Hj. rewrite u_nth by exact Hj. rewrite Ey by exact Hj. unfold fr. now rewrite (u_unique v u Sv S j Hj).
  - intros j Hj. rewrite u_nth by exact Hj. cbn [fr turbine_results r_ws]. pose proof (u_sfine u j S) as Fn. rewrite u_solves in S. rewrite (S j Hj). destruct HS as (Hw & _ & Hs & Hp & _ & Hl & _). pose proof (final_below (c_s c) (c_low c) (c_high c) (c_wsp c) _ Hs Hp ltac:(lra) Hl Fn). lra.
Qed.
End Calc.
(** ** the numbering of the turbines *)
Lemma covering_perm (cs cs' : list contrib) : Permutation cs cs' -> Permutation (Superp_Spec.covering cs) (Superp_Spec.covering cs').
Proof. induction 1 as [|[e|]|[e|] [e'|]|]; cbn; auto; try reflexivity; try (now constructor); try (etransitivity; eassumption). Qed.
Lemma sum_perm l l' : Permutation l l' -> rsum l = rsum l'.
Proof. unfold rsum. induction 1; cbn; lra. Qed.
Lemma largest_perm l l' : Permutation l l' -> largest l = largest l'.
Proof. induction 1; cbn; [reflexivity|now rewrite IHPermutation| |congruence]. rewrite !Rmax_assoc. f_equal. apply Rmax_comm. Qed.
Lemma combination_perm s q a (cs cs' : list contrib) : Permutation cs cs' -> combination s q a cs = combination s q a cs'.
Proof.
  intros H. apply covering_perm in H. assert (A : Permutation (absol cs) (absol cs')) by (apply Permutation_map; exact H). assert (L : Permutation (local cs) (local cs')) by (apply Permutation_map; exact H).
  assert (S : forall (f : R -> R) l l', Permutation l l' -> rsum (map f l) = rsum (map f l')) by (intros f l l' P; apply sum_perm; now apply Permutation_map).
  assert (G : forall (f : R -> R) l l', Permutation l l' -> largest (map f l) = largest (map f l')) by (intros f l l' P; apply largest_perm; now apply Permutation_map).
  destruct s; cbn; unfold sumsq, sumpow; rewrite ?(sum_perm _ _ A), ?(sum_perm _ _ L), ?(S _ _ _ A), ?(S _ _ _ L), ?(G _ _ _ A), ?(G _ _ _ L), ?(largest_perm _ _ L); try reflexivity.
  - now rewrite (S (fun x => npow x p) _ _ (Permutation_map Rabs A)).
  - now rewrite (S (fun x => npow x p) _ _ (Permutation_map Rabs L)).
Qed.
Section Renumber.
Variables (c : scene) (b : bset) (farm : list (turb ttype)) (p : list nat).
Let n := length farm.
Hypothesis HP : isperm n p.
Lemma p_len : length p = n.
Proof. exact (perm_length _ _ HP). Qed.
Lemma p_lt i : (i < n)%nat -> (nth i p 0 < n)%nat.
Proof. intros H. now apply (perm_nth_lt n). Qed.
Lemma p_inj i j : (i < n)%nat -> (j < n)%nat -> nth i p 0%nat = nth j p 0%nat -> i = j.
Proof. intros Hi Hj E. pose proof (perm_nodup _ _ HP) as N. rewrite NoDup_nth in N. pose proof p_len. apply (N i j); try lia. exact E. Qed.
Lemma renum_others j : (j < n)%nat -> Permutation (map (fun i => nth i p 0%nat) (filter (fun i => negb (i =? j)%nat) (seq 0 n))) (filter (fun i => negb (i =? nth j p 0)%nat) (seq 0 n)).
Proof.
  intros Hj. apply NoDup_Permutation_bis.
  - assert (D : NoDup (filter (fun i => negb (i =? j)%nat) (seq 0 n))) by (apply NoDup_filter, seq_NoDup). assert (B : forall i, In i (filter (fun i => negb (i =? j)%nat) (seq 0 n)) -> (i < n)%nat) by (intros i I; apply filter_In in I as [I _]; apply in_seq in I; lia).
    revert D B. generalize (filter (fun i => negb (i =? j)%nat) (seq 0 n)). induction l as [|a l IH]; intros D B; cbn; constructor; inversion D; subst.
    + intros I. apply in_map_iff in I as (x & E & I). apply p_inj in E; [subst; contradiction|apply B; now right|apply B; now left].
    + apply IH; [assumption|]. intros i I. apply B. now right.
  - rewrite map_length. assert (L : forall k, (k < n)%nat -> length (filter (fun i => negb (i =? k)%nat) (seq 0 n)) = pred n).
    { intros k Hk. assert (P : Permutation (seq 0 n) (k :: filter (fun i => negb (i =? k)%nat) (seq 0 n))).
      { apply NoDup_Permutation; [apply seq_NoDup|constructor; [|apply NoDup_filter, seq_NoDup]|].
        - intros I. apply filter_In in I as [_ I]. now rewrite Nat.eqb_refl in I.
        - intros x. split; intros I.
          + destruct (Nat.eq_dec x k) as [->|N]; [now left|right]. apply filter_In. split; [exact I|]. apply Bool.negb_true_iff. now apply Nat.eqb_neq.
          + destruct I as [<-|I]; [apply in_seq; lia|]. now apply filter_In in I. }
      apply Permutation_length in P. cbn in P. rewrite seq_length in P. lia. }
    rewrite !L; [lia|exact Hj|now apply p_lt].
  - intros x I. apply in_map_iff in I as (i & <- & I). apply filter_In in I as [I N]. apply in_seq in I. apply filter_In. split; [apply in_seq; split; [lia|]; apply p_lt; lia|].
    apply Bool.negb_true_iff in N. apply Nat.eqb_neq in N. apply Bool.negb_true_iff. apply Nat.eqb_neq. intros E. apply p_inj in E; lia.
Qed.
Lemma renum_nth {A} (d : A) (l : list A) i : (i < n)%nat -> nth i (gather d l p) d = nth (nth i p 0%nat) l d.
Proof. intros H. apply nth_gather. rewrite p_len. exact H. Qed.
Lemma renum_balanced res : block_balanced c b farm res -> block_balanced c b (gather no_turb farm p) (gather no_res res p).
Proof.
  intros [L B]. fold n in L. split; [now rewrite !gather_length|]. intros j Hj. rewrite gather_length, p_len in Hj. specialize (B (nth j p 0%nat) (p_lt j Hj)). cbv zeta in *. rewrite !renum_nth by exact Hj.
  replace (combination (c_s c) false (c_wsp c) (other_effects c b (gather no_turb farm p) (gather no_res res p) j)) with (combination (c_s c) false (c_wsp c) (other_effects c b farm res (nth j p 0%nat))); [exact B|].
  apply combination_perm. symmetry. unfold other_effects. rewrite gather_length, p_len. fold n. rewrite <- (Permutation_map _ (renum_others j Hj)), map_map. erewrite map_ext_in; [reflexivity|]. intros i I. cbv beta. apply filter_In in I as [I _]. apply in_seq in I. rewrite !renum_nth by lia. reflexivity.
Qed.
Lemma renum_good : good_farm farm -> good_farm (gather no_turb farm p).
Proof. intros H t I. unfold gather in I. apply in_map_iff in I as (i & <- & I). apply H. apply nth_In. now apply (perm_in n _ i HP). Qed.
Lemma renum_block : good_block b farm -> good_block b (gather no_turb farm p).
Proof.
  unfold good_block. destruct (b_model b); intros H; [exact H| |exact H]. intros t x v I. unfold gather in I. apply in_map_iff in I as (i & <- & I). apply H. apply nth_In. now apply (perm_in n _ i HP).
Qed.
Lemma renum_staggered : staggered c farm -> staggered c (gather no_turb farm p).
Proof.
  intros H i j Hi Hj N. rewrite gather_length, p_len in Hi, Hj. rewrite !renum_nth by assumption. apply H; try (now apply p_lt). intros E. apply N. now apply p_inj.
Qed.
End Renumber.
