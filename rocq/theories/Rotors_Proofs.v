(** Proofs for C257. *)
From Coq Require Import Permutation.
From Verif Require Import RBase WindDir_Model WindDir_Proofs Rotor_Model Rotor_Spec Rotor_Proofs Superp_Model Superp_Spec Superp_Proofs Order_Model Order_Spec Order_Proofs FarmWakes_Model FarmWakes_Spec FarmWakes_Proofs FarmIter_Proofs
  AnyOrder_Model AnyOrder_Spec AnyOrder_Proofs Induction_Model Induction_Spec Induction_Proofs Curves_Model Curves_Spec Curves_Proofs Symm_Model Symm_Proofs PointWakes_Model PointWakes_Proofs Whole_Model Whole_Spec Whole_Proofs
  YieldRun_Model YieldRun_Spec YieldRun_Proofs Flow_Model Flow_Spec Flow_Proofs Rotors_Model Rotors_Spec.
Local Open Scope R_scope.

(** ** geometry *)
Lemma rotor_point_on c t p : rotor_point (t_pos t) (c_wd c) (t_diam t) p = on_rotor (c_wd c) t p.
Proof. unfold rotor_point, on_rotor. rewrite uv_explicit. cbn [fst snd]. f_equal; [f_equal|]; field. Qed.
Lemma behind_rotor wd s t p : behind wd s (probe (on_rotor wd t p)) = behind wd s t.
Proof. unfold behind, on_rotor, probe. cbn [t_pos]. unfold vx, vy, vz. cbn [fst snd]. ring. Qed.
(** ** rotor averages *)
Lemma wsp_self c u w : wsp (c_wd c) {| i_wd := c_wd c; i_ws := u; i_w := w |} = u.
Proof. rewrite wsp_cos. cbn [i_ws i_wd]. replace ((c_wd c - c_wd c) * PI / 180) with 0 by lra. rewrite cos_0. ring. Qed.
Lemma flow_map c rule (u : rpt -> R) : rotor_flow c rule (map u rule) = map (fun p => {| i_wd := c_wd c; i_ws := u p; i_w := pw p |}) rule.
Proof. unfold rotor_flow. rewrite combine_map_l, map_map. reflexivity. Qed.
Lemma sgn_sq x : 0 <= x -> sgn x * (x * x) = x ^ 2.
Proof.
  intros H. unfold sgn. destruct (Rltb 0 x) eqn:E; [ring|]. apply Rltb_false in E. assert (x = 0) by lra. subst x. destruct (Rltb 0 0); lra.
Qed.
Lemma mean_nonneg rule k u : good_weights rule -> (forall p, In p rule -> 0 <= u p) -> 0 <= mean_power rule k u.
Proof.
  intros [W _] H. unfold mean_power. induction rule as [|p l IH]; [cbn; lra|]. change (0 <= pw p * u p ^ k + rsum (map (fun p => pw p * u p ^ k) l)).
  assert (0 <= pw p * u p ^ k). { apply Rmult_le_pos; [left; apply W; now left|]. apply pow_le. apply H. now left. }
  assert (0 <= rsum (map (fun p => pw p * u p ^ k) l)). { apply IH; intros; [apply W|apply H]; now right. } lra.
Qed.
Lemma mean_ext rule k u v : (forall p, In p rule -> u p = v p) -> mean_power rule k u = mean_power rule k v.
Proof. intros H. unfold mean_power. f_equal. apply map_ext_in. intros p Hp. now rewrite H. Qed.
Lemma cbrt_pow x : 0 <= x -> 0 <= cbrt x /\ cbrt x ^ 3 = x.
Proof.
  intros H. unfold cbrt. destruct (Reqb x 0) eqn:E.
  - apply Reqb_true in E. subst x. split; [lra|]. cbn. ring.
  - apply Reqb_false in E. assert (P : 0 < x) by lra. assert (Q : 0 < Rpower x (1 / 3)) by apply exp_pos. split; [lra|].
    rewrite <- (Rpower_pow 3 _ Q), Rpower_mult. replace (1 / 3 * INR 3) with 1 by (cbn; field). now apply Rpower_1.
Qed.
Lemma averages c rule y u : good_weights rule -> (forall p, In p rule -> 0 <= u p) ->
  let f := rotor_results c rule y (map u rule) in
  q_ws f = mean_power rule 1 u /\ (0 <= q_ws2 f /\ q_ws2 f ^ 2 = mean_power rule 2 u) /\ (0 <= q_ws3 f /\ q_ws3 f ^ 3 = mean_power rule 3 u) /\ q_ct f = value (y_C y) (q_ws2 f) /\ q_p f = value (y_P y) (q_ws3 f).
Proof.
  intros W H f. unfold f, rotor_results. rewrite flow_map. cbv zeta. cbn [q_ws q_ws2 q_ws3 q_ct q_p].
  assert (N : forall k, 0 <= mean_power rule k u) by (intros; now apply mean_nonneg).
  assert (E1 : rsum (map (fun q => i_w q * wsp (c_wd c) q) (map (fun p => {| i_wd := c_wd c; i_ws := u p; i_w := pw p |}) rule)) = mean_power rule 1 u).
  { rewrite map_map. unfold mean_power. f_equal. apply map_ext. intros p. rewrite wsp_self. cbn [i_w]. ring. }
  assert (E2 : rsum (map (fun q => i_w q * (wsp (c_wd c) q * wsp (c_wd c) q)) (map (fun p => {| i_wd := c_wd c; i_ws := u p; i_w := pw p |}) rule)) = mean_power rule 2 u).
  { rewrite map_map. unfold mean_power. f_equal. apply map_ext. intros p. rewrite !wsp_self. cbn [i_w]. ring. }
  assert (E2' : rsum (map (fun q => i_w q * (sgn (wsp (c_wd c) q) * (wsp (c_wd c) q * wsp (c_wd c) q))) (map (fun p => {| i_wd := c_wd c; i_ws := u p; i_w := pw p |}) rule)) = mean_power rule 2 u).
  { rewrite map_map. unfold mean_power. f_equal. apply map_ext_in. intros p Hp. rewrite !wsp_self, sgn_sq by (now apply H). reflexivity. }
  assert (E3 : rsum (map (fun q => i_w q * (wsp (c_wd c) q * wsp (c_wd c) q * wsp (c_wd c) q)) (map (fun p => {| i_wd := c_wd c; i_ws := u p; i_w := pw p |}) rule)) = mean_power rule 3 u).
  { rewrite map_map. unfold mean_power. f_equal. apply map_ext. intros p. rewrite !wsp_self. cbn [i_w]. ring. }
  unfold rews, rews2, rews3. rewrite E1, E2, E2', E3. split; [apply Rmax_left; apply N|]. split; [|split].
  - rewrite (Rmax_left (mean_power rule 2 u) 0) by apply N.
    assert (G : 0 <= sqrt (mean_power rule 2 u) /\ sqrt (mean_power rule 2 u) ^ 2 = mean_power rule 2 u) by (split; [apply sqrt_pos|apply pow2_sqrt; apply N]). destruct (_ <? _)%nat; exact G.
  - rewrite (Rmax_left (mean_power rule 3 u) 0) by apply N. destruct (_ <? _)%nat; [apply cbrt_pow, N|]. replace (Rltb (mean_power rule 3 u) 0) with false by (symmetry; apply Rltb_false; apply N). apply cbrt_pow, N.
  - split; reflexivity.
Qed.
Lemma pow_strict k a b : 0 <= a -> a < b -> a ^ S k < b ^ S k.
Proof.
  intros Ha L. induction k as [|k IH]; [cbn; lra|]. change (a * a ^ S k < b * b ^ S k). assert (0 <= a ^ S k) by (now apply pow_le). apply Rle_lt_trans with (b * a ^ S k); [apply Rmult_le_compat_r; lra|]. apply Rmult_lt_compat_l; lra.
Qed.
Lemma pow_inj k a b : 0 <= a -> 0 <= b -> a ^ S k = b ^ S k -> a = b.
Proof.
  intros Ha Hb E. destruct (Rtotal_order a b) as [L|[L|L]]; [|exact L|].
  - pose proof (pow_strict k a b Ha L). lra.
  - pose proof (pow_strict k b a Hb L). lra.
Qed.
(** ** the wake model *)
Lemma add_final_zero c k : good_scene c -> forall x, add_final c x (repeat 0 k) = x.
Proof.
  intros (Hw & _ & _ & _ & _ & Hl & Hh & _). induction k as [|k IH]; intros [|a x]; cbn [repeat add_final]; try reflexivity. rewrite IH, final_zero; [f_equal; ring|lra|exact Hl|exact Hh].
Qed.
Lemma add_points_comm c y D f qs y' D' f' qs' : forall d, add_points c y D f qs (add_points c y' D' f' qs' d) = add_points c y' D' f' qs' (add_points c y D f qs d).
Proof.
  revert qs'. induction qs as [|q qs IH]; intros [|q' qs'] [|x d]; cbn [add_points]; try reflexivity. f_equal; [apply add_wake_comm|apply IH].
Qed.
Lemma add_points_none c y D f qs : (forall q, In q qs -> wake_contrib c y D (as_tres f) q = None) -> forall d, add_points c y D f qs d = d.
Proof.
  induction qs as [|q qs IH]; intros H [|x d]; cbn [add_points]; try reflexivity. rewrite H by now left. rewrite IH by (intros; apply H; now right). reflexivity.
Qed.
Lemma add_points_map {X} c y D f (g : X -> vec3) (h : X -> R) l : add_points c y D f (map g l) (map h l) = map (fun p => add_wake (c_s c) (h p) (wake_contrib c y D (as_tres f) (g p))) l.
Proof. induction l as [|p l IH]; cbn [map add_points]; [reflexivity|]. now rewrite IH. Qed.
Lemma add_final_map {X} c a (h : X -> R) l : add_final c (repeat a (length l)) (map h l) = map (fun p => a + final_delta (c_s c) false (c_low c) (c_high c) (c_wsp c) (h p)) l.
Proof. induction l as [|p l IH]; cbn [map length repeat add_final]; [reflexivity|]. now rewrite IH. Qed.
Lemma repeat_map {X} (a : R) (l : list X) : repeat a (length l) = map (fun _ => a) l.
Proof. induction l as [|p l IH]; cbn; [reflexivity|]. now rewrite IH. Qed.

Section Calc.
Variables (c : scene) (rule : list rpt) (farm : list (turb ttype)).
Hypothesis HS : good_scene c.
Hypothesis HL : floor_at_zero c.
Hypothesis HW : good_weights rule.
Hypothesis HF : good_farm farm.
Let n := length farm.
Let tb (i : nat) := nth i farm no_turb.
Let w := as_model rule (uniform c) (rotor_smodel c rule).
Let ambt : turb ttype -> list R := amb (amb_points rule) (uniform c).
Let evt : turb ttype -> list R -> rres := ev (rotor_results c rule).
Let key (t : turb ttype) : R := vx (t_pos t) * fst (wd2uv (c_wd c) 1) + vy (t_pos t) * snd (wd2uv (c_wd c) 1).
Let at_pt (t : turb ttype) (p : rpt) : turb ttype := probe (on_rotor (c_wd c) t p).

Lemma rtb_good i : (i < n)%nat -> good_type (t_set (tb i)) /\ 0 < t_diam (tb i).
Proof. intros H. apply HF. now apply nth_In. Qed.
Lemma rresults_calc : rotor_farm c rule farm = calc_with ambt evt no_turb no_rres [] [w] farm (farm_order Rleb key farm).
Proof. unfold rotor_farm, calc. rewrite along_key by exact HF. reflexivity. Qed.
Lemma rcontrib s f t d : w_contrib w s f t d = add_points c (t_set s) (t_diam s) f (map (fun p => coords c s (at_pt t p)) rule) d.
Proof.
  cbn [w as_model w_contrib rotor_smodel s_contrib]. f_equal. unfold target_points. rewrite map_map. apply map_ext. intros p. unfold at_pt. rewrite coords_probe. cbn [uniform a_wd]. now rewrite rotor_point_on.
Qed.
Lemma rw_neutral t x : w_add w t x (w_new w t) = x.
Proof. cbn. now apply add_final_zero. Qed.
Lemma rw_comm s f s' f' t d : w_contrib w s f t (w_contrib w s' f' t d) = w_contrib w s' f' t (w_contrib w s f t d).
Proof. rewrite !rcontrib. apply add_points_comm. Qed.
Lemma rcontrib_none s f t p : behind (c_wd c) s t <= 0 -> wake_contrib c (t_set s) (t_diam s) f (coords c s (at_pt t p)) = None.
Proof.
  intros H. unfold wake_contrib. rewrite coords_x by apply HS. unfold at_pt. rewrite behind_rotor. replace (Rltb 1e-8 _) with false; [reflexivity|]. symmetry. apply Rltb_false.
  set (e := 1e-8). assert (0 < e) by (unfold e; lra). lra.
Qed.
Lemma rw_adm : admissible no_turb [w] farm (farm_order Rleb key farm).
Proof.
  apply (sorted_admissible Rleb key).
  - intros w' [<-|[]] s f t d H. rewrite rcontrib. apply add_points_none. intros q Hq. apply in_map_iff in Hq as (p & <- & _). apply rcontrib_none. apply Rleb_true in H. unfold behind. unfold key in H. rewrite uv_explicit in H. cbn [fst snd] in H. lra.
  - apply farm_order_sorted; [exact rleb_total|exact rleb_trans].
Qed.
(** contributions to a point of the rotor of turbine i *)
Definition rcontribs (u : nat -> list R) (i : nat) (p : rpt) : list contrib := map (fun j => effect c (tb j) (as_tres (rotor_results c rule (t_set (tb j)) (u j))) (at_pt (tb i) p)) (seq 0 n).
Lemma rdeltas (u : nat -> list R) i : (i < n)%nat -> deltas w (map (fun j => (tb j, evt (tb j) (u j))) (others farm i)) (tb i) (w_new w (tb i)) = map (fun p => wake_delta (c_s c) (rcontribs u i p)) rule.
Proof.
  intros Hi. unfold deltas, wake_delta, rcontribs, others. change (w_new w (tb i)) with (repeat 0 (length rule)). rewrite repeat_map. fold n. assert (B : forall j, In j (seq 0 n) -> (j < n)%nat) by (intros j J; apply in_seq in J; lia).
  assert (G : forall l (d : rpt -> R), (forall j, In j l -> (j < n)%nat) ->
    fold_left (fun d0 sf => w_contrib w (fst sf) (snd sf) (tb i) d0) (map (fun j => (tb j, evt (tb j) (u j))) (filter (fun j => negb (j =? i)%nat) l)) (map d rule) =
    map (fun p => fold_left (add_wake (c_s c)) (map (fun j => effect c (tb j) (as_tres (rotor_results c rule (t_set (tb j)) (u j))) (at_pt (tb i) p)) l) (d p)) rule); [|exact (G (seq 0 n) (fun _ => 0) B)].
  clear B. induction l as [|j l IH]; intros d B; cbn [filter map fold_left]; [reflexivity|]. destruct (Nat.eqb_spec j i) as [->|N]; cbn [negb].
  - rewrite IH by (intros k K; apply B; now right). apply map_ext. intros p. f_equal. rewrite effect_self; [reflexivity|]. unfold at_pt. rewrite behind_rotor. unfold behind. lra.
  - cbn [map fold_left fst snd]. rewrite rcontrib, add_points_map. rewrite (IH (fun p => add_wake (c_s c) (d p) (wake_contrib c (t_set (tb j)) (t_diam (tb j)) (as_tres (evt (tb j) (u j))) (coords c (tb j) (at_pt (tb i) p))))) by (intros k K; apply B; now right).
    apply map_ext. intros p. f_equal. destruct (rtb_good j (B j (or_introl eq_refl))) as [Y Dm]. rewrite effect_ok by auto. reflexivity.
Qed.
Definition rvalue (u : nat -> list R) (i : nat) (p : rpt) : R := c_wsp c + final_wake (c_s c) false (c_low c) (c_high c) (c_wsp c) (rcontribs u i p).
Lemma rsolves_iff u : solves evt no_turb farm w (fun i => ambt (tb i)) u <-> forall i, (i < n)%nat -> u i = map (rvalue u i) rule.
Proof.
  assert (K : forall i, (i < n)%nat -> w_add w (tb i) (ambt (tb i)) (deltas w (map (fun j => (tb j, evt (tb j) (u j))) (others farm i)) (tb i) (w_new w (tb i))) = map (rvalue u i) rule).
  { intros i Hi. rewrite rdeltas by exact Hi. change (ambt (tb i)) with (repeat (c_wsp c) (length rule)). cbn [w as_model w_add rotor_smodel s_add]. rewrite add_final_map. reflexivity. }
  unfold solves. split; intros H i Hi; specialize (H i Hi).
  - rewrite <- K by exact Hi. exact H.
  - rewrite <- K in H by exact Hi. exact H.
Qed.
Lemma rcalc_solution : exists u, solves evt no_turb farm w (fun i => ambt (tb i)) u /\ rotor_farm c rule farm = Ok (map (fun i => rotor_results c rule (t_set (tb i)) (u i)) (seq 0 n)).
Proof.
  set (o := farm_order Rleb key farm). destruct rw_adm as [P A]. fold o in P, A.
  destruct (pass_solves ambt evt no_turb farm w o eq_refl rw_neutral rw_comm P (fun k l Hk Hl f d => A k l Hk Hl w (or_introl eq_refl) f d) (fun i => ambt (tb i)) _ (start_holds ambt evt no_turb [] farm o P)) as (u & Su & Hu).
  exists u. split; [exact Su|]. rewrite rresults_calc. fold o. unfold calc_with, calc_downwind. rewrite run_down by (constructor; [reflexivity|constructor]). cbn [fold_left bind].
  f_equal. exact (results_of evt no_turb no_rres farm o u _ P Hu).
Qed.
Lemma rsolution_unique u v : solves evt no_turb farm w (fun i => ambt (tb i)) u -> solves evt no_turb farm w (fun i => ambt (tb i)) v -> forall i, (i < n)%nat -> u i = v i.
Proof.
  destruct rw_adm as [P A]. exact (solves_unique ambt evt no_turb farm w _ rw_comm P (fun k l Hk Hl f d => A k l Hk Hl w (or_introl eq_refl) f d) (fun i => ambt (tb i)) u v).
Qed.
Lemma rlow : exists l, c_low c = Some l /\ 0 <= l /\ forall h, c_high c = Some h -> l <= h.
Proof. destruct HL as (l & E & L). exists l. split; [exact E|]. split; [exact L|]. exact (low_high c HS l E). Qed.
(** contributions with results whose REWS is not negative *)
Definition effects (res : list tres) (p : vec3) : list contrib := map (fun i => effect c (tb i) (nth i res no_res) (probe p)) (seq 0 n).
Lemma effects_fine res p : (forall j, (j < n)%nat -> 0 <= r_ws (nth j res no_res)) -> fine (c_s c) (effects res p).
Proof.
  intros H. unfold fine, effects. apply Forall_map. apply Forall_forall. intros j J. apply in_seq in J. destruct (effect _ _ _ _) as [[sc r]|] eqn:E; [|exact I].
  destruct (rtb_good j ltac:(lia)) as [Y Dm]. destruct (effect_neg c _ _ _ _ _ HS Y Dm E) as (A & B & _). split; [exact A|]. right. destruct B as [-> | ->]; [left; apply HS|]. apply H. lia.
Qed.
Lemma rews_pos y us : 0 <= q_ws (rotor_results c rule y us).
Proof. unfold rotor_results. cbn [q_ws]. apply Rmax_r. Qed.
Lemma rnth {B} (f : nat -> B) (d : B) i : (i < n)%nat -> nth i (map f (seq 0 n)) d = f i.
Proof. intros H. rewrite (nth_indep _ d (f 0%nat)) by (rewrite map_length, seq_length; exact H). rewrite map_nth, seq_nth by exact H. reflexivity. Qed.
Lemma wind_final' res p : (forall j, (j < n)%nat -> 0 <= r_ws (nth j res no_res)) -> wind_at c farm res p = c_wsp c + final_wake (c_s c) false (c_low c) (c_high c) (c_wsp c) (effects res p).
Proof. intros H. rewrite final_limited; [reflexivity|apply HS|apply HS|now apply effects_fine]. Qed.
Lemma wind_range res p : (forall j, (j < n)%nat -> 0 <= r_ws (nth j res no_res)) -> 0 <= wind_at c farm res p <= c_wsp c /\ forall l, c_low c = Some l -> l <= wind_at c farm res p.
Proof.
  intros H. assert (Lo : forall l, c_low c = Some l -> l <= wind_at c farm res p). { intros l E. unfold wind_at. rewrite E. apply limited_low. exact (low_high c HS l E). }
  split; [|exact Lo]. split. { destruct rlow as (l & E & L & _). specialize (Lo l E). lra. }
  rewrite wind_final' by exact H. destruct HS as (Hw & _ & Hs & Hp & _ & Hl & _). pose proof (final_below (c_s c) (c_low c) (c_high c) (c_wsp c) _ Hs Hp ltac:(lra) Hl (effects_fine res p H)). lra.
Qed.
Lemma at_point_rotor res p : length res = n -> (forall j, (j < n)%nat -> 0 <= r_ws (nth j res no_res)) -> p_ws (at_point c farm res p) = wind_at c farm res p.
Proof.
  intros L H. rewrite wind_final' by exact H. unfold at_point, point_value. cbn [fold_left p_ws flow_wake sm_s sm_quad sm_low sm_high]. do 2 f_equal.
  assert (E : combine farm res = map (fun i => (tb i, nth i res no_res)) (seq 0 n)).
  { unfold n, tb in *. clear -L. revert res L. induction farm as [|t l IH]; intros [|f r] L; try discriminate L; [reflexivity|]. cbn [combine length seq map nth]. f_equal. rewrite (IH r) by (now injection L). rewrite <- seq_shift, map_map. reflexivity. }
  rewrite E, map_map. unfold effects. apply map_ext_in. intros i Hi. apply in_seq in Hi. cbn [flow_wake sm_c fst snd]. rewrite <- coords_probe. destruct (rtb_good i ltac:(lia)) as [Y D]. now apply effect_ok.
Qed.
Let rs (u : nat -> list R) : list rres := map (fun i => rotor_results c rule (t_set (tb i)) (u i)) (seq 0 n).
Lemma rs_tres u j : (j < n)%nat -> nth j (map as_tres (rs u)) no_res = as_tres (rotor_results c rule (t_set (tb j)) (u j)).
Proof. intros H. unfold rs. rewrite map_map. now rewrite rnth. Qed.
Lemma rs_pos u j : (j < n)%nat -> 0 <= r_ws (nth j (map as_tres (rs u)) no_res).
Proof. intros H. rewrite rs_tres by exact H. apply rews_pos. Qed.
Lemma rvalue_wind u i p : rvalue u i p = wind_at c farm (map as_tres (rs u)) (on_rotor (c_wd c) (tb i) p).
Proof.
  rewrite wind_final' by (apply rs_pos). unfold rvalue. do 2 f_equal. unfold rcontribs, effects. apply map_ext_in. intros j J. apply in_seq in J. rewrite rs_tres by lia. reflexivity.
Qed.
Lemma rsolution_balanced u : solves evt no_turb farm w (fun i => ambt (tb i)) u -> rotor_balanced c rule farm (rs u).
Proof.
  intros S. rewrite rsolves_iff in S. split; [unfold rs; now rewrite map_length, seq_length|]. intros j Hj. fold (tb j). cbv zeta. fold n in Hj.
  assert (NJ : nth j (rs u) no_rres = rotor_results c rule (t_set (tb j)) (u j)) by (unfold rs; now rewrite rnth). rewrite NJ.
  assert (U : u j = map (fun p => wind_at c farm (map as_tres (rs u)) (on_rotor (c_wd c) (tb j) p)) rule). { rewrite (S j Hj) at 1. apply map_ext. intros p. apply rvalue_wind. }
  destruct (averages c rule (t_set (tb j)) (fun p => wind_at c farm (map as_tres (rs u)) (on_rotor (c_wd c) (tb j) p)) HW (fun p _ => proj1 (proj1 (wind_range (map as_tres (rs u)) _ (rs_pos u))))) as (A1 & A2 & A3 & A4 & A5). rewrite <- U in A1, A2, A3, A4, A5.
  destruct (rtb_good j Hj) as [(Y1 & Y2 & _) _]. split; [exact A1|]. split; [exact A2|]. split; [exact A3|]. rewrite A4, A5. split; now apply value_ok.
Qed.
Lemma rbalanced_solution ys : rotor_balanced c rule farm ys ->
  let u := fun i => map (fun p => wind_at c farm (map as_tres ys) (on_rotor (c_wd c) (tb i) p)) rule in solves evt no_turb farm w (fun i => ambt (tb i)) u /\ ys = rs u.
Proof.
  intros [L B] u. assert (Lt : length (map as_tres ys) = n) by (now rewrite map_length).
  assert (P0 : forall x, 0 <= wind_at c farm (map as_tres ys) x). { intros x. destruct rlow as (l & E & Hl & Hh). apply Rle_trans with l; [exact Hl|]. unfold wind_at. rewrite E. now apply limited_low. }
  assert (E : ys = rs u).
  { apply (nth_ext _ _ no_rres no_rres); [unfold rs; now rewrite map_length, seq_length|]. intros j Hj. rewrite L in Hj. fold n in Hj. unfold rs. rewrite rnth by exact Hj.
    specialize (B j Hj). cbv zeta in B. fold (tb j) in B. destruct B as (B1 & (B2 & B2') & (B3 & B3') & B4 & B5).
    destruct (averages c rule (t_set (tb j)) (fun p => wind_at c farm (map as_tres ys) (on_rotor (c_wd c) (tb j) p)) HW (fun p _ => P0 _)) as (A1 & (A2 & A2') & (A3 & A3') & A4 & A5). fold (u j) in A1, A2, A2', A3, A3', A4, A5.
    assert (K2 : q_ws2 (nth j ys no_rres) = q_ws2 (rotor_results c rule (t_set (tb j)) (u j))) by (apply (pow_inj 1); [exact B2|exact A2|now rewrite B2', A2']).
    assert (K3 : q_ws3 (nth j ys no_rres) = q_ws3 (rotor_results c rule (t_set (tb j)) (u j))) by (apply (pow_inj 2); [exact B3|exact A3|now rewrite B3', A3']).
    destruct (rtb_good j Hj) as [(Y1 & Y2 & _) _]. rewrite K2, value_ok, <- A4 in B4 by exact Y1. rewrite K3, value_ok, <- A5 in B5 by exact Y2. assert (K4 : q_ct (rotor_results c rule (t_set (tb j)) (u j)) = q_ct (nth j ys no_rres)) by congruence. assert (K5 : q_p (rotor_results c rule (t_set (tb j)) (u j)) = q_p (nth j ys no_rres)) by congruence.
    assert (K1 : q_ws (nth j ys no_rres) = q_ws (rotor_results c rule (t_set (tb j)) (u j))) by (rewrite B1; symmetry; exact A1).
    clear -K1 K2 K3 K4 K5. destruct (nth j ys no_rres) as [x1 x2 x3 x4 x5], (rotor_results c rule (t_set (tb j)) (u j)) as [z1 z2 z3 z4 z5]. cbn [q_ws q_ws2 q_ws3 q_ct q_p] in *. now subst. }
  split; [|exact E]. apply rsolves_iff. intros i Hi. apply map_ext. intros p. rewrite rvalue_wind, <- E. reflexivity.
Qed.
Lemma rotor_result : exists res, rotor_farm c rule farm = Ok res /\ rotor_balanced c rule farm res /\ forall ys, rotor_balanced c rule farm ys -> ys = res.
Proof.
  destruct rcalc_solution as (u & S & E). exists (rs u). split; [exact E|]. split; [now apply rsolution_balanced|]. intros ys B. destruct (rbalanced_solution ys B) as [S' ->]. unfold rs. apply map_ext_in. intros i I. apply in_seq in I.
  rewrite (rsolution_unique _ u S' S i ltac:(lia)). reflexivity.
Qed.
Lemma rotor_nonneg res : rotor_farm c rule farm = Ok res -> length res = n /\ (forall j, (j < n)%nat -> 0 <= r_ws (nth j (map as_tres res) no_res)) /\ rotor_balanced c rule farm res.
Proof.
  intros Er. destruct rcalc_solution as (u & S & E). rewrite E in Er. injection Er as <-. split; [now rewrite map_length, seq_length|]. split; [apply rs_pos|now apply rsolution_balanced].
Qed.
End Calc.
(** ** inequalities of the means *)
Lemma mean_lin rule a b c0 (u : rpt -> R) k1 k2 : good_weights rule -> (forall p, In p rule -> a * u p ^ k1 + b <= c0 * u p ^ k2) -> a * mean_power rule k1 u + b <= c0 * mean_power rule k2 u.
Proof.
  intros [W S] H. assert (G : a * mean_power rule k1 u + b * rsum (map pw rule) <= c0 * mean_power rule k2 u); [|rewrite S in G; lra]. clear S. unfold mean_power. induction rule as [|p l IH]; [cbn; lra|].
  change (a * (pw p * u p ^ k1 + rsum (map (fun p => pw p * u p ^ k1) l)) + b * (pw p + rsum (map pw l)) <= c0 * (pw p * u p ^ k2 + rsum (map (fun p => pw p * u p ^ k2) l))).
  assert (A := IH (fun p Hp => W p (or_intror Hp)) (fun p Hp => H p (or_intror Hp))). assert (B := H p (or_introl eq_refl)). assert (P := W p (or_introl eq_refl)).
  assert (pw p * (a * u p ^ k1 + b) <= pw p * (c0 * u p ^ k2)) by (apply Rmult_le_compat_l; lra). lra.
Qed.
Lemma means_order rule u m1 m2 m3 : good_weights rule -> (forall p, In p rule -> 0 <= u p) -> m1 = mean_power rule 1 u -> 0 <= m2 -> m2 ^ 2 = mean_power rule 2 u -> 0 <= m3 -> m3 ^ 3 = mean_power rule 3 u -> m1 <= m2 <= m3.
Proof.
  intros W H E1 P2 E2 P3 E3. assert (P1 : 0 <= m1) by (rewrite E1; now apply mean_nonneg).
  assert (A : 2 * m1 * mean_power rule 1 u + - (m1 * m1) <= 1 * mean_power rule 2 u). { apply mean_lin; [exact W|]. intros p _. pose proof (Rle_0_sqr (u p - m1)) as Q. unfold Rsqr in Q. cbn [pow]. nra. }
  rewrite <- E1, <- E2 in A. assert (B : m1 <= m2) by (cbn [pow] in A; nra). split; [exact B|].
  assert (C : 3 * m2 * mean_power rule 2 u + - (m2 * m2 * m2) <= 2 * mean_power rule 3 u). { apply mean_lin; [exact W|]. intros p Hp. specialize (H p Hp). assert (0 <= (u p - m2) * (u p - m2) * (2 * u p + m2)) by (apply Rmult_le_pos; [apply Rle_0_sqr|lra]). cbn [pow]. nra. }
  rewrite <- E2, <- E3 in C. destruct (Rle_lt_dec m2 m3) as [Q|Q]; [exact Q|]. exfalso. pose proof (pow_strict 2 m3 m2 P3 Q). cbn [pow] in *. lra.
Qed.
Lemma mean_below rule k u b : good_weights rule -> (forall p, In p rule -> 0 <= u p <= b) -> mean_power rule k u <= b ^ k.
Proof.
  intros W H. pose proof (mean_lin rule 1 0 (b ^ k) u k 0 W) as A. assert (B : mean_power rule 0 u = 1). { destruct W as [_ S]. rewrite <- S. unfold mean_power. f_equal. apply map_ext. intros p. cbn [pow]. ring. }
  rewrite B in A. assert (1 * mean_power rule k u + 0 <= b ^ k * 1); [|lra]. apply A. intros p Hp. cbn [pow]. assert (u p ^ k <= b ^ k) by (apply pow_incr; now apply H). lra.
Qed.
Lemma mean_const rule k u b : good_weights rule -> (forall p, In p rule -> u p = b) -> mean_power rule k u = b ^ k.
Proof.
  intros [_ S] H. unfold mean_power. transitivity (rsum (map (fun p => b ^ k * pw p) rule)). { f_equal. apply map_ext_in. intros p Hp. rewrite H by exact Hp. ring. }
  transitivity (b ^ k * rsum (map pw rule)); [|rewrite S; ring]. clear. induction rule as [|p l IH]; [cbn; ring|]. change (b ^ k * pw p + rsum (map (fun p => b ^ k * pw p) l) = b ^ k * (pw p + rsum (map pw l))). rewrite IH. ring.
Qed.
Lemma wind_undisturbed' c farm res p : good_scene c -> floor_at_zero c -> good_farm farm -> (forall j, (j < length farm)%nat -> 0 <= r_ws (nth j res no_res)) ->
  (forall i, (i < length farm)%nat -> let s := nth i farm no_turb in behind (c_wd c) s (probe p) <= 0 \/ (c_def c = Jensen /\ t_diam s / 2 + y_k (t_set s) * behind (c_wd c) s (probe p) <= beside (c_wd c) s (probe p))) ->
  wind_at c farm res p = c_wsp c.
Proof.
  intros HS HL HF HP H. rewrite (wind_final' c farm HS HF) by exact HP.
  destruct HS as (Hw & _ & Hs & Hp & _ & Hl & Hh & _). assert (D0 : wake_delta (c_s c) (effects c farm res p) = 0).
  { unfold wake_delta, effects. assert (B : forall i, In i (seq 0 (length farm)) -> (i < length farm)%nat) by (intros i J; apply in_seq in J; lia). revert B. generalize (seq 0 (length farm)) as l. induction l as [|i l IH]; intros B; cbn [map fold_left]; [reflexivity|].
    replace (add_wake (c_s c) 0 _) with 0; [apply IH; intros k K; apply B; now right|]. symmetry. specialize (H i (B i (or_introl eq_refl))). cbv zeta in H.
    destruct H as [K|[K1 K2]]; [now rewrite effect_self|]. unfold effect. destruct (Rlt_dec _ _); [|reflexivity]. destruct (Rlt_dec _ _); [|reflexivity].
    unfold formula. rewrite K1. destruct (Rlt_dec _ _) as [L|L]; [lra|]. destruct (c_s c); try discriminate Hs; cbn [add_wake]; rewrite ?Rmult_0_r, ?Rabs_R0, ?npow_0; try lra; try (apply Rmax_left; lra). }
  unfold final_wake. rewrite D0, final_zero; [ring|lra|exact Hl|exact Hh].
Qed.
Lemma on_centre wd t : on_rotor wd t {| py := 0; pz := 0; pw := 1 |} = t_pos t.
Proof. unfold on_rotor. cbn [py pz]. destruct (t_pos t) as [[x y] z]. unfold vx, vy, vz. cbn [fst snd]. f_equal; [f_equal|]; lra. Qed.
Lemma centre_balanced c farm res : good_scene c -> floor_at_zero c -> rotor_balanced c centre_points farm res -> balanced c farm (map as_tres res).
Proof.
  intros HS HL [L B]. split; [now rewrite map_length|]. intros j Hj. specialize (B j Hj). cbv zeta in B |- *. unfold mean_power in B. cbn [centre_points map rsum fold_right pw] in B. rewrite on_centre in B.
  set (u := wind_at c farm (map as_tres res) (t_pos (nth j farm no_turb))) in *. destruct B as (B1 & (B2 & B2') & (B3 & B3') & B4 & B5).
  assert (E : nth j (map as_tres res) no_res = as_tres (nth j res no_rres)) by (change no_res with (as_tres no_rres); apply map_nth). rewrite E. cbn [as_tres r_ws r_ct r_p].
  assert (U0 : 0 <= u). { destruct (rlow c HS HL) as (l & El & Hl & Hh). apply Rle_trans with l; [exact Hl|]. unfold u, wind_at. rewrite El. now apply limited_low. }
  change (q_ws (nth j res no_rres) = u /\ interp (y_C (t_set (nth j farm no_turb))) u = Ok (q_ct (nth j res no_rres)) /\ interp (y_P (t_set (nth j farm no_turb))) u = Ok (q_p (nth j res no_rres))).
  assert (E1 : q_ws (nth j res no_rres) = u) by (rewrite B1; cbn; lra). assert (E2 : q_ws2 (nth j res no_rres) = u) by (apply (pow_inj 1); [exact B2|exact U0|]; rewrite B2'; cbn; lra).
  assert (E3 : q_ws3 (nth j res no_rres) = u) by (apply (pow_inj 2); [exact B3|exact U0|]; rewrite B3'; cbn; lra). rewrite E2 in B4. rewrite E3 in B5. auto.
Qed.
