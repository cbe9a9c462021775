(** Proofs for C258. *)
From Coq Require Import Permutation.
From Verif Require Import RBase WindDir_Model WindDir_Proofs Superp_Model Superp_Spec Superp_Proofs Order_Model Order_Spec Order_Proofs FarmWakes_Model FarmWakes_Spec FarmWakes_Proofs FarmIter_Proofs
  AnyOrder_Model AnyOrder_Spec AnyOrder_Proofs Induction_Model Induction_Spec Induction_Proofs Curves_Model Curves_Spec Curves_Proofs Symm_Model Symm_Proofs PointWakes_Model PointWakes_Proofs Mirror_Model Whole_Model Whole_Spec Whole_Proofs
  Flow_Model Flow_Spec Flow_Proofs More_Spec More_Proofs Ground_Model Ground_Spec.
Local Open Scope R_scope.

Lemma fold_flat {A B C} (f : C -> B -> C) (g : A -> list B) l d : fold_left (fun d a => fold_left f (g a) d) l d = fold_left f (flat_map g l) d.
Proof. revert d. induction l as [|a l IH]; intros d; cbn [flat_map fold_left]; [reflexivity|]. now rewrite fold_left_app, IH. Qed.
Lemma raised_image s h : raised s (Mirror_Model.reflect h (vz (t_pos s))) = image h s.
Proof. unfold raised, image, Mirror_Model.reflect. f_equal. f_equal. ring. Qed.
Lemma images_eq hs s : images hs s = s :: map (fun h => image h s) hs.
Proof. unfold images. f_equal. apply map_ext. intros h. apply raised_image. Qed.
Lemma images_same hs s i : In i (images hs s) -> t_diam i = t_diam s /\ t_set i = t_set s /\ vx (t_pos i) = vx (t_pos s) /\ vy (t_pos i) = vy (t_pos s).
Proof. rewrite images_eq. intros [<-|H]; [auto|]. apply in_map_iff in H as (h & <- & _). cbn. auto. Qed.
Lemma behind_same wd s i t : vx (t_pos i) = vx (t_pos s) -> vy (t_pos i) = vy (t_pos s) -> behind wd i t = behind wd s t.
Proof. intros X Y. unfold behind. now rewrite X, Y. Qed.
Lemma image_effect c hs s f i p : good_scene c -> good_type (t_set s) -> 0 < t_diam s -> In i (images hs s) -> image_contrib c s f i p = effect c i f (probe p).
Proof.
  intros G Y D I. destruct (images_same hs s i I) as (E1 & E2 & _). unfold image_contrib. rewrite <- E1, <- E2. rewrite <- effect_ok; [|exact G|now rewrite E2|now rewrite E1]. f_equal. rewrite coords_probe. reflexivity.
Qed.
Lemma hub_point (t : turb ttype) wd : rotor_point (t_pos t) wd (t_diam t) {| py := 0; pz := 0; pw := 1 |} = t_pos t.
Proof. unfold rotor_point. cbn [py pz]. destruct (t_pos t) as [[x y] z]. unfold vx, vy, vz. cbn [fst snd]. f_equal; [f_equal|]; ring. Qed.
Lemma zero_effect s d cs : is_ws s = true -> (forall c, In c cs -> c = None \/ exists sc, c = Some (sc, 0)) -> accum s d -> fold_left (add_wake s) cs d = d.
Proof.
  intros Hs. revert d. induction cs as [|c cs IH]; intros d H A; [reflexivity|]. cbn [fold_left]. assert (E : add_wake s d c = d).
  { destruct (H c (or_introl eq_refl)) as [->|[sc ->]]; [reflexivity|]. destruct s; try discriminate Hs; cbn [add_wake accum] in *; rewrite ?Rmult_0_r, ?Rabs_R0, ?npow_0; try lra; try (apply Rmax_left; lra). }
  rewrite E. apply IH; [|exact A]. intros; apply H; now right.
Qed.
Lemma reach_effect c s f p : out_of_reach c s p -> effect c s f (probe p) = None \/ exists sc, effect c s f (probe p) = Some (sc, 0).
Proof.
  intros [K|[K1 K2]]; [left; now apply effect_self|]. unfold effect. destruct (Rlt_dec _ _); [|now left]. destruct (Rlt_dec _ _); [|now left]. right. eexists. unfold formula. rewrite K1. destruct (Rlt_dec _ _); [exfalso; lra|reflexivity].
Qed.
Lemma length_seq_nth {A} (d : A) l : map (fun i => nth i l d) (seq 0 (length l)) = l.
Proof. induction l as [|a l IH]; [reflexivity|]. cbn [length seq map nth]. f_equal. rewrite <- seq_shift, map_map. exact IH. Qed.

Lemma combine_at (farm : list (turb ttype)) (res : list tres) : length res = length farm -> combine farm res = map (fun i => (nth i farm no_turb, nth i res no_res)) (seq 0 (length farm)).
Proof.
  revert res. induction farm as [|t l IH]; intros r L; destruct r as [|f r]; try discriminate L; [reflexivity|]. cbn [combine length seq map nth]. f_equal.
  rewrite (IH r) by (now injection L). rewrite <- seq_shift, map_map. reflexivity.
Qed.
(** ** the calculation *)
Section Calc.
Variables (c : scene) (hs : list R) (farm : list (turb ttype)).
Hypothesis HS : good_scene c.
Hypothesis HF : good_farm farm.
Let n := length farm.
Let tb (i : nat) := nth i farm no_turb.
Let w := mirror_wmodel c hs.
Let ambt : turb ttype -> R := amb amb_ws (uniform c).
Let evt : turb ttype -> R -> tres := ev turbine_results.
Let key (t : turb ttype) : R := vx (t_pos t) * fst (wd2uv (c_wd c) 1) + vy (t_pos t) * snd (wd2uv (c_wd c) 1).

Lemma gtb i : (i < n)%nat -> good_type (t_set (tb i)) /\ 0 < t_diam (tb i).
Proof. intros H. apply HF. now apply nth_In. Qed.
Lemma gresults : mirror_farm c hs farm = calc_with ambt evt no_turb no_res 0 [w] farm (farm_order Rleb key farm).
Proof. unfold mirror_farm. rewrite along_key by assumption. reflexivity. Qed.
Lemma gcontrib s f t d : w_contrib w s f t d = fold_left (add_wake (c_s c)) (map (fun i => image_contrib c s f i (t_pos t)) (images hs s)) d.
Proof. cbn [w mirror_wmodel w_contrib]. rewrite hub_point. generalize (images hs s) as l. intros l. revert d. induction l as [|i l IH]; intros d; [reflexivity|]. cbn [map fold_left]. apply IH. Qed.
Lemma gneutral t x : w_add w t x (w_new w t) = x.
Proof. destruct HS as (Hw & _ & _ & _ & _ & Hl & Hh & _). cbn. rewrite final_zero; [ring|lra|exact Hl|exact Hh]. Qed.
Lemma fold_comm1 s cs x d : fold_left (add_wake s) cs (add_wake s d x) = add_wake s (fold_left (add_wake s) cs d) x.
Proof. revert d. induction cs as [|y cs IH]; intros d; [reflexivity|]. cbn [fold_left]. rewrite <- IH. f_equal. apply add_wake_comm. Qed.
Lemma fold_comm2 s cs cs' d : fold_left (add_wake s) cs (fold_left (add_wake s) cs' d) = fold_left (add_wake s) cs' (fold_left (add_wake s) cs d).
Proof. revert d. induction cs as [|y cs IH]; intros d; [reflexivity|]. cbn [fold_left]. rewrite <- IH. f_equal. symmetry. apply fold_comm1. Qed.
Lemma gcomm s f s' f' t d : w_contrib w s f t (w_contrib w s' f' t d) = w_contrib w s' f' t (w_contrib w s f t d).
Proof. rewrite !gcontrib. apply fold_comm2. Qed.
Lemma gcontrib_none s f t d : key t <= key s -> w_contrib w s f t d = d.
Proof.
  intros H. rewrite gcontrib. assert (N : forall i, In i (images hs s) -> image_contrib c s f i (t_pos t) = None).
  { intros i I. destruct (images_same hs s i I) as (_ & _ & X & Y). unfold image_contrib, wake_contrib. replace (wake_coos (t_pos i) (wake_wd (uniform c) s) (t_pos t)) with (coords c i (probe (t_pos t))) by (rewrite coords_probe; reflexivity).
    rewrite coords_x by apply HS. replace (Rltb 1e-8 (behind (c_wd c) i (probe (t_pos t)))) with false; [reflexivity|]. symmetry. apply Rltb_false. rewrite (behind_same _ s i _ X Y).
    unfold key in H. rewrite uv_explicit in H. cbn [fst snd] in H. unfold behind. cbn [probe t_pos]. set (e := 1e-8). assert (0 < e) by (unfold e; lra). lra. }
  revert d N. generalize (images hs s) as l. induction l as [|i l IH]; intros d N; [reflexivity|]. cbn [map fold_left]. rewrite (N i (or_introl eq_refl)). cbn [add_wake]. apply IH. intros; apply N; now right.
Qed.
Lemma rtotal a b : Rleb a b = true \/ Rleb b a = true.
Proof. destruct (Rle_lt_dec a b); [left|right]; apply Rleb_true; lra. Qed.
Lemma rtrans a b d : Rleb a b = true -> Rleb b d = true -> Rleb a d = true.
Proof. rewrite !Rleb_true. lra. Qed.
Lemma gadm : admissible no_turb [w] farm (farm_order Rleb key farm).
Proof.
  apply (sorted_admissible Rleb key).
  - intros w' [<-|[]] s f t d H. apply gcontrib_none. now apply Rleb_true.
  - apply farm_order_sorted; [exact rtotal|exact rtrans].
Qed.
(** all contributions at a point, with given results *)
Definition geffects (fs : nat -> tres) (p : vec3) : list contrib := flat_map (fun j => map (fun i => effect c i (fs j) (probe p)) (images hs (tb j))) (seq 0 n).
Lemma gdeltas (u : nat -> R) i : (i < n)%nat -> deltas w (map (fun j => (tb j, evt (tb j) (u j))) (others farm i)) (tb i) (w_new w (tb i)) = wake_delta (c_s c) (geffects (fun j => turbine_results (t_set (tb j)) (u j)) (t_pos (tb i))).
Proof.
  intros Hi. unfold deltas, wake_delta, geffects, others. rewrite <- fold_flat. change (w_new w (tb i)) with 0. fold n. assert (B : forall j, In j (seq 0 n) -> (j < n)%nat) by (intros j J; apply in_seq in J; lia).
  revert B. generalize 0 as d. generalize (seq 0 n) as l. induction l as [|j l IH]; intros d B; cbn [filter map fold_left]; [reflexivity|].
  assert (Ej : forall d, w_contrib w (tb j) (evt (tb j) (u j)) (tb i) d = fold_left (add_wake (c_s c)) (map (fun i0 => effect c i0 (turbine_results (t_set (tb j)) (u j)) (probe (t_pos (tb i)))) (images hs (tb j))) d).
  { intros d0. rewrite gcontrib. f_equal. apply map_ext_in. intros i0 I0. destruct (gtb j (B j (or_introl eq_refl))) as [Y Dm]. exact (image_effect c hs (tb j) _ i0 _ HS Y Dm I0). }
  destruct (Nat.eqb_spec j i) as [->|N]; cbn [negb].
  - rewrite IH by (intros k K; apply B; now right). f_equal. rewrite <- Ej. symmetry. apply gcontrib_none. lra.
  - cbn [map fold_left fst snd]. rewrite IH by (intros k K; apply B; now right). f_equal. apply Ej.
Qed.
Definition gcs (u : nat -> R) (p : vec3) : list contrib := geffects (fun j => turbine_results (t_set (tb j)) (u j)) p.
Lemma gsolves u : solves evt no_turb farm w (fun i => ambt (tb i)) u <-> forall i, (i < n)%nat -> u i = c_wsp c + final_wake (c_s c) false (c_low c) (c_high c) (c_wsp c) (gcs u (t_pos (tb i))).
Proof.
  unfold solves. split; intros H i Hi; specialize (H i Hi); fold (tb i) in *.
  - rewrite H at 1. change (map (fun j => (nth j farm no_turb, evt (nth j farm no_turb) (u j))) (others farm i)) with (map (fun j => (tb j, evt (tb j) (u j))) (others farm i)). rewrite gdeltas by exact Hi. reflexivity.
  - change (map (fun j => (nth j farm no_turb, evt (nth j farm no_turb) (u j))) (others farm i)) with (map (fun j => (tb j, evt (tb j) (u j))) (others farm i)). rewrite gdeltas by exact Hi. exact H.
Qed.
Lemma gsolution : exists u, solves evt no_turb farm w (fun i => ambt (tb i)) u /\ mirror_farm c hs farm = Ok (map (fun i => turbine_results (t_set (tb i)) (u i)) (seq 0 n)).
Proof.
  set (o := farm_order Rleb key farm). destruct gadm as [P A]. fold o in P, A.
  destruct (pass_solves ambt evt no_turb farm w o eq_refl gneutral gcomm P (fun k l Hk Hl f d => A k l Hk Hl w (or_introl eq_refl) f d) (fun i => ambt (tb i)) _ (start_holds ambt evt no_turb 0 farm o P)) as (u & Su & Hu).
  exists u. split; [exact Su|]. rewrite gresults. fold o. unfold calc_with, calc_downwind. rewrite run_down by (constructor; [reflexivity|constructor]). cbn [fold_left bind].
  f_equal. exact (results_of evt no_turb no_res farm o u _ P Hu).
Qed.
Lemma gunique u v : solves evt no_turb farm w (fun i => ambt (tb i)) u -> solves evt no_turb farm w (fun i => ambt (tb i)) v -> forall i, (i < n)%nat -> u i = v i.
Proof.
  destruct gadm as [P A]. exact (solves_unique ambt evt no_turb farm w _ gcomm P (fun k l Hk Hl f d => A k l Hk Hl w (or_introl eq_refl) f d) (fun i => ambt (tb i)) u v).
Qed.
Lemma geffects_fine fs p : (forall l, c_low c = Some l -> 0 <= l -> forall j, (j < n)%nat -> 0 <= r_ws (fs j)) -> fine (c_s c) (geffects fs p).
Proof.
  intros Hu. unfold fine, geffects. apply Forall_flat_map. apply Forall_forall. intros j J. apply in_seq in J. apply Forall_map. apply Forall_forall. intros i Ii. destruct (effect _ _ _ _) as [[sc r]|] eqn:E; [|exact I].
  destruct (gtb j ltac:(lia)) as [Y Dm]. destruct (images_same hs _ i Ii) as (E1 & E2 & _). rewrite <- E2 in Y. rewrite <- E1 in Dm. destruct (effect_neg c _ _ _ _ _ HS Y Dm E) as (A & B & C). split; [exact A|]. destruct HS as (Hw & _ & _ & _ & _ & _ & _ & [K|[K|(l & K & L)]]).
  - right. rewrite C by exact K. lra.
  - now left.
  - right. destruct B as [->| ->]; [lra|]. apply (Hu l K L). lia.
Qed.
Lemma glow u l : solves evt no_turb farm w (fun i => ambt (tb i)) u -> c_low c = Some l -> forall j, (j < n)%nat -> l <= u j.
Proof.
  intros S E j Hj. rewrite gsolves in S. rewrite (S j Hj). unfold final_wake, final_delta. assert (Hs : is_ws (c_s c) = true) by apply HS. rewrite Hs, limited_clamp, E. apply limited_low. now apply low_high.
Qed.
Lemma gnth {B} (f : nat -> B) (d : B) i : (i < n)%nat -> nth i (map f (seq 0 n)) d = f i.
Proof. intros H. rewrite (nth_indep _ d (f 0%nat)) by (rewrite map_length, seq_length; exact H). rewrite map_nth, seq_nth by exact H. reflexivity. Qed.
Lemma spec_effects res p : map (fun sf => effect c (fst sf) (snd sf) (probe p)) (with_images hs farm res) = geffects (fun j => nth j res no_res) p.
Proof.
  unfold with_images, geffects. fold n. generalize (seq 0 n) as l. induction l as [|j l IH]; [reflexivity|]. cbn [flat_map]. rewrite map_app, IH. f_equal. rewrite images_eq. cbn [map fst snd]. rewrite !map_map. reflexivity.
Qed.
Lemma geffects_ext fs fs' p : (forall j, (j < n)%nat -> fs j = fs' j) -> geffects fs p = geffects fs' p.
Proof. intros H. unfold geffects. assert (B : forall j, In j (seq 0 n) -> (j < n)%nat) by (intros j J; apply in_seq in J; lia). revert B. generalize (seq 0 n) as l. induction l as [|j l IH]; intros B; [reflexivity|]. cbn [flat_map]. rewrite (H j (B j (or_introl eq_refl))), IH; [reflexivity|]. intros; apply B; now right. Qed.
Lemma gbalanced u : solves evt no_turb farm w (fun i => ambt (tb i)) u -> mirror_balanced c hs farm (map (fun i => turbine_results (t_set (tb i)) (u i)) (seq 0 n)).
Proof.
  intros S. split; [now rewrite map_length, seq_length|]. intros j Hj. cbv zeta. fold (tb j).
  assert (E : mirror_wind c hs farm (map (fun i => turbine_results (t_set (tb i)) (u i)) (seq 0 n)) (t_pos (tb j)) = u j).
  { unfold mirror_wind. rewrite spec_effects. rewrite (geffects_ext _ (fun j => turbine_results (t_set (tb j)) (u j))) by (intros k Hk; now rewrite gnth). fold (gcs u (t_pos (tb j))).
    rewrite <- final_limited; [|apply HS|apply HS|]. { symmetry. rewrite gsolves in S. apply (S j Hj). }
    apply geffects_fine. intros l E Hl k Hk. cbn [turbine_results r_ws]. pose proof (glow u l S E k Hk). lra. }
  rewrite E, gnth by exact Hj. cbn [turbine_results r_ws r_ct r_p]. destruct (gtb j Hj) as [(Y1 & Y2 & _) _]. split; [reflexivity|]. split; now apply value_ok.
Qed.
Lemma gwind_low res p l : c_low c = Some l -> l <= mirror_wind c hs farm res p.
Proof. intros E. unfold mirror_wind. rewrite E. apply limited_low. now apply low_high. Qed.
Lemma gbal_fine res p : mirror_balanced c hs farm res -> fine (c_s c) (geffects (fun j => nth j res no_res) p).
Proof. intros [_ B]. apply geffects_fine. intros l E Hl j Hj. destruct (B j Hj) as (E1 & _). cbv zeta in E1. rewrite E1. pose proof (gwind_low res (t_pos (nth j farm no_turb)) l E). lra. Qed.
Lemma gwind_final res p : mirror_balanced c hs farm res -> mirror_wind c hs farm res p = c_wsp c + final_wake (c_s c) false (c_low c) (c_high c) (c_wsp c) (geffects (fun j => nth j res no_res) p).
Proof. intros B. unfold mirror_wind. rewrite spec_effects. symmetry. apply final_limited; [apply HS|apply HS|now apply gbal_fine]. Qed.
Lemma gbalanced_solution ys : mirror_balanced c hs farm ys -> let u := fun i => r_ws (nth i ys no_res) in solves evt no_turb farm w (fun i => ambt (tb i)) u /\ ys = map (fun i => turbine_results (t_set (tb i)) (u i)) (seq 0 n).
Proof.
  intros HB u. pose proof HB as [L B]. assert (E : forall j, (j < n)%nat -> nth j ys no_res = turbine_results (t_set (tb j)) (u j)).
  { intros j Hj. destruct (B j Hj) as (B1 & B2 & B3). cbv zeta in B1, B2, B3. rewrite <- B1 in B2, B3. fold (tb j) in B2, B3. unfold turbine_results, value, u. rewrite B2, B3. now destruct (nth j ys no_res). }
  split.
  - apply gsolves. intros i Hi. destruct (B i Hi) as (B1 & _). cbv zeta in B1. fold (tb i) in B1. unfold u at 1. rewrite B1, gwind_final by exact HB. unfold gcs. f_equal. f_equal. now apply geffects_ext.
  - apply (nth_ext _ _ no_res no_res); [now rewrite map_length, seq_length|]. intros j Hj. rewrite L in Hj. rewrite gnth by exact Hj. now apply E.
Qed.
Lemma mirror_result : exists res, mirror_farm c hs farm = Ok res /\ mirror_balanced c hs farm res /\ forall ys, mirror_balanced c hs farm ys -> ys = res.
Proof.
  destruct gsolution as (u & S & E). eexists. split; [exact E|]. split; [now apply gbalanced|]. intros ys B. destruct (gbalanced_solution ys B) as [S' ->]. apply map_ext_in. intros i I. apply in_seq in I.
  rewrite (gunique _ u S' S i ltac:(lia)). reflexivity.
Qed.
Section Bal.
Variable res : list tres.
Hypothesis HB : mirror_balanced c hs farm res.
Lemma gwind_below p : mirror_wind c hs farm res p <= c_wsp c.
Proof.
  rewrite gwind_final by exact HB. destruct HS as (Hw & _ & Hs & Hp & _ & Hl & _). pose proof (final_below (c_s c) (c_low c) (c_high c) (c_wsp c) _ Hs Hp ltac:(lra) Hl (gbal_fine res p HB)). lra.
Qed.
Lemma gwind_hub j : (j < n)%nat -> mirror_wind c hs farm res (t_pos (tb j)) = r_ws (nth j res no_res).
Proof. intros Hj. destruct HB as [_ B]. destruct (B j Hj) as (E & _). symmetry. exact E. Qed.
Lemma gpoint p : mirror_point c hs farm res p = {| p_ws := mirror_wind c hs farm res p; p_amb := c_wsp c |}.
Proof.
  unfold mirror_point. f_equal. rewrite gwind_final by exact HB. f_equal. unfold final_wake. f_equal. unfold wake_delta, geffects. rewrite <- fold_flat. rewrite combine_at by (destruct HB; assumption). fold n.
  assert (B : forall j, In j (seq 0 n) -> (j < n)%nat) by (intros j J; apply in_seq in J; lia). revert B. generalize 0 as d. generalize (seq 0 n) as l. induction l as [|j l IH]; intros d B; [reflexivity|]. cbn [map fold_left fst snd].
  rewrite IH by (intros; apply B; now right). f_equal. fold (tb j). destruct (gtb j (B j (or_introl eq_refl))) as [Y Dm].
  assert (G : forall i, In i (images hs (tb j)) -> image_contrib c (tb j) (nth j res no_res) i p = effect c i (nth j res no_res) (probe p)) by (intros i Ii; exact (image_effect c hs (tb j) _ i _ HS Y Dm Ii)).
  revert d G. generalize (images hs (tb j)) as li. induction li as [|i li IHi]; intros d G; [reflexivity|]. cbn [map fold_left]. rewrite (G i (or_introl eq_refl)). apply IHi. intros; apply G; now right.
Qed.
Lemma gundisturbed p : (forall s, In s farm -> out_of_reach c s p /\ forall h, In h hs -> out_of_reach c (image h s) p) -> mirror_wind c hs farm res p = c_wsp c.
Proof.
  intros H. rewrite gwind_final by exact HB. destruct HS as (Hw & _ & Hs & Hp & _ & Hl & Hh & _). unfold final_wake, wake_delta. rewrite zero_effect; [rewrite final_zero; [ring|lra|exact Hl|exact Hh]|exact Hs| |destruct (c_s c); cbn; lra].
  intros e He. unfold geffects in He. apply in_flat_map in He as (j & Hj & He). apply in_seq in Hj. apply in_map_iff in He as (i & <- & Ii). apply reach_effect. destruct (H (tb j) ltac:(apply nth_In; fold n; lia)) as [H1 H2]. rewrite images_eq in Ii.
  destruct Ii as [<-|Ii]; [exact H1|]. apply in_map_iff in Ii as (h & <- & Hh'). now apply H2.
Qed.
Lemma gpower j : (j < n)%nat -> Curves_Spec.increasing (y_P (t_set (tb j))) -> c_wsp c <= fst (last (y_P (t_set (tb j))) (0, 0)) -> r_p (nth j res no_res) <= value (y_P (t_set (tb j))) (c_wsp c).
Proof.
  intros Hj Hi Hl. destruct HB as [_ B]. destruct (B j Hj) as (_ & _ & P). cbv zeta in P. fold (tb j) in P. destruct (gtb j Hj) as [(Y1 & Y2 & Y3 & Y4 & Y5 & Y6 & Y7) _].
  destruct (interp_mono _ _ (c_wsp c) Y4 Hi Y6 (gwind_below (t_pos (tb j))) Hl Y2) as (y & y' & A & A' & C). rewrite P in A. injection A as <-. unfold value. now rewrite A'.
Qed.
End Bal.
End Calc.
(** ** mirror symmetry *)
Lemma effect_image c h s f p : effect c (image h s) f (probe p) = effect c s f (probe (image_point h p)).
Proof.
  unfold effect. assert (X : behind (c_wd c) (image h s) (probe p) = behind (c_wd c) s (probe (image_point h p))) by reflexivity. rewrite X.
  assert (B : beside (c_wd c) (image h s) (probe p) = beside (c_wd c) s (probe (image_point h p))). { unfold beside, image, image_point, probe. cbn [t_pos]. unfold vx, vy, vz. cbn [fst snd]. f_equal. ring. }
  now rewrite B.
Qed.
Lemma image_twice h p : image_point h (image_point h p) = p.
Proof. unfold image_point. destruct p as [[x y] z]. unfold vx, vy, vz. cbn [fst snd]. f_equal. ring. Qed.
Lemma flat_perm {A B} (f g : A -> list B) l : (forall a, Permutation (f a) (g a)) -> Permutation (flat_map f l) (flat_map g l).
Proof. intros H. induction l as [|a l IH]; [reflexivity|]. cbn [flat_map]. now apply Permutation_app. Qed.
Lemma mirror_symmetric c h farm res p : good_scene c -> good_farm farm -> mirror_balanced c [h] farm res -> mirror_wind c [h] farm res (image_point h p) = mirror_wind c [h] farm res p.
Proof.
  intros HS HF HB. rewrite !(gwind_final c [h] farm HS HF res) by exact HB. f_equal. unfold final_wake. f_equal. apply wake_delta_perm. unfold geffects. apply flat_perm. intros j. rewrite images_eq. cbn [map].
  rewrite !effect_image, image_twice. apply perm_swap.
Qed.
(** ** further mirrors *)
Section Compare.
Variables (c : scene) (hs more : list R) (farm : list (turb ttype)) (res res' : list tres).
Hypothesis HS : good_scene c.
Hypothesis HF : good_farm farm.
Hypothesis HB : mirror_balanced c hs farm res.
Hypothesis HB' : mirror_balanced c (hs ++ more) farm res'.
Let n := length farm.
Lemma gwind_ct i (r : list tres) (h : list R) : mirror_balanced c h farm r -> (i < n)%nat -> interp (y_C (t_set (nth i farm no_turb))) (r_ws (nth i r no_res)) = Ok (r_ct (nth i r no_res)) /\ r_ws (nth i r no_res) <= c_wsp c /\ (forall l, c_low c = Some l -> l <= r_ws (nth i r no_res)).
Proof.
  intros B Hi. pose proof B as [_ Bb]. destruct (Bb i Hi) as (E1 & E2 & _). cbv zeta in E1, E2. rewrite <- E1 in E2. split; [exact E2|]. rewrite E1. split; [now apply gwind_below|]. intros l El. now apply gwind_low.
Qed.
(** the effect of the same source with less wind *)
Lemma geffect_worse i s t : of_ambient c -> steady_thrust c (t_set (nth i farm no_turb)) -> (i < n)%nat -> t_diam s = t_diam (nth i farm no_turb) -> t_set s = t_set (nth i farm no_turb) ->
  (1e-8 < behind (c_wd c) s t -> r_ws (nth i res' no_res) <= r_ws (nth i res no_res)) -> worse (c_s c) (effect c s (nth i res no_res) t) (effect c s (nth i res' no_res) t).
Proof.
  intros HA HT Hi Ed Es Hw. destruct (HF _ (nth_In farm no_turb Hi)) as [Y D]. rewrite <- Es in Y. rewrite <- Ed in D. destruct (gwind_ct i res hs HB Hi) as (C1 & U1 & L1). destruct (gwind_ct i res' (hs ++ more) HB' Hi) as (C2 & U2 & L2).
  destruct (effect c s (nth i res no_res) t) as [[sc r]|] eqn:E; destruct (effect c s (nth i res' no_res) t) as [[sc' r']|] eqn:E'; cbn [worse]; [| |destruct (effect_neg c _ _ _ _ _ HS Y D E') as (A1 & A2 & A3)|exact I].
  3:{ split; [exact A1|]. destruct HA as [K|K]; [right; rewrite A3 by exact K; destruct HS; lra|left; exact K]. }
  all: unfold effect in E, E'; destruct (Rlt_dec 1e-8 (behind (c_wd c) s t)) as [L|L]; [|discriminate]; specialize (Hw L); pose proof (HT _ _ _ _ L2 Hw U1 C2 C1) as TH.
  - destruct (Rlt_dec 1e-8 (r_ct (nth i res no_res))) as [K1|K1]; [|discriminate]. destruct (Rlt_dec 1e-8 (r_ct (nth i res' no_res))) as [K2|K2]; [|discriminate].
    assert (E0 : effect c s (nth i res no_res) t = Some (sc, r)). { unfold effect. destruct (Rlt_dec _ _); [|contradiction]. destruct (Rlt_dec _ _); [|contradiction]. exact E. }
    destruct (effect_neg c _ _ _ _ _ HS Y D E0) as (A1 & _ & A3). injection E as <- <-. injection E' as <- <-. split; [|split; [exact A1|]].
    + set (e := 1e-8) in *. assert (0 < e) by (unfold e; lra). apply formula_le; [exact D|apply Y|lra|exact TH].
    + destruct HA as [K|K]; [right|left; exact K]. rewrite K in *. split; [reflexivity|]. destruct HS; lra.
  - destruct (Rlt_dec 1e-8 (r_ct (nth i res no_res))) as [K1|K1]; [|discriminate]. destruct (Rlt_dec 1e-8 (r_ct (nth i res' no_res))) as [K2|K2]; [discriminate|]. apply Rnot_lt_le in K2. set (e := 1e-8) in *. destruct (c_def c); lra.
Qed.
Lemma images_app hs1 hs2 s : images (hs1 ++ hs2) s = images hs1 s ++ map (fun h => image h s) hs2.
Proof. rewrite !images_eq. now rewrite map_app. Qed.
Lemma split_effects {A B} (f g : A -> list B) l : Permutation (flat_map (fun a => f a ++ g a) l) (flat_map f l ++ flat_map g l).
Proof.
  induction l as [|a l IH]; [reflexivity|]. cbn [flat_map]. rewrite <- !app_assoc. apply Permutation_app_head. rewrite IH. rewrite !app_assoc. apply Permutation_app_tail. apply Permutation_app_comm.
Qed.
Lemma gsplit fs p : Permutation (geffects c (hs ++ more) farm fs p) (geffects c hs farm fs p ++ flat_map (fun j => map (fun h => effect c (image h (nth j farm no_turb)) (fs j) (probe p)) more) (seq 0 n)).
Proof.
  unfold geffects. etransitivity; [|apply (split_effects (fun j => map (fun i => effect c i (fs j) (probe p)) (images hs (nth j farm no_turb))))]. fold n. erewrite flat_map_ext; [reflexivity|]. intros j. cbv beta. rewrite images_app, map_app, map_map. reflexivity.
Qed.
Lemma gpoint_less p : of_ambient c -> (forall t, In t farm -> steady_thrust c (t_set t)) ->
  (forall i, (i < n)%nat -> 1e-8 < behind (c_wd c) (nth i farm no_turb) (probe p) -> r_ws (nth i res' no_res) <= r_ws (nth i res no_res)) -> mirror_wind c (hs ++ more) farm res' p <= mirror_wind c hs farm res p.
Proof.
  intros HA HT H. rewrite (gwind_final c hs farm HS HF res p HB), (gwind_final c (hs ++ more) farm HS HF res' p HB'). apply Rplus_le_compat_l. pose proof (gbal_fine c _ farm HS HF res' p HB') as Fm. pose proof (gsplit (fun j => nth j res' no_res) p) as Pm.
  unfold fine in Fm. rewrite Pm in Fm. apply Forall_app in Fm as [_ Fm]. unfold final_wake at 1. rewrite (wake_delta_perm (c_s c) _ _ Pm). destruct HS as (Hw & _ & Hs & Hp & _). apply (final_worse (c_s c) (c_low c) (c_high c) (c_wsp c)); [exact Hs|exact Hp|lra|exact (gbal_fine c hs farm HS HF res p HB)|exact Fm|].
  unfold geffects. fold n. assert (B : forall i, In i (seq 0 n) -> (i < n)%nat) by (intros i J; apply in_seq in J; lia). revert B. generalize (seq 0 n) as l. induction l as [|j l IH]; intros B; [constructor|]. cbn [flat_map]. apply Forall2_app; [|apply IH; intros; apply B; now right].
  assert (Hj : (j < n)%nat) by (apply B; now left). assert (G : forall i, In i (images hs (nth j farm no_turb)) -> worse (c_s c) (effect c i (nth j res no_res) (probe p)) (effect c i (nth j res' no_res) (probe p))).
  { intros i Ii. destruct (images_same hs _ i Ii) as (E1 & E2 & X & Y). apply geffect_worse; [exact HA|apply HT; now apply nth_In|exact Hj|exact E1|exact E2|]. intros L. apply H; [exact Hj|]. now rewrite (behind_same _ _ i _ X Y) in L. }
  revert G. generalize (images hs (nth j farm no_turb)) as li. induction li as [|i li IHi]; intros G; [constructor|]. cbn [map]. constructor; [apply G; now left|]. apply IHi. intros; apply G; now right.
Qed.
Lemma gwind_less j : of_ambient c -> (forall t, In t farm -> steady_thrust c (t_set t)) -> (j < n)%nat -> r_ws (nth j res' no_res) <= r_ws (nth j res no_res).
Proof.
  intros HA HT. revert j. apply (down_ind n (fun j => - (vx (t_pos (nth j farm no_turb)) * sin (c_wd c * PI / 180) + vy (t_pos (nth j farm no_turb)) * cos (c_wd c * PI / 180)))). intros j Hj IH.
  rewrite <- (gwind_hub c hs farm res HB j Hj). rewrite <- (gwind_hub c (hs ++ more) farm res' HB' j Hj). apply gpoint_less; [exact HA|exact HT|]. intros i Hi L. apply IH; [exact Hi|].
  unfold behind in L. cbn [probe t_pos] in L. set (e := 1e-8) in *. assert (0 < e) by (unfold e; lra). lra.
Qed.
(** images whose wakes reach no hub *)
Lemma gno_effect (r : list tres) p : mirror_balanced c hs farm r -> (forall s h, In s farm -> In h more -> out_of_reach c (image h s) p) ->
  final_wake (c_s c) false (c_low c) (c_high c) (c_wsp c) (geffects c (hs ++ more) farm (fun j => nth j r no_res) p) = final_wake (c_s c) false (c_low c) (c_high c) (c_wsp c) (geffects c hs farm (fun j => nth j r no_res) p).
Proof.
  intros Br H. unfold final_wake. f_equal. rewrite (wake_delta_perm (c_s c) _ _ (gsplit _ p)). unfold wake_delta. rewrite fold_left_app. apply zero_effect; [apply HS| |apply fine_accum; [apply HS|now apply gbal_fine]].
  intros e He. apply in_flat_map in He as (j & Hj & He). apply in_seq in Hj. apply in_map_iff in He as (h & <- & Hh). apply reach_effect. apply H; [apply nth_In; fold n; lia|exact Hh].
Qed.
Lemma gsame_wind (r : list tres) p : mirror_balanced c hs farm r -> (forall s h, In s farm -> In h more -> out_of_reach c (image h s) p) -> mirror_wind c (hs ++ more) farm r p = mirror_wind c hs farm r p.
Proof.
  intros Br H. rewrite (gwind_final c hs farm HS HF r p Br). rewrite <- (gno_effect r p Br H). unfold mirror_wind. rewrite spec_effects. symmetry. apply final_limited; [apply HS|apply HS|]. apply geffects_fine; [exact HS|exact HF|].
  intros l E Hl j Hj. destruct (gwind_ct j r hs Br Hj) as (_ & _ & L). specialize (L l E). lra.
Qed.
Lemma gsame : (forall s h t, In s farm -> In h more -> In t farm -> out_of_reach c (image h s) (t_pos t)) -> res' = res.
Proof.
  intros H. destruct (mirror_result c (hs ++ more) farm HS HF) as (r & _ & _ & U). rewrite (U res' HB'). symmetry. apply U. pose proof HB as [L B]. split; [exact L|]. intros j Hj. cbv zeta. rewrite (gsame_wind res _ HB); [exact (B j Hj)|].
  intros s h Hs Hh. apply H; [exact Hs|exact Hh|now apply nth_In].
Qed.
End Compare.
Lemma mirror_none c farm res : mirror_balanced c [] farm res <-> balanced c farm res.
Proof.
  assert (E : forall p, mirror_wind c [] farm res p = wind_at c farm res p).
  { intros p. unfold mirror_wind, wind_at. f_equal. f_equal. f_equal. unfold with_images. cbn [map]. generalize (seq 0 (length farm)) as l. induction l as [|j l IH]; [reflexivity|]. cbn [flat_map map app fst snd]. now rewrite <- IH. }
  unfold mirror_balanced, balanced. split; intros [L B]; (split; [exact L|]); intros j Hj; specialize (B j Hj); cbv zeta in *; rewrite E in *; exact B.
Qed.
