(** Proofs for C260. *)
From Coq Require Import Permutation.
From Verif Require Import RBase WindDir_Model WindDir_Proofs Rotor_Model Rotor_Proofs Superp_Model Superp_Spec Superp_Proofs Order_Model Order_Spec Order_Proofs FarmWakes_Model FarmWakes_Spec FarmWakes_Proofs FarmIter_Proofs
  AnyOrder_Model AnyOrder_Spec AnyOrder_Proofs Induction_Model Induction_Spec Induction_Proofs Curves_Model Curves_Spec Curves_Proofs Symm_Model Symm_Proofs PointWakes_Model PointWakes_Proofs Whole_Model Whole_Spec Whole_Proofs Ground_Proofs Misal_Model Misal_Spec.
Local Open Scope R_scope.

Lemma factor_power t p e : mis_factor p (g_yawm (t_set t)) e = cos_power t p e.
Proof.
  unfold mis_factor, cos_power, cosm, yaw_factor. destruct p as [p|]; [|reflexivity]. replace (g_yawm (t_set t) / 180 * PI) with (g_yawm (t_set t) * PI / 180) by field. apply Rpower_mult.
Qed.
Lemma along_axis wd yawm u : centre_rews (rmod (wd + yawm) 360) {| i_wd := wd; i_ws := u; i_w := 1 |} = u * cos (yawm * PI / 180).
Proof.
  unfold centre_rews. rewrite wsp_cos. cbn [i_wd i_ws]. unfold rmod. set (k := rfloor ((wd + yawm) / 360)).
  replace ((wd - (wd + yawm - 360 * IZR k)) * PI / 180) with (- (yawm * PI / 180 - 2 * IZR k * PI)) by field. rewrite cos_neg.
  rewrite cos_minus. replace (2 * IZR k * PI) with (IZR (2 * k) * PI) by (rewrite mult_IZR; reflexivity). assert (C : cos (IZR (2 * k) * PI) = 1 /\ sin (IZR (2 * k) * PI) = 0).
  { split; [|apply sin_eq_0_1; exists (2 * k)%Z; ring]. replace (IZR (2 * k) * PI) with (2 * (IZR k * PI)) by (rewrite mult_IZR; ring). rewrite cos_2a_sin. replace (sin (IZR k * PI)) with 0; [ring|]. symmetry. apply sin_eq_0_1. exists k. ring. }
  destruct C as [-> ->]. ring.
Qed.
Lemma along_wind wd u : centre_rews wd {| i_wd := wd; i_ws := u; i_w := 1 |} = u.
Proof. unfold centre_rews. rewrite wsp_cos. cbn [i_wd i_ws]. replace ((wd - wd) * PI / 180) with 0 by field. rewrite cos_0. ring. Qed.

(** ** turbines with the yaw angle that the rotor model sees *)
Section Sim.
Variable c : scene.
Let T' := (turb mis * R)%type.
Definition lmodel : @wmodel T' tres R R :=
  mkw true (fun _ => 0) (fun s f t d => w_contrib (mis_wmodel c) (fst s) f (fst t) d) (fun _ w d => w + final_delta (c_s c) false (c_low c) (c_high c) (c_wsp c) d).
Definition lamb (_ : T') : R := c_wsp c.
Definition lev (t : T') (u : R) : tres := mis_results (c_wd c) (t_set (fst t)) (snd t, u).
Definition yawed (t : turb mis) : T' := (t, yaw_of (c_wd c) (t_set t)).
(** the same turbine before it is evaluated *)
Definition sim (a : @cell (turb mis) tres R (R * R)) (b : @cell T' tres R R) : Prop := c_t b = yawed (c_t a) /\ snd (c_w a) = c_w b /\ c_d a = c_d b.
Lemma tail_sim : forall l l' k, Forall2 sim l l' -> k = length l -> map (@c_f _ _ _ _) (down_tail (mis_ev c) (mis_wmodel c) l k) = map (@c_f _ _ _ _) (down_tail lev lmodel l' k).
Proof.
  intros l l' k H. revert l l' H. induction k as [|k IH]; intros l l' H E.
  - destruct H; [reflexivity|discriminate].
  - destruct H as [|a b l l' Hab H]; [discriminate|]. cbn [length] in E. injection E as E. cbn [down_tail]. cbv zeta. cbn [map]. destruct Hab as (H1 & H2 & H3).
    assert (Ef : c_f (eval_cell (mis_ev c) (mis_wmodel c) a) = c_f (eval_cell lev lmodel b)). { cbn. unfold mis_ev, lev. rewrite H1, H2, H3. reflexivity. }
    f_equal; [exact Ef|]. apply IH; [|now rewrite map_length]. assert (Et : fst (c_t (eval_cell lev lmodel b)) = c_t (eval_cell (mis_ev c) (mis_wmodel c) a)) by (cbn; now rewrite H1).
    set (a' := eval_cell (mis_ev c) (mis_wmodel c) a) in *. set (b' := eval_cell lev lmodel b) in *. clearbody a' b'. clear -H Ef Et. induction H as [|x y l l' Hxy H IH]; [constructor|]. constructor; [|exact IH].
    destruct Hxy as (X1 & X2 & X3). split; [|split]; [exact X1|exact X2|]. cbn [contrib_cell c_d lmodel w_contrib]. rewrite Et, X1, <- Ef, X3. reflexivity.
Qed.
Lemma calc_sim t ts : calc_downwind (mis_amb c) (mis_ev c) 0 [mis_wmodel c] (t :: ts) = calc_downwind lamb lev 0 [lmodel] ((t, c_wd c) :: map yawed ts).
Proof.
  unfold calc_downwind. rewrite !run_down by (constructor; [reflexivity|constructor]). cbn [fold_left bind]. f_equal. unfold pass. cbn [w_down mis_wmodel lmodel]. unfold start. cbn [map]. cbn [down_pass map]. f_equal.
  rewrite !map_length. apply tail_sim; [|now rewrite !map_length]. rewrite !map_map. induction ts as [|x ts IH]; [constructor|]. cbn [map]. constructor; [|exact IH]. split; [reflexivity|]. split; reflexivity.
Qed.
End Sim.

Section Calc.
Variables (c : scene) (farm : list (turb mis)).
Hypothesis HS : good_scene c.
Hypothesis HF : good_mis farm.
Hypothesis HN : farm <> [].
Let n := length farm.
Let tb (i : nat) := nth i farm no_mis.
Let key (t : turb ttype) : R := vx (t_pos t) * fst (wd2uv (c_wd c) 1) + vy (t_pos t) * snd (wd2uv (c_wd c) 1).
Let o := mis_order c farm.
Let first := nth 0 o 0%nat.
Let lt (i : nat) : turb mis * R := (tb i, if Nat.eqb i first then c_wd c else yaw_of (c_wd c) (t_set (tb i))).
Let farm' := map lt (seq 0 n).
Let w := lmodel c.
Let dT : turb mis * R := (no_mis, 0).

Lemma npos : (0 < n)%nat.
Proof. unfold n. destruct farm; [contradiction|cbn; lia]. Qed.
Lemma mkey : along (uniform c) (map plain farm) = map key (map plain farm).
Proof. apply along_key; assumption || (intros t I; apply in_map_iff in I as (s & <- & I); destruct (HF s I) as (A & B & _); split; assumption). Qed.
Lemma rtot a b : Rleb a b = true \/ Rleb b a = true.
Proof. destruct (Rle_lt_dec a b); [left|right]; apply Rleb_true; lra. Qed.
Lemma rtr a b d : Rleb a b = true -> Rleb b d = true -> Rleb a d = true.
Proof. rewrite !Rleb_true. lra. Qed.
Lemma operm : isperm n o.
Proof. unfold o, mis_order. rewrite mkey. replace n with (length (map key (map plain farm))) by (now rewrite !map_length). apply argsort_perm. Qed.
Lemma plain_nth i : (i < n)%nat -> nth i (map plain farm) no_turb = plain (tb i).
Proof. intros H. rewrite (nth_indep _ no_turb (plain no_mis)) by (now rewrite map_length). apply map_nth. Qed.
Lemma osorted k l : (k < l)%nat -> (l < n)%nat -> key (plain (tb (nth k o 0%nat))) <= key (plain (tb (nth l o 0%nat))).
Proof.
  intros Hk Hl. destruct (farm_order_sorted Rleb key no_turb rtot rtr (map plain farm)) as [_ S]. unfold farm_order in S. rewrite <- mkey in S. fold (mis_order c farm) in S. fold o in S. specialize (S k l Hk). rewrite map_length in S. specialize (S Hl).
  apply Rleb_true in S. rewrite !plain_nth in S by (apply (perm_nth_lt n); [exact operm|lia]). exact S.
Qed.
Lemma farm'_len : length farm' = n.
Proof. unfold farm'. now rewrite map_length, seq_length. Qed.
Lemma farm'_nth i : (i < n)%nat -> nth i farm' dT = lt i.
Proof. intros H. unfold farm'. rewrite (nth_indep _ dT (lt 0%nat)) by (now rewrite map_length, seq_length). rewrite map_nth, seq_nth by exact H. reflexivity. Qed.
Lemma gather_all {A} (d : A) l p : (forall i, In i p -> (i < length l)%nat) -> gather d l p = map (fun i => nth i l d) p.
Proof. reflexivity. Qed.
Lemma split_o : exists rest, o = first :: rest /\ ~ In first rest /\ forall i, In i o -> (i < n)%nat.
Proof.
  pose proof operm as P. pose proof (perm_length _ _ P) as L. pose proof npos as Np. destruct o as [|a rest] eqn:Eo; [cbn in L; lia|]. exists rest. split; [reflexivity|]. pose proof (perm_nodup _ _ P) as D. inversion D; subst. split; [exact H1|].
  intros i I. now apply (perm_in n _ i P).
Qed.
Lemma lifted : mis_farm c farm = calc_with (lamb c) (lev c) dT no_res 0 [w] farm' o.
Proof.
  unfold mis_farm, calc_with. fold o. destruct split_o as (rest & Eo & Nf & B). assert (E1 : gather no_mis farm o = tb first :: map tb rest) by (rewrite Eo; reflexivity).
  assert (E2 : gather dT farm' o = (tb first, c_wd c) :: map (yawed c) (map tb rest)).
  { rewrite Eo. unfold gather. cbn [map]. f_equal.
    - rewrite farm'_nth by (apply B; rewrite Eo; now left). unfold lt. now rewrite Nat.eqb_refl.
    - rewrite map_map. apply map_ext_in. intros i I. rewrite farm'_nth by (apply B; rewrite Eo; now right). unfold lt, yawed. destruct (Nat.eqb_spec i first) as [->|]; [contradiction|reflexivity]. }
  rewrite E1, E2, calc_sim. reflexivity.
Qed.
Lemma mtb i : (i < n)%nat -> good_type (g_type (t_set (tb i))) /\ 0 < t_diam (tb i) /\ 0 < cosm (tb i).
Proof. intros H. apply HF. now apply nth_In. Qed.
Lemma mcontrib s f t d : w_contrib w s f t d = add_wake (c_s c) d (wake_contrib c (g_type (t_set (fst s))) (t_diam (fst s)) f (coords c (plain (fst s)) (plain (fst t)))).
Proof. reflexivity. Qed.
Lemma mneutral t x : w_add w t x (w_new w t) = x.
Proof. destruct HS as (Hw & _ & _ & _ & _ & Hl & Hh & _). cbn. rewrite final_zero; [ring|lra|exact Hl|exact Hh]. Qed.
Lemma mcomm s f s' f' t d : w_contrib w s f t (w_contrib w s' f' t d) = w_contrib w s' f' t (w_contrib w s f t d).
Proof. rewrite !mcontrib. apply add_wake_comm. Qed.
Lemma mcontrib_none s f t d : key (plain (fst t)) <= key (plain (fst s)) -> w_contrib w s f t d = d.
Proof.
  intros H. rewrite mcontrib. unfold wake_contrib. rewrite coords_x by apply HS. replace (Rltb 1e-8 (behind (c_wd c) (plain (fst s)) (plain (fst t)))) with false; [reflexivity|]. symmetry. apply Rltb_false.
  unfold key in H. rewrite uv_explicit in H. cbn [fst snd] in H. unfold behind. set (e := 1e-8). assert (0 < e) by (unfold e; lra). lra.
Qed.
Lemma madm k l : (k < l)%nat -> (l < length farm')%nat -> forall f d, w_contrib w (nth (nth l o 0%nat) farm' dT) f (nth (nth k o 0%nat) farm' dT) d = d.
Proof.
  rewrite farm'_len. intros Hk Hl f d. rewrite !farm'_nth by (apply (perm_nth_lt n); [exact operm|lia]). apply mcontrib_none. cbn [lt fst]. now apply osorted.
Qed.
Lemma operm' : isperm (length farm') o.
Proof. rewrite farm'_len. exact operm. Qed.
(** effects on turbine t *)
Definition meffects (fs : nat -> tres) (t : turb mis) : list contrib := map (fun i => effect c (plain (tb i)) (fs i) (plain t)) (seq 0 n).
Let fr (u : nat -> R) (j : nat) : tres := lev c (lt j) (u j).
Lemma mdeltas (u : nat -> R) i : (i < n)%nat -> deltas w (map (fun j => (nth j farm' dT, lev c (nth j farm' dT) (u j))) (others farm' i)) (nth i farm' dT) (w_new w (nth i farm' dT)) = wake_delta (c_s c) (meffects (fr u) (tb i)).
Proof.
  intros Hi. rewrite farm'_nth by exact Hi. unfold deltas, wake_delta, meffects, others. change (w_new w (lt i)) with 0. rewrite farm'_len. assert (B : forall j, In j (seq 0 n) -> (j < n)%nat) by (intros j J; apply in_seq in J; lia).
  revert B. generalize 0 as d. generalize (seq 0 n) as l. induction l as [|j l IH]; intros d B; cbn [filter map fold_left]; [reflexivity|].
  assert (Ej : forall d, w_contrib w (lt j) (fr u j) (lt i) d = add_wake (c_s c) d (effect c (plain (tb j)) (fr u j) (plain (tb i)))).
  { intros d0. rewrite mcontrib. cbn [lt fst]. f_equal. destruct (mtb j (B j (or_introl eq_refl))) as (Y & Dm & _). rewrite <- effect_ok; [reflexivity|exact HS|exact Y|exact Dm]. }
  destruct (Nat.eqb_spec j i) as [->|N]; cbn [negb].
  - rewrite IH by (intros k K; apply B; now right). f_equal. rewrite <- Ej. symmetry. apply mcontrib_none. lra.
  - cbn [map fold_left fst snd]. rewrite IH by (intros k K; apply B; now right). f_equal. rewrite farm'_nth by (apply B; now left). apply Ej.
Qed.
Lemma msolves u : solves (lev c) dT farm' w (fun i => lamb c (nth i farm' dT)) u <-> forall i, (i < n)%nat -> u i = c_wsp c + final_wake (c_s c) false (c_low c) (c_high c) (c_wsp c) (meffects (fr u) (tb i)).
Proof.
  unfold solves. rewrite farm'_len. split; intros H i Hi; specialize (H i Hi).
  - rewrite H at 1. rewrite mdeltas by exact Hi. reflexivity.
  - rewrite mdeltas by exact Hi. exact H.
Qed.
Lemma msolution : exists u, solves (lev c) dT farm' w (fun i => lamb c (nth i farm' dT)) u /\ mis_farm c farm = Ok (map (fr u) (seq 0 n)).
Proof.
  destruct (pass_solves (lamb c) (lev c) dT farm' w o eq_refl mneutral mcomm operm' madm (fun i => lamb c (nth i farm' dT)) _ (start_holds (lamb c) (lev c) dT 0 farm' o operm')) as (u & Su & Hu).
  exists u. split; [exact Su|]. rewrite lifted. unfold calc_with, calc_downwind. rewrite run_down by (constructor; [reflexivity|constructor]). cbn [fold_left bind].
  f_equal. rewrite (results_of (lev c) dT no_res farm' o u _ operm' Hu), farm'_len. apply map_ext_in. intros i I. apply in_seq in I. rewrite farm'_nth by lia. reflexivity.
Qed.
Lemma munique u v : solves (lev c) dT farm' w (fun i => lamb c (nth i farm' dT)) u -> solves (lev c) dT farm' w (fun i => lamb c (nth i farm' dT)) v -> forall i, (i < n)%nat -> u i = v i.
Proof. intros A B i Hi. refine (solves_unique (lamb c) (lev c) dT farm' w o mcomm operm' madm _ u v A B i _). now rewrite farm'_len. Qed.
(** the results in terms of the wind left over *)
Let pj (j : nat) : R := all_but farm first j.
Lemma lev_explicit j u : fr u j = {| r_ws := u j * pj j; r_ct := value (y_C (g_type (t_set (tb j)))) (u j * pj j * cos_power (tb j) (g_pct (t_set (tb j))) (1 / 2)); r_p := value (y_P (g_type (t_set (tb j)))) (u j * pj j * cos_power (tb j) (g_pP (t_set (tb j))) (1 / 3)) |}.
Proof.
  unfold fr, lev, mis_results. cbn [lt fst snd]. rewrite !factor_power. assert (E : centre_rews (if (j =? first)%nat then c_wd c else yaw_of (c_wd c) (t_set (tb j))) {| i_wd := c_wd c; i_ws := u j; i_w := 1 |} = u j * pj j).
  { unfold pj, all_but. destruct (j =? first)%nat; [rewrite along_wind; ring|]. unfold yaw_of. rewrite along_axis. reflexivity. }
  rewrite E. reflexivity.
Qed.
Lemma pj_pos j : (j < n)%nat -> 0 < pj j.
Proof. intros H. unfold pj, all_but. destruct (j =? first)%nat; [lra|]. now apply mtb. Qed.
Lemma meffects_fine fs t : (forall l, c_low c = Some l -> 0 <= l -> forall j, (j < n)%nat -> 0 <= r_ws (fs j)) -> fine (c_s c) (meffects fs t).
Proof.
  intros Hu. unfold fine, meffects. apply Forall_map. apply Forall_forall. intros j J. apply in_seq in J. destruct (effect _ _ _ _) as [[sc r]|] eqn:E; [|exact I].
  destruct (mtb j ltac:(lia)) as (Y & Dm & _). destruct (effect_neg c (plain (tb j)) (fs j) (plain t) sc r HS Y Dm E) as (A & B & C). split; [exact A|]. destruct HS as (Hw & _ & _ & _ & _ & _ & _ & [K|[K|(l & K & L)]]).
  - right. rewrite C by exact K. lra.
  - now left.
  - right. destruct B as [->| ->]; [lra|]. apply (Hu l K L). lia.
Qed.
Lemma mlow u l : solves (lev c) dT farm' w (fun i => lamb c (nth i farm' dT)) u -> c_low c = Some l -> forall j, (j < n)%nat -> l <= u j.
Proof.
  intros S E j Hj. rewrite msolves in S. rewrite (S j Hj). unfold final_wake, final_delta. assert (Hs : is_ws (c_s c) = true) by apply HS. rewrite Hs, limited_clamp, E. apply limited_low. now apply low_high.
Qed.
Lemma mnth {B} (f : nat -> B) (d : B) i : (i < n)%nat -> nth i (map f (seq 0 n)) d = f i.
Proof. intros H. rewrite (nth_indep _ d (f 0%nat)) by (rewrite map_length, seq_length; exact H). rewrite map_nth, seq_nth by exact H. reflexivity. Qed.
Lemma meffects_ext fs fs' t : (forall j, (j < n)%nat -> fs j = fs' j) -> meffects fs t = meffects fs' t.
Proof. intros H. unfold meffects. apply map_ext_in. intros i I. apply in_seq in I. now rewrite H by lia. Qed.
Lemma left_final res t : fine (c_s c) (meffects (fun j => nth j res no_res) t) -> left_over c farm res t = c_wsp c + final_wake (c_s c) false (c_low c) (c_high c) (c_wsp c) (meffects (fun j => nth j res no_res) t).
Proof. intros H. unfold left_over. symmetry. apply final_limited; [apply HS|apply HS|exact H]. Qed.
Lemma left_low res t l : c_low c = Some l -> l <= left_over c farm res t.
Proof. intros E. unfold left_over. rewrite E. apply limited_low. now apply low_high. Qed.
Lemma mbal_fine proj res t : (forall j, (j < n)%nat -> 0 < proj j) -> mis_balanced c farm proj res -> fine (c_s c) (meffects (fun j => nth j res no_res) t).
Proof. intros Hp [_ B]. apply meffects_fine. intros l E Hl j Hj. destruct (B j Hj) as (E1 & _). cbv zeta in E1. rewrite E1. pose proof (left_low res (nth j farm no_mis) l E). apply Rmult_le_pos; [lra|]. left. now apply Hp. Qed.
Lemma mbalanced u : solves (lev c) dT farm' w (fun i => lamb c (nth i farm' dT)) u -> mis_balanced c farm pj (map (fr u) (seq 0 n)).
Proof.
  intros S. split; [now rewrite map_length, seq_length|]. intros j Hj. cbv zeta. fold (tb j).
  assert (F : fine (c_s c) (meffects (fun j => nth j (map (fr u) (seq 0 n)) no_res) (tb j))).
  { apply meffects_fine. intros l E Hl k Hk. rewrite mnth by exact Hk. rewrite lev_explicit. cbn [r_ws]. pose proof (mlow u l S E k Hk). apply Rmult_le_pos; [lra|]. left. now apply pj_pos. }
  assert (E : left_over c farm (map (fr u) (seq 0 n)) (tb j) = u j).
  { rewrite left_final by exact F. rewrite (meffects_ext _ (fr u)) by (intros k Hk; now rewrite mnth). symmetry. rewrite msolves in S. apply (S j Hj). }
  rewrite E, mnth by exact Hj. rewrite lev_explicit. cbn [r_ws r_ct r_p]. destruct (mtb j Hj) as ((Y1 & Y2 & _) & _). split; [reflexivity|]. split; now apply value_ok.
Qed.
Lemma mbalanced_solution ys : mis_balanced c farm pj ys -> let u := fun i => left_over c farm ys (tb i) in solves (lev c) dT farm' w (fun i => lamb c (nth i farm' dT)) u /\ ys = map (fr u) (seq 0 n).
Proof.
  intros HB u. pose proof HB as [L B]. assert (E : forall j, (j < n)%nat -> nth j ys no_res = fr u j).
  { intros j Hj. destruct (B j Hj) as (B1 & B2 & B3). cbv zeta in B1, B2, B3. fold (tb j) in B1, B2, B3. rewrite lev_explicit. unfold value. unfold u. rewrite B2, B3. rewrite <- B1. now destruct (nth j ys no_res). }
  split.
  - apply msolves. intros i Hi. unfold u at 1. rewrite left_final by (apply (mbal_fine pj); [exact pj_pos|exact HB]). f_equal. f_equal. now apply meffects_ext.
  - apply (nth_ext _ _ no_res no_res); [now rewrite map_length, seq_length|]. intros j Hj. rewrite L in Hj. rewrite mnth by exact Hj. now apply E.
Qed.
Lemma first_up : most_upstream c farm first.
Proof.
  assert (F : (first < n)%nat) by (apply (perm_nth_lt n); [exact operm|exact npos]). split; [exact F|]. intros j Hj. destruct (order_invert n o j operm Hj) as [K E]. set (k := nth j (invert o) 0%nat) in *.
  assert (G : key (plain (tb first)) <= key (plain (tb j))). { destruct (Nat.eq_dec k 0) as [Z|Z]; [unfold first; rewrite <- E, Z; lra|]. rewrite <- E. unfold first. apply osorted; lia. }
  fold (tb first) (tb j). unfold key in G. rewrite uv_explicit in G. cbn [fst snd] in G. unfold behind. lra.
Qed.
Lemma mis_result : exists res, mis_farm c farm = Ok res /\ mis_balanced c farm (all_but farm first) res /\ forall ys, mis_balanced c farm (all_but farm first) ys -> ys = res.
Proof.
  destruct msolution as (u & S & E). eexists. split; [exact E|]. split; [now apply mbalanced|]. intros ys B. destruct (mbalanced_solution ys B) as [S' ->]. apply map_ext_in. intros i I. apply in_seq in I.
  rewrite !lev_explicit. pose proof (munique _ u S' S i ltac:(lia)) as U. cbv beta in U. rewrite U. reflexivity.
Qed.
End Calc.
(** ** bounds *)
Section Bounds.
Variables (c : scene) (farm : list (turb mis)) (proj : nat -> R) (res : list tres).
Hypothesis HS : good_scene c.
Hypothesis HF : good_mis farm.
Hypothesis HP : forall j, (j < length farm)%nat -> 0 < proj j <= 1.
Hypothesis HB : mis_balanced c farm proj res.
Lemma bal_fine t : fine (c_s c) (meffects c farm (fun j => nth j res no_res) t).
Proof.
  destruct HB as [_ B]. unfold fine, meffects. apply Forall_map. apply Forall_forall. intros j J. apply in_seq in J. destruct (effect _ _ _ _) as [[sc r]|] eqn:E; [|exact I].
  destruct (HF _ (nth_In farm no_mis (proj2 J))) as (Y & Dm & _). destruct (effect_neg c (plain (nth j farm no_mis)) (nth j res no_res) (plain t) sc r HS Y Dm E) as (A & B0 & C). split; [exact A|]. destruct HS as (Hw & _ & _ & _ & _ & _ & _ & [K|[K|(l & K & L)]]).
  - right. rewrite C by exact K. lra.
  - now left.
  - right. destruct B0 as [->| ->]; [lra|]. destruct (B j (proj2 J)) as (E1 & _). cbv zeta in E1. rewrite E1. apply Rmult_le_pos; [|left; now apply HP]. unfold left_over. rewrite K. eapply Rle_trans; [exact L|]. apply limited_low. now apply low_high.
Qed.
Lemma left_below t : left_over c farm res t <= c_wsp c.
Proof.
  unfold left_over. rewrite <- final_limited; [|apply HS|apply HS|apply bal_fine]. destruct HS as (Hw & _ & Hs & Hp & _ & Hl & _). pose proof (final_below (c_s c) (c_low c) (c_high c) (c_wsp c) _ Hs Hp ltac:(lra) Hl (bal_fine t)). fold (meffects c farm (fun j => nth j res no_res) t). lra.
Qed.
(** turbines out of the reach of all others *)
Lemma left_all t : (forall i, (i < length farm)%nat -> effect c (plain (nth i farm no_mis)) (nth i res no_res) (plain t) = None \/ exists sc, effect c (plain (nth i farm no_mis)) (nth i res no_res) (plain t) = Some (sc, 0)) -> left_over c farm res t = c_wsp c.
Proof.
  intros H. unfold left_over. rewrite <- final_limited; [|apply HS|apply HS|apply bal_fine]. destruct HS as (Hw & _ & Hs & Hp & _ & Hl & Hh & _). unfold final_wake, wake_delta.
  rewrite Ground_Proofs.zero_effect; [rewrite final_zero; [ring|lra|exact Hl|exact Hh]|exact Hs| |destruct (c_s c); cbn; lra]. intros e He. apply in_map_iff in He as (i & <- & I). apply in_seq in I. apply H. lia.
Qed.
End Bounds.
Lemma cos_power_bounds t p e : 0 < cosm t -> (forall q, p = Some q -> 0 <= q) -> 0 <= e -> 0 < cos_power t p e <= 1.
Proof.
  intros H Hp He. unfold cos_power. destruct p as [p|]; [|lra]. split; [apply exp_pos|]. specialize (Hp p eq_refl). assert (C : cosm t <= 1) by (unfold cosm; apply COS_bound). unfold Rpower. rewrite <- exp_0.
  assert (L : ln (cosm t) <= 0) by (destruct C as [C|C]; [left; rewrite <- ln_1; now apply ln_increasing|rewrite C, ln_1; lra]). assert (E : p * e * ln (cosm t) <= 0) by (assert (0 <= p * e) by nra; nra). destruct E as [E|E]; [left; now apply exp_increasing|rewrite E; lra].
Qed.
(** ** no misalignment *)
Lemma aligned_balanced c farm i0 res : (forall t, In t farm -> g_yawm (t_set t) = 0) -> mis_balanced c farm (all_but farm i0) res <-> balanced c (map plain farm) res.
Proof.
  intros H. assert (C : forall j, (j < length farm)%nat -> cosm (nth j farm no_mis) = 1). { intros j Hj. unfold cosm. rewrite H by (now apply nth_In). replace (0 * PI / 180) with 0 by field. apply cos_0. }
  assert (Pj : forall j, (j < length farm)%nat -> all_but farm i0 j = 1) by (intros j Hj; unfold all_but; destruct (Nat.eqb j i0); [reflexivity|now apply C]).
  assert (Cp : forall j p e, (j < length farm)%nat -> cos_power (nth j farm no_mis) p e = 1) by (intros j p e Hj; unfold cos_power; destruct p; [|reflexivity]; rewrite C by exact Hj; unfold Rpower; rewrite ln_1, Rmult_0_r; apply exp_0).
  assert (N : forall i, (i < length farm)%nat -> nth i (map plain farm) no_turb = plain (nth i farm no_mis)) by (intros i Hi; rewrite (nth_indep _ no_turb (plain no_mis)) by (now rewrite map_length); apply map_nth).
  assert (W : forall j, (j < length farm)%nat -> limited (c_low c) (c_high c) (c_wsp c + combination (c_s c) false (c_wsp c) (map (fun i => effect c (nth i (map plain farm) no_turb) (nth i res no_res) (nth j (map plain farm) no_turb)) (seq 0 (length (map plain farm))))) = left_over c farm res (nth j farm no_mis)).
  { intros j Hj. unfold left_over. rewrite map_length. f_equal. f_equal. f_equal. apply map_ext_in. intros i I. apply in_seq in I. rewrite !N by lia. reflexivity. }
  unfold mis_balanced, balanced. assert (ML : length (map plain farm) = length farm) by apply map_length. split; intros [L B]; (split; [congruence|]); intros j Hj.
  - rewrite ML in Hj. specialize (B j Hj). cbv zeta in *. rewrite (W j Hj). rewrite Pj, !Cp, !Rmult_1_r in B by exact Hj. rewrite N by exact Hj. exact B.
  - assert (Hj' : (j < length (map plain farm))%nat) by (rewrite ML; exact Hj). specialize (B j Hj'). cbv zeta in *. rewrite (W j Hj), N in B by exact Hj. rewrite Pj, !Cp, !Rmult_1_r by exact Hj. exact B.
Qed.
