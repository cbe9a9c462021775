(** C265: blockage models alone with the downwind algorithm. *)
From Coq Require Import Permutation.
From Verif Require Import RBase WindDir_Model Superp_Model Superp_Spec Induction_Proofs Blockage_Model Blockage_Proofs Curves_Model Curves_Spec Order_Model Order_Spec Order_Proofs FarmWakes_Model AnyOrder_Model Symm_Model Whole_Model Whole_Spec Whole_Proofs More_Props UpWake_Model UpWake_Spec UpWake_Proofs.
Local Open Scope R_scope.

(** With no two turbines at the same distance along the wind, the farm calculation returns the one and only set of results in which every turbine has the wind speed that the blockage of all other turbines leaves over
    in front of them, and no turbine has more wind than the state. Missing: turbines side by side, and the effect behind the rotors. *)
Theorem C265_balance_partial : forall c b farm, good_scene c -> good_block b farm -> good_farm farm -> staggered c farm ->
  exists res, block_farm c b farm = Ok res /\ block_balanced c (front_only b) farm res /\ (forall ys, block_balanced c (front_only b) farm ys -> ys = res) /\ forall j, (j < length farm)%nat -> r_ws (nth j res no_res) <= c_wsp c.
Proof. intros. now apply u_result. Qed.
Print Assumptions C265_balance_partial.
(** Hence the choice between the region in front of the rotors and both regions is without effect on the turbines. *)
Theorem C265_region_ignored : forall c m farm, good_scene c -> good_block {| b_model := m; b_pre := true |} farm -> good_farm farm -> staggered c farm ->
  block_farm c {| b_model := m; b_pre := false |} farm = block_farm c {| b_model := m; b_pre := true |} farm.
Proof.
  intros c m farm HS Hg HF HT. destruct (u_result c {| b_model := m; b_pre := false |} farm HS Hg HF HT) as (r & E & B & U & _). destruct (u_result c {| b_model := m; b_pre := true |} farm HS Hg HF HT) as (r' & E' & B' & _ & _).
  rewrite E, E'. f_equal. symmetry. apply U. exact B'.
Qed.
Print Assumptions C265_region_ignored.
(** Renumbering the turbines renumbers the results. *)
Theorem C265_numbering : forall c b farm p, good_scene c -> good_block b farm -> good_farm farm -> staggered c farm -> Permutation p (seq 0 (length farm)) ->
  exists res, block_farm c b farm = Ok res /\ block_farm c b (map (fun i => nth i farm no_turb) p) = Ok (map (fun i => nth i res no_res) p).
Proof.
  intros c b farm p HS HB HF HT HP. assert (P : isperm (length farm) p) by exact HP. destruct (u_result c b farm HS HB HF HT) as (res & E & B & _). exists res. split; [exact E|].
  destruct (u_result c b (gather no_turb farm p) HS (renum_block b farm p P HB) (renum_good farm p P HF) (renum_staggered c farm p P HT)) as (res' & E' & _ & U & _). change (map (fun i => nth i farm no_turb) p) with (gather no_turb farm p). rewrite E'. f_equal. symmetry. apply U. now apply renum_balanced.
Qed.
Print Assumptions C265_numbering.
Lemma behind_xy xs ys xt yt : behind 270 (at_xy xs ys) (at_xy xt yt) = xt - xs.
Proof.
  assert (S1 : sin (270 * PI / 180) = -1) by (replace (270 * PI / 180) with (3 * (PI / 2)) by field; apply sin_3PI2). assert (K1 : cos (270 * PI / 180) = 0) by (replace (270 * PI / 180) with (3 * (PI / 2)) by field; apply cos_3PI2).
  unfold behind. rewrite S1, K1. cbn. unfold vx, vy. cbn. lra.
Qed.
Lemma beside_xy xs ys xt yt : beside 270 (at_xy xs ys) (at_xy xt yt) = Rabs (yt - ys).
Proof.
  assert (S1 : sin (270 * PI / 180) = -1) by (replace (270 * PI / 180) with (3 * (PI / 2)) by field; apply sin_3PI2). assert (K1 : cos (270 * PI / 180) = 0) by (replace (270 * PI / 180) with (3 * (PI / 2)) by field; apply cos_3PI2).
  unfold beside. rewrite S1, K1. cbn. unfold vx, vy, vz. cbn. cbv zeta. rewrite <- sqrt_Rsqr_abs. f_equal. unfold Rsqr. ring.
Qed.
Lemma slow_strict c b ct x r : 0 < c_ctmax c <= 1 -> b_model b = SelfSimilar (11/10) -> 0 < ct -> x <= 0 -> 0 < slow_down c b ct x r.
Proof.
  intros Hc Hg Ht Hx. rewrite <- slow_is. unfold block_formula. rewrite Hg. unfold ss_block. pose proof (mu_bounds x Hx). pose proof (rad_bounds (ss_r_half x) r). pose proof (betz_pos (c_ctmax c) (11/10 * ct) ltac:(lra) ltac:(lra) ltac:(nra)).
  apply Rmult_lt_0_compat; [apply Rmult_lt_0_compat|]; tauto.
Qed.
Lemma tube_farm l : (forall t, In t l -> exists x y, t = at_xy x y) -> good_farm l.
Proof. intros H t I. destruct (H t I) as (x & y & ->). destruct (tube_good (at_xy 500 40) (or_introl eq_refl)) as [G _]. split; [exact G|]. cbn. lra. Qed.
Definition g11 (pre : bool) : bset := {| b_model := SelfSimilar (11/10); b_pre := pre |}.
(** the downwind algorithm for two turbines in the given order *)
Lemma two_up {T F D W} (am : T -> W) (e : T -> W -> F) dT dF d0 (w : @wmodel T F D W) A B : w_down w = false ->
  calc_with am e dT dF d0 [w] [A; B] [0%nat; 1%nat] = Ok [e A (w_add w A (am A) (w_contrib w B (e B (am B)) A (w_new w A))); e B (am B)].
Proof. intros H. unfold calc_with, calc_downwind, gather, start. cbn [map nth run_models]. unfold pass. rewrite H. reflexivity. Qed.
(** Turbines side by side slow each other down alike. False: one of two equal turbines at the same distance along the wind has the wind speed of the state, the other one less. *)
Theorem C265_side_by_side_refuted : exists c b A B res, good_scene c /\ good_block b [A; B] /\ good_farm [A; B] /\ t_set A = t_set B /\ t_diam A = t_diam B /\ behind (c_wd c) A B = 0 /\ beside (c_wd c) A B = beside (c_wd c) B A /\
  block_farm c b [A; B] = Ok res /\ r_ws (nth 0 res no_res) < c_wsp c /\ r_ws (nth 1 res no_res) = c_wsp c.
Proof.
  pose proof west_amb_good as HS. assert (HF : good_farm [at_xy 0 0; at_xy 0 200]). { apply tube_farm. intros t [<-|[<-|[]]]; eauto. }
  exists west_amb, (g11 true), (at_xy 0 0), (at_xy 0 200). eexists. split; [exact HS|]. split; [cbn; lra|]. split; [exact HF|]. split; [reflexivity|]. split; [reflexivity|].
  change (c_wd west_amb) with 270. rewrite behind_xy, !beside_xy. split; [lra|]. split; [rewrite Rabs_minus_sym; reflexivity|].
  assert (O : argsort Rleb (along (uniform west_amb) [at_xy 0 0; at_xy 0 200]) = [0%nat; 1%nat]).
  { rewrite along_key by assumption. rewrite uv_explicit. change (c_wd west_amb) with 270. assert (K1 : cos (270 * PI / 180) = 0) by (replace (270 * PI / 180) with (3 * (PI / 2)) by field; apply cos_3PI2). rewrite K1. cbn [map]. unfold argsort, isort. cbn [length seq combine fold_right insert fst snd at_xy t_pos].
    match goal with |- context [Rleb ?a ?b] => replace (Rleb a b) with true end; [reflexivity|]. symmetry. apply Rleb_true. unfold vx, vy. cbn. lra. }
  split.
  { unfold block_farm, calc. rewrite O. cbn [map]. apply two_up. reflexivity. }
  cbn [nth]. split; [|reflexivity].
  match goal with |- r_ws (ev turbine_results ?t ?x) < _ => change (r_ws (ev turbine_results t x)) with x end.
  rewrite u_contrib by exact HS. cbn [as_model w_add w_new block_smodel s_add s_new].
  match goal with |- context [block_effect _ _ _ ?f _] => set (fB := f) end. assert (Ct : r_ct fB = 8/9). { unfold fB. change (r_ct (ev turbine_results (at_xy 0 200) (amb amb_ws (uniform west_amb) (at_xy 0 200)))) with (value (y_C tube) 10). unfold value. rewrite tube_ct by lra. reflexivity. }
  unfold block_effect. cbv zeta. rewrite Ct. unfold radii_behind. change (c_wd west_amb) with 270. rewrite behind_xy. replace ((0 - 0) / (t_diam (at_xy 0 200) / 2)) with 0 by (cbn; field). rewrite round12_0.
  destruct (Rlt_dec 1e-8 (8/9)) as [L|L]; [|lra]. destruct (Rle_dec 0 0) as [M|M]; [|lra].
  pose proof (slow_strict west_amb (g11 true) (8/9) 0 (radii_beside west_amb (at_xy 0 200) (at_xy 0 0)) ltac:(cbn; lra) eq_refl ltac:(lra) ltac:(lra)) as SP.
  set (s := slow_down _ _ _ _ _) in *. cbn [west_amb c_amb c_wsp c_s c_low c_high add_wake final_delta is_ws]. change (amb amb_ws (uniform west_amb) (at_xy 0 0)) with 10. rewrite limited_clamp. unfold limited. cbn [raw_final]. cbv zeta. apply Rmax_lub_lt; lra.
Qed.
Print Assumptions C265_side_by_side_refuted.
Definition two : list (turb ttype) := [at_xy 0 0; at_xy 500 100].
Lemma two_good : good_farm two.
Proof. apply tube_farm. intros t [<-|[<-|[]]]; eauto. Qed.
Lemma two_staggered : staggered west_amb two.
Proof.
  intros i j Hi Hj N. cbn in Hi, Hj. change (c_wd west_amb) with 270. destruct i as [|[|i]], j as [|[|j]]; try lia; cbn [two nth]; rewrite behind_xy; cbn [at_xy t_diam]; unfold Rabs; destruct (Rcase_abs _); lra.
Qed.
Lemma two_ct b res j : block_balanced west_amb (front_only b) two res -> (forall j, (j < 2)%nat -> r_ws (nth j res no_res) <= 10) -> (j < 2)%nat -> r_ct (nth j res no_res) = 8/9.
Proof.
  intros [_ B] U Hj. destruct (B j Hj) as (B1 & B2 & _). cbv zeta in B1, B2. rewrite <- B1 in B2. assert (L : 0 <= r_ws (nth j res no_res)). { rewrite B1. apply limited_low. intros h E. discriminate E. }
  assert (E : t_set (nth j two no_turb) = tube) by (destruct j as [|[|j]]; [reflexivity|reflexivity|lia]). rewrite E in B2. rewrite tube_ct in B2 by (specialize (U j Hj); lra). now injection B2.
Qed.
(** If the effect behind the rotors is part of the model (pre_rotor_only = False, the default), then the results are in balance with it. False: a turbine behind and beside another one, where the wind is sped up, has the wind
    speed of the state. *)
Theorem C265_behind_refuted : exists c b farm res, good_scene c /\ good_block b farm /\ b_pre b = false /\ good_farm farm /\ staggered c farm /\ block_farm c b farm = Ok res /\ ~ block_balanced c b farm res /\
  exists i j sc v, (i < length farm)%nat /\ (j < length farm)%nat /\ block_effect c b (nth i farm no_turb) (nth i res no_res) (nth j farm no_turb) = Some (sc, v) /\ 0 < sc * v /\ r_ws (nth j res no_res) = c_wsp c.
Proof.
  pose proof west_amb_good as HS. assert (HG : good_block (g11 false) two) by (cbn; lra). destruct (C265_balance_partial west_amb (g11 false) two HS HG two_good two_staggered) as (res & E & B & _ & U).
  pose proof (two_ct (g11 false) res 0 B U ltac:(lia)) as C0. exists west_amb, (g11 false), two, res. split; [exact HS|]. split; [exact HG|]. split; [reflexivity|]. split; [exact two_good|]. split; [exact two_staggered|]. split; [exact E|].
  assert (X : radii_behind west_amb (at_xy 0 0) (at_xy 500 100) = 10). { unfold radii_behind. change (c_wd west_amb) with 270. rewrite behind_xy. replace ((500 - 0) / (t_diam (at_xy 0 0) / 2)) with 10 by (cbn; field). apply (round12_int 10). }
  assert (Y : radii_beside west_amb (at_xy 0 0) (at_xy 500 100) = 2). { unfold radii_beside. change (c_wd west_amb) with 270. rewrite beside_xy. rewrite Rabs_right by lra. cbn. field. }
  set (s := slow_down west_amb (g11 false) (8/9) (-10) 2). assert (SP : 0 < s) by (apply slow_strict; cbn; reflexivity || lra).
  assert (Ef : block_effect west_amb (g11 false) (at_xy 0 0) (nth 0 res no_res) (at_xy 500 100) = Some (10, s)).
  { unfold block_effect. cbv zeta. rewrite C0, X, Y. destruct (Rlt_dec 1e-8 (8/9)); [|lra]. destruct (Rle_dec 10 0); [lra|]. cbn [g11 b_pre]. destruct (Rlt_dec 1 2); [|lra]. reflexivity. }
  clearbody s.
  assert (W1 : r_ws (nth 1 res no_res) = 10).
  { destruct B as [_ B]. destruct (B 1%nat ltac:(cbn; lia)) as (B1 & _). cbv zeta in B1. rewrite B1. unfold other_effects. cbn [two length seq filter Nat.eqb negb map nth]. rewrite effect_behind by (rewrite X; lra). cbn. unfold Rmax. destruct (Rle_dec _ _); lra. }
  split.
  - intros [_ B']. destruct (B' 1%nat ltac:(cbn; lia)) as (B1 & _). cbv zeta in B1. rewrite W1 in B1. unfold other_effects in B1. cbn [two length seq filter Nat.eqb negb map nth] in B1. rewrite Ef in B1. cbn in B1. unfold Rmax in B1. destruct (Rle_dec _ _); lra.
  - exists 0%nat, 1%nat, 10, s. split; [cbn; lia|]. split; [cbn; lia|]. split; [exact Ef|]. split; [lra|exact W1].
Qed.
Print Assumptions C265_behind_refuted.
(** a case in which the turbine in front is slowed down, the one behind is not *)
Example C265_nonvacuous : good_scene west_amb /\ good_block (g11 true) two /\ good_farm two /\ staggered west_amb two /\
  forall res, block_farm west_amb (g11 true) two = Ok res -> 0 <= r_ws (nth 0 res no_res) < 10 /\ r_ws (nth 1 res no_res) = 10.
Proof.
  pose proof west_amb_good as HS. assert (HG : good_block (g11 true) two) by (cbn; lra). split; [exact HS|]. split; [exact HG|]. split; [exact two_good|]. split; [exact two_staggered|]. intros res Er.
  destruct (C265_balance_partial west_amb (g11 true) two HS HG two_good two_staggered) as (r & E & B & _ & U). rewrite Er in E. injection E as <-. pose proof (two_ct (g11 true) res 1 B U ltac:(lia)) as C1. destruct B as [_ B]. split.
  - destruct (B 0%nat ltac:(cbn; lia)) as (B1 & _). cbv zeta in B1. rewrite B1. unfold other_effects. cbn [two length seq filter Nat.eqb negb map nth].
    assert (X : radii_behind west_amb (at_xy 500 100) (at_xy 0 0) <= 0). { apply radii_back; [cbn; lra|]. change (c_wd west_amb) with 270. rewrite behind_xy. lra. }
    unfold block_effect. cbv zeta. rewrite C1. destruct (Rlt_dec 1e-8 (8/9)); [|lra]. destruct (Rle_dec (radii_behind _ _ _) 0); [|contradiction].
    pose proof (slow_strict west_amb (front_only (g11 true)) (8/9) _ (radii_beside west_amb (at_xy 500 100) (at_xy 0 0)) ltac:(cbn; lra) eq_refl ltac:(lra) X) as SP. set (s := slow_down _ _ _ _ _) in *. clearbody s. cbn. unfold Rmax. destruct (Rle_dec _ _); lra.
  - destruct (B 1%nat ltac:(cbn; lia)) as (B1 & _). cbv zeta in B1. rewrite B1. unfold other_effects. cbn [two length seq filter Nat.eqb negb map nth]. rewrite effect_behind.
    + cbn. unfold Rmax. destruct (Rle_dec _ _); lra.
    + apply radii_ahead; [cbn; lra|]. change (c_wd west_amb) with 270. rewrite behind_xy. cbn. lra.
Qed.
(** the other models meet the hypotheses as well *)
Example C265_nonvacuous_models : good_block {| b_model := SelfSimilar2020; b_pre := true |} two /\ good_block {| b_model := Rathmann; b_pre := true |} two.
Proof. split; [|exact I]. intros t x v [<-|[<-|[]]] [K|[K|[]]]; injection K as <- <-; lra. Qed.
