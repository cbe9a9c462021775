(** C260: misaligned turbines. *)
From Verif Require Import RBase WindDir_Model Superp_Model Superp_Spec Curves_Model Curves_Spec Curves_Proofs Symm_Model Order_Model Whole_Model Whole_Spec Whole_Proofs Whole_Props Flow_Spec More_Props Ground_Spec Misal_Model Misal_Spec Misal_Proofs.
Local Open Scope R_scope.

(** A farm calculation with misaligned turbines returns the one and only set of results in which every turbine has the wind speed that the wakes of all turbines leave over, times the cosine of its misalignment, and the
    thrust and the power at that wind speed times cos^(p_ct/2) and cos^(p_P/3). Missing: one turbine, the first one in the order of the calculation, which stands behind no other, has the full wind speed instead. *)
Theorem C260_balance_partial : forall c farm, good_scene c -> good_mis farm -> farm <> [] ->
  exists i0 res, mis_farm c farm = Ok res /\ most_upstream c farm i0 /\ mis_balanced c farm (all_but farm i0) res /\ forall ys, mis_balanced c farm (all_but farm i0) ys -> ys = res.
Proof.
  intros c farm HS HF HN. destruct (mis_result c farm HS HF HN) as (res & E & B & U). eexists. exists res. split; [exact E|]. split; [now apply first_up|]. split; [exact B|exact U].
Qed.
Print Assumptions C260_balance_partial.
(** Without misalignment the results are those of the calculation without yaw models, whatever the exponents. *)
Theorem C260_aligned : forall c farm, good_scene c -> good_mis farm -> farm <> [] -> (forall t, In t farm -> g_yawm (t_set t) = 0) -> mis_farm c farm = farm_results c (map plain farm).
Proof.
  intros c farm HS HF HN HY. destruct (C260_balance_partial c farm HS HF HN) as (i0 & res & E & _ & B & _). assert (G : good_farm (map plain farm)). { intros t I. apply in_map_iff in I as (s & <- & I). destruct (HF s I) as (A1 & A2 & _). split; assumption. }
  destruct (result_balanced c (map plain farm) HS G) as (r & E' & _ & U). rewrite E, E'. f_equal. apply U. now apply (aligned_balanced c farm i0).
Qed.
Print Assumptions C260_aligned.
(** No turbine has more wind than the state, and with exponents that are not negative and power curves that do not fall no turbine produces more than it would alone and aligned. *)
Theorem C260_bounds : forall c farm res, good_scene c -> good_mis farm -> mis_farm c farm = Ok res -> forall j, (j < length farm)%nat -> let t := nth j farm no_mis in
  r_ws (nth j res no_res) <= c_wsp c /\
  ((forall q, g_pP (t_set t) = Some q -> 0 <= q) -> (exists l, c_low c = Some l /\ 0 <= l) -> Curves_Spec.increasing (y_P (g_type (t_set t))) -> c_wsp c <= fst (last (y_P (g_type (t_set t))) (0, 0)) ->
     exists full, interp (y_P (g_type (t_set t))) (c_wsp c) = Ok full /\ r_p (nth j res no_res) <= full).
Proof.
  intros c farm res HS HF E j Hj t. assert (HN : farm <> []) by (intros ->; cbn in Hj; lia). destruct (C260_balance_partial c farm HS HF HN) as (i0 & r & E' & _ & HB & _). rewrite E in E'. injection E' as <-.
  assert (HP : forall k, (k < length farm)%nat -> 0 < all_but farm i0 k <= 1). { intros k Hk. unfold all_but. destruct (Nat.eqb k i0); [lra|]. destruct (HF _ (nth_In farm no_mis Hk)) as (_ & _ & C). split; [exact C|]. unfold cosm. apply COS_bound. }
  pose proof (left_below c farm _ res HS HF HP HB t) as L. destruct (HP j Hj) as [P0 P1]. pose proof HB as [_ B]. destruct (B j Hj) as (B1 & _ & B3). cbv zeta in B1, B3. fold t in B1, B3. destruct HS as (Hw & HS').
  assert (W : r_ws (nth j res no_res) <= c_wsp c). { rewrite B1. set (u := left_over c farm res t) in *. destruct (Rle_lt_dec 0 u); nra. }
  split; [exact W|]. intros Hp (l & El & Hl) Hi Hr. destruct (HF _ (nth_In farm no_mis Hj)) as ((Y1 & Y2 & Y3 & Y4 & Y5 & Y6 & Y7) & _ & C). fold t in Y1, Y2, Y3, Y4, Y5, Y6, Y7, C.
  pose proof (cos_power_bounds t (g_pP (t_set t)) (1 / 3) C Hp ltac:(lra)) as F. assert (L0 : 0 <= left_over c farm res t). { unfold left_over. rewrite El. eapply Rle_trans; [exact Hl|]. apply limited_low. apply (low_high c); [split; assumption|exact El]. }
  rewrite <- B1 in B3. assert (R0 : 0 <= r_ws (nth j res no_res)) by (rewrite B1; nra). assert (X : r_ws (nth j res no_res) * cos_power t (g_pP (t_set t)) (1 / 3) <= c_wsp c) by nra.
  destruct (interp_mono _ _ (c_wsp c) Y4 Hi Y6 X Hr Y2) as (y & y' & A & A' & D). rewrite B3 in A. injection A as <-. exists y'. auto.
Qed.
Print Assumptions C260_bounds.
(** two turbines of the same type, misaligned by 60 degrees, with the exponents that are the defaults *)
Definition mis60 : mis := {| g_type := tube; g_yawm := 60; g_pct := Some 1; g_pP := Some (188/100) |}.
Definition mis_at (x y : R) : turb mis := mkturb (x, y, 100) 100 mis60.
Lemma cosm60 x y : cosm (mis_at x y) = 1 / 2.
Proof. unfold cosm. cbn. replace (60 * PI / 180) with (PI / 3) by field. apply cos_PI3. Qed.
Lemma tube_p u : 0 <= u <= 20 -> interp (y_P tube) u = Ok (u / 10).
Proof.
  intros H. unfold interp. cbn [tube y_P last fst]. replace (Rltb u 0) with false by (symmetry; apply Rltb_false; lra). replace (Rltb 20 u) with false by (symmetry; apply Rltb_false; lra). cbn [interp_from].
  repeat (match goal with |- context [Rltb ?a ?b] => destruct (Rltb a b) eqn:? | |- context [Rleb ?a ?b] => destruct (Rleb a b) eqn:? | |- context [Req_EM_T ?a ?b] => destruct (Req_EM_T a b) | |- context [Reqb ?a ?b] => destruct (Reqb a b) eqn:? end); f_equal;
  repeat (match goal with H : Rltb _ _ = true |- _ => apply Rltb_true in H | H : Rltb _ _ = false |- _ => apply Rltb_false in H | H : Rleb _ _ = true |- _ => apply Rleb_true in H | H : Rleb _ _ = false |- _ => apply Rleb_false in H end); lra.
Qed.
Lemma mis_at_good l : (forall t, In t l -> exists x y, t = mis_at x y) -> good_mis l.
Proof.
  intros H t I. destruct (H t I) as (x & y & ->). split; [|split; [cbn; lra|rewrite cosm60; lra]]. destruct (tube_good (at_xy 500 40) (or_introl eq_refl)) as [G _]. exact G.
Qed.
(** what the power curve of [tube] gives for a wind speed of 10 m/s with the correction for 60 degrees *)
Definition corrected : R := Rpower (1 / 2) (188/100 * (1/3)).
Lemma corrected_bounds : 0 < corrected <= 1.
Proof. pose proof (cos_power_bounds (mis_at 0 0) (Some (188/100)) (1/3)) as H. unfold cos_power in H. rewrite cosm60 in H. apply H; [lra|intros q E; injection E as <-; lra|lra]. Qed.
Lemma behind_mis xs ys xt yt : behind 270 (plain (mis_at xs ys)) (plain (mis_at xt yt)) = xt - xs.
Proof.
  assert (S1 : sin (270 * PI / 180) = -1) by (replace (270 * PI / 180) with (3 * (PI / 2)) by field; apply sin_3PI2). assert (K1 : cos (270 * PI / 180) = 0) by (replace (270 * PI / 180) with (3 * (PI / 2)) by field; apply cos_3PI2).
  unfold behind. rewrite S1, K1. cbn. unfold vx, vy. cbn. lra.
Qed.
Lemma beside_mis xs ys xt yt : beside 270 (plain (mis_at xs ys)) (plain (mis_at xt yt)) = Rabs (yt - ys).
Proof.
  assert (S1 : sin (270 * PI / 180) = -1) by (replace (270 * PI / 180) with (3 * (PI / 2)) by field; apply sin_3PI2). assert (K1 : cos (270 * PI / 180) = 0) by (replace (270 * PI / 180) with (3 * (PI / 2)) by field; apply cos_3PI2).
  unfold beside. rewrite S1, K1. cbn. unfold vx, vy, vz. cbn. cbv zeta. rewrite <- sqrt_Rsqr_abs. f_equal. unfold Rsqr. ring.
Qed.
(** the power of turbine j of a row of such turbines that do not reach each other *)
Lemma apart_power l i0 res j : (forall t, In t l -> exists x y, t = mis_at x y) -> mis_balanced west_amb l (all_but l i0) res -> (j < length l)%nat ->
  (forall i, (i < length l)%nat -> let s := plain (nth i l no_mis) in let t := plain (nth j l no_mis) in behind 270 s t <= 0 \/ 50 <= beside 270 s t) ->
  r_p (nth j res no_res) = if Nat.eqb j i0 then corrected else corrected / 2.
Proof.
  intros HL HB Hj HR. pose proof (mis_at_good l HL) as G. assert (HP : forall k, (k < length l)%nat -> 0 < all_but l i0 k <= 1). { intros k Hk. unfold all_but. destruct (HL _ (nth_In l no_mis Hk)) as (x & y & ->). rewrite cosm60. destruct (Nat.eqb k i0); lra. }
  pose proof HB as [_ B]. destruct (B j Hj) as (_ & _ & B3). cbv zeta in B3. rewrite (left_all west_amb l _ res west_amb_good G HP HB) in B3.
  2:{ intros i Hi. apply (Ground_Proofs.reach_effect west_amb (plain (nth i l no_mis)) (nth i res no_res) (t_pos (nth j l no_mis))). destruct (HR i Hi) as [H|H]; [left; exact H|right]. split; [reflexivity|]. destruct (HL _ (nth_In l no_mis Hi)) as (x & y & E). rewrite E in *. cbn [plain t_diam t_set mis_at g_type mis60 tube y_k].
      change (c_wd west_amb) with 270. cbv zeta in H. change (probe (t_pos (nth j l no_mis))) with (probe (t_pos (plain (nth j l no_mis)))). change (beside 270 (plain (mis_at x y)) (plain (nth j l no_mis))) with (beside 270 (plain (mis_at x y)) (probe (t_pos (plain (nth j l no_mis))))) in H. cbn [plain mis_at] in H. lra. }
  destruct (HL _ (nth_In l no_mis Hj)) as (x & y & E). unfold all_but in B3. rewrite E in B3. rewrite cosm60 in B3. unfold cos_power in B3. rewrite cosm60 in B3. cbn [mis_at t_set mis60 g_pP g_type] in B3. fold corrected in B3. pose proof corrected_bounds as Cb.
  change (c_wsp west_amb) with 10 in B3. rewrite tube_p in B3 by (destruct (Nat.eqb j i0); lra). injection B3 as <-. destruct (Nat.eqb j i0); field.
Qed.
(** side by side, out of reach of each other's wakes *)
Definition row : list (turb mis) := [mis_at 0 0; mis_at 0 1000].
Lemma row_apart l : l = row \/ l = rev row -> (forall t, In t l -> exists x y, t = mis_at x y) /\ forall i j, (i < length l)%nat -> (j < length l)%nat -> behind 270 (plain (nth i l no_mis)) (plain (nth j l no_mis)) <= 0.
Proof.
  intros H. split; [intros t I; destruct H as [-> | ->]; cbn in I; destruct I as [<-|[<-|[]]]; eauto|]. intros i j Hi Hj. destruct H as [-> | ->]; cbn in Hi, Hj; destruct i as [|[|i]], j as [|[|j]]; try lia; cbn [row rev app nth]; rewrite behind_mis; lra.
Qed.
(** Turbines of the same type with the same misalignment in the same undisturbed wind produce the same power. False: one of the two produces half as much as the other. *)
Theorem C260_same_wind_same_power_refuted : exists c farm res, good_scene c /\ good_mis farm /\ mis_farm c farm = Ok res /\ length farm = 2%nat /\
  (forall s t, In s farm -> In t farm -> t_set s = t_set t /\ behind (c_wd c) (plain s) (plain t) <= 0) /\
  exists i j, (i < 2)%nat /\ (j < 2)%nat /\ 0 < r_p (nth j res no_res) /\ r_p (nth i res no_res) = 2 * r_p (nth j res no_res).
Proof.
  destruct (row_apart row (or_introl eq_refl)) as [HL HA]. pose proof (mis_at_good row HL) as G. destruct (C260_balance_partial west_amb row west_amb_good G ltac:(discriminate)) as (i0 & res & E & [U _] & B & _).
  exists west_amb, row, res. split; [exact west_amb_good|]. split; [exact G|]. split; [exact E|]. split; [reflexivity|]. split.
  { intros s t [<-|[<-|[]]] [<-|[<-|[]]]; (split; [reflexivity|]); cbn [west_amb c_wd]; rewrite behind_mis; lra. }
  assert (P : forall j, (j < 2)%nat -> r_p (nth j res no_res) = if Nat.eqb j i0 then corrected else corrected / 2) by (intros j Hj; apply (apart_power row i0 res j HL B Hj); intros i Hi; left; now apply HA).
  pose proof corrected_bounds as Cb. cbn in U. assert (i0 = 0 \/ i0 = 1)%nat as [Z|Z] by lia; subst i0; [exists 0%nat, 1%nat|exists 1%nat, 0%nat]; rewrite !P by lia; cbn [Nat.eqb]; (split; [lia|]); (split; [lia|]); split; lra.
Qed.
Print Assumptions C260_same_wind_same_power_refuted.
(** A turbine out of the reach of the wakes of all other turbines produces what it produces alone. False: with another turbine upstream, 1000 m beside, it produces half of that. *)
Theorem C260_unwaked_as_alone_refuted : exists c t s res res', good_scene c /\ good_mis [t; s] /\ out_of_reach c (plain s) (t_pos t) /\ mis_farm c [t] = Ok res /\ mis_farm c [t; s] = Ok res' /\
  0 < r_p (nth 0 res' no_res) /\ r_p (nth 0 res no_res) = 2 * r_p (nth 0 res' no_res) /\ r_p (mis_ambient c t) = r_p (nth 0 res no_res).
Proof.
  set (t := mis_at 0 0). set (s := mis_at (-1000) 1000). assert (L1 : forall x, In x [t] -> exists a b, x = mis_at a b) by (intros x [<-|[]]; unfold t; eauto). assert (L2 : forall x, In x [t; s] -> exists a b, x = mis_at a b) by (intros x [<-|[<-|[]]]; unfold t, s; eauto).
  destruct (C260_balance_partial west_amb [t] west_amb_good (mis_at_good _ L1) ltac:(discriminate)) as (i0 & res & E & [U _] & B & _). destruct (C260_balance_partial west_amb [t; s] west_amb_good (mis_at_good _ L2) ltac:(discriminate)) as (i1 & res' & E' & [U' M] & B' & _).
  exists west_amb, t, s, res, res'. split; [exact west_amb_good|]. split; [now apply mis_at_good|]. pose proof (beside_mis (-1000) 1000 0 0) as Bs. assert (A1000 : Rabs (0 - 1000) = 1000) by (rewrite Rabs_left; lra). rewrite A1000 in Bs.
  split. { right. split; [reflexivity|]. change (beside 270 (plain (mis_at (-1000) 1000)) (plain (mis_at 0 0)) = 1000) in Bs. change (c_wd west_amb) with 270. change (beside 270 (plain s) (probe (t_pos t))) with (beside 270 (plain (mis_at (-1000) 1000)) (plain (mis_at 0 0))). rewrite Bs. cbn [plain s mis_at t_diam t_set mis60 g_type tube y_k]. lra. }
  split; [exact E|]. split; [exact E'|]. cbn in U, U'. assert (i0 = 0%nat) by lia. subst i0. assert (i1 = 1%nat). { assert (i1 = 0 \/ i1 = 1)%nat as [Z|Z] by lia; [|exact Z]. exfalso. specialize (M 1%nat ltac:(cbn; lia)). rewrite Z in M. cbn [nth west_amb c_wd] in M. unfold s, t in M. rewrite behind_mis in M. lra. } subst i1.
  pose proof corrected_bounds as Cb. rewrite (apart_power [t] 0 res 0 L1 B ltac:(cbn; lia)). 2:{ intros i Hi. left. cbn in Hi. destruct i; [|lia]. cbn [nth]. unfold t. rewrite behind_mis. lra. }
  rewrite (apart_power [t; s] 1 res' 0 L2 B' ltac:(cbn; lia)). 2:{ intros i Hi. cbn in Hi. destruct i as [|[|i]]; [|right|lia]; cbn [nth]. - left. unfold t. rewrite behind_mis. lra. - cbn zeta. unfold t, s. rewrite Bs. lra. }
  cbn [Nat.eqb]. split; [lra|]. split; [lra|]. unfold mis_ambient, mis_ev, mis_amb, mis_results. cbn [r_p fst snd]. rewrite along_wind, factor_power. unfold t, cos_power. rewrite cosm60. cbn [mis_at t_set mis60 g_pP g_type]. fold corrected. unfold value.
  change (c_wsp west_amb) with 10. rewrite tube_p by lra. field.
Qed.
Print Assumptions C260_unwaked_as_alone_refuted.
(** Results do not depend on the numbering of the turbines. False: for two turbines side by side, the first one in the list gets the higher power (with a stable sort of equal coordinates). *)
Lemma row_order l : l = row \/ l = rev row -> mis_order west_amb l = [0; 1]%nat.
Proof.
  intros H. destruct (row_apart l H) as [HL _]. pose proof (mis_at_good l HL) as G. unfold mis_order. rewrite (mkey west_amb l G). assert (S1 : sin (270 * PI / 180) = -1) by (replace (270 * PI / 180) with (3 * (PI / 2)) by field; apply sin_3PI2). assert (K1 : cos (270 * PI / 180) = 0) by (replace (270 * PI / 180) with (3 * (PI / 2)) by field; apply cos_3PI2).
  assert (E : forall x, vx (t_pos (plain (mis_at 0 x))) * fst (wd2uv (c_wd west_amb) 1) + vy (t_pos (plain (mis_at 0 x))) * snd (wd2uv (c_wd west_amb) 1) = 0). { intros x. rewrite uv_explicit. cbn [west_amb c_wd fst snd]. rewrite S1, K1. cbn. unfold vx, vy. cbn. ring. }
  assert (Z : Rleb 0 0 = true) by (apply Rleb_true; lra). destruct H as [-> | ->]; cbn [row rev app map]; rewrite !E; unfold argsort; cbn; rewrite Z; reflexivity.
Qed.
Theorem C260_numbering_refuted : exists c farm res res', good_scene c /\ good_mis farm /\ mis_farm c farm = Ok res /\ mis_farm c (rev farm) = Ok res' /\ res' <> rev res.
Proof.
  destruct (row_apart row (or_introl eq_refl)) as [L1 A1]. destruct (row_apart (rev row) (or_intror eq_refl)) as [L2 A2]. pose proof (mis_at_good _ L1) as G1. pose proof (mis_at_good _ L2) as G2.
  destruct (mis_result west_amb row west_amb_good G1 ltac:(discriminate)) as (res & E & B & _). destruct (mis_result west_amb (rev row) west_amb_good G2 ltac:(discriminate)) as (res' & E' & B' & _). rewrite (row_order _ (or_introl eq_refl)) in B. rewrite (row_order _ (or_intror eq_refl)) in B'. cbn [nth] in B, B'.
  exists west_amb, row, res, res'. split; [exact west_amb_good|]. split; [exact G1|]. split; [exact E|]. split; [exact E'|]. intros X.
  pose proof (apart_power row 0 res 1 L1 B ltac:(cbn; lia) ltac:(intros i Hi; left; apply A1; [exact Hi|cbn; lia])) as P1. pose proof (apart_power (rev row) 0 res' 0 L2 B' ltac:(cbn; lia) ltac:(intros i Hi; left; apply A2; [exact Hi|cbn; lia])) as P2.
  cbn [Nat.eqb] in P1, P2. rewrite X in P2. destruct B as [Ln _]. cbn in Ln. destruct res as [|a [|b [|? ?]]]; try discriminate Ln. cbn [rev app nth] in P1, P2. rewrite P1 in P2. pose proof corrected_bounds. lra.
Qed.
Print Assumptions C260_numbering_refuted.
(** The hypotheses of the theorems above hold for these farms; the aligned ones exist too. *)
Example C260_nonvacuous : good_scene west_amb /\ good_mis row /\ row <> [] /\ (exists res, mis_farm west_amb row = Ok res /\ 0 < r_p (nth 0 res no_res)) /\
  exists farm, good_mis farm /\ length farm = 2%nat /\ forall t, In t farm -> g_yawm (t_set t) = 0.
Proof.
  destruct (row_apart row (or_introl eq_refl)) as [L1 A1]. pose proof (mis_at_good _ L1) as G1. split; [exact west_amb_good|]. split; [exact G1|]. split; [discriminate|]. split.
  - destruct (mis_result west_amb row west_amb_good G1 ltac:(discriminate)) as (res & E & B & _). rewrite (row_order _ (or_introl eq_refl)) in B. cbn [nth] in B. exists res. split; [exact E|].
    rewrite (apart_power row 0 res 0 L1 B ltac:(cbn; lia) ltac:(intros i Hi; left; apply A1; [exact Hi|cbn; lia])). cbn [Nat.eqb]. apply corrected_bounds.
  - exists [mkturb (0, 0, 100) 100 {| g_type := tube; g_yawm := 0; g_pct := Some 1; g_pP := None |}; mkturb (500, 0, 100) 100 {| g_type := tube; g_yawm := 0; g_pct := Some 1; g_pP := None |}]. split; [|split; [reflexivity|intros t [<-|[<-|[]]]; reflexivity]].
    destruct (tube_good (at_xy 500 40) (or_introl eq_refl)) as [G _]. intros t [<-|[<-|[]]]; (split; [exact G|split; [cbn; lra|]]); unfold cosm; cbn; replace (0 * PI / 180) with 0 by field; rewrite cos_0; lra.
Qed.
