(** C262: the turbulence model listed before the wind deficit model. *)
From Verif Require Import RBase WindDir_Model Superp_Model Superp_Spec Curves_Model Curves_Spec Symm_Model Induction_Model TiWake_Model TiWake_Proofs Whole_Model Whole_Spec Whole_Proofs Whole_Props Both_Model Both_Spec Both_Proofs Both_Props TiFirst_Spec TiFirst_Proofs.
Local Open Scope R_scope.

(** The downwind algorithm with the turbulence model listed first returns the one and only set of results in which the wakes grow with the turbulence intensity at the turbines that cause them, while the turbulence is the one added by turbines in the wind of the state *)
Theorem C262_ti_first_partial : forall g farm, good_both g -> good_farm farm ->
  exists res, downwind_results g [ti_smodel g; wind_smodel g] farm = Ok res /\ balance_ti_first g farm res /\ forall other, balance_ti_first g farm other -> other = res.
Proof. intros g farm HG HF. exact (ti_first_run g farm HG HF). Qed.
Print Assumptions C262_ti_first_partial.
(** If the thrust coefficient is the same at all wind speeds up to that of the state, and the added turbulence follows from the thrust, this is the complete balance, and the same as the iterative algorithm gives *)
Theorem C262_flat_thrust_partial : forall g farm k, good_both g -> good_farm farm -> by_thrust g -> flat_thrust g farm -> (length farm <= S k)%nat ->
  exists res, downwind_results g [ti_smodel g; wind_smodel g] farm = Ok res /\ balance g own_ti farm res /\
    iterative_results g [ti_smodel g; wind_smodel g] farm k = res /\ iterative_results g [wind_smodel g; ti_smodel g] farm k = res.
Proof.
  intros g farm k HG HF BT FT Hk. destruct (C262_ti_first_partial g farm HG HF) as (res & E & B & _). exists res. split; [exact E|].
  assert (Q := flat_balance g farm HG HF res BT FT B). split; [exact Q|]. destruct (C252_iterative g farm HG HF) as (r & _ & U & It). rewrite (U _ Q). split; apply It; auto.
Qed.
Print Assumptions C262_flat_thrust_partial.
(** No turbine has more wind and none less turbulence than the state *)
Theorem C262_bounds : forall g farm res j, good_both g -> good_farm farm -> downwind_results g [ti_smodel g; wind_smodel g] farm = Ok res -> (j < length farm)%nat ->
  b_ws (nth j res no_bres) <= c_wsp (b_c g) /\ b_ti0 g <= b_ti (nth j res no_bres).
Proof.
  intros g farm res j HG HF E Hj. destruct (C262_ti_first_partial g farm HG HF) as (r & E' & B & _). rewrite E' in E. injection E as ->. exact (first_bounds g farm HG HF res B j Hj).
Qed.
Print Assumptions C262_bounds.

(** Three turbines in a row; the thrust coefficient falls with the wind speed, the added turbulences (IEC 2019) are summed *)
Definition falling : ttype := {| y_P := [(0, 0); (20, 2)]; y_C := [(0, 35/36); (10, 8/9); (20, 8/9)]; y_k := 5 / 100 |}.
Definition frow3 : list (turb ttype) := [mkturb (0, 0, 100) 100 falling; mkturb (1000, 0, 100) 100 falling; mkturb (2000, 0, 100) 100 falling].
Definition summed : bscene := {| b_c := windy; b_ti0 := 1 / 10; b_ka := 1 / 2; b_kb := 0; b_added := fun D f x r => iec_ti Iec2019 (Linear (1 / 10)) D 0 (b_ct f) x r; b_ts := TILinear; b_quad := false |}.
Lemma summed_good : good_both summed /\ good_farm frow3.
Proof.
  destruct turbulent_good as [(A & B & C & D & E & _) _]. split.
  - unfold good_both. cbn [summed b_c b_ti0 b_ka b_kb b_added b_ts]. split; [exact A|]. split; [lra|]. split; [lra|]. split; [lra|]. split; [exact E|]. split; [reflexivity|exact I].
  - assert (HY : good_type falling).
    { unfold good_type, falling. cbn. repeat split; try lra; try discriminate; intros x v [Q|[Q|Q]]; try (destruct Q as [Q|[]]); try injection Q as <- <-; try lra; contradiction. }
    intros t [<-|[<-|[<-|[]]]]; cbn; (split; [exact HY|lra]).
Qed.
(** The full claim is false: the second turbine runs in less wind and has more thrust than in the wind of the state, but the turbulence at the third one is that for the wind of the state *)
Theorem C262_ti_first_refuted : exists g farm res, good_both g /\ good_farm farm /\ by_thrust g /\ downwind_results g [ti_smodel g; wind_smodel g] farm = Ok res /\ ~ balance g own_ti farm res.
Proof.
  destruct summed_good as [HG HF]. destruct (C262_ti_first_partial summed frow3 HG HF) as (res & E & B & _). exists summed, frow3, res. split; [exact HG|]. split; [exact HF|].
  split; [intros D f f' x r _ H; cbn [summed b_added]; now rewrite H|]. split; [exact E|]. intros O. destruct B as (L & free & Lf & Ff & B). destruct O as [_ O]. destruct res as [|a [|b [|d [|]]]]; try discriminate L. destruct free as [|a' [|b' [|d' [|]]]]; try discriminate Lf.
  assert (S1 : sin (270 * PI / 180) = -1). { replace (270 * PI / 180) with (3 * (PI / 2)) by field. apply sin_3PI2. }
  assert (K1 : cos (270 * PI / 180) = 0). { replace (270 * PI / 180) with (3 * (PI / 2)) by field. apply cos_3PI2. }
  assert (Hv : forall x, 0 <= x <= 10 -> interp (y_C falling) x = Ok (35/36 - x / 120)).
  { intros x Hx. unfold interp. cbn [falling y_C last fst]. replace (Rltb x 0) with false by (symmetry; apply Rltb_false; lra). replace (Rltb 20 x) with false by (symmetry; apply Rltb_false; lra). cbn [interp_from].
    destruct (Rltb x 10) eqn:Q; [f_equal; field|]. apply Rltb_false in Q. assert (x = 10) by lra. subst x. replace (Rltb 10 20) with true by (symmetry; apply Rltb_true; lra). f_equal. field. }
  set (tt0 := fun x : R => mkturb (x, 0, 100) 100 falling).
  assert (Bh : forall x x' k, behind 270 (with_k (tt0 x) k) (tt0 x') = x' - x). { intros. unfold behind. rewrite S1, K1. unfold with_k, vx, vy. cbn. lra. }
  assert (Bh' : forall x x', behind 270 (tt0 x) (tt0 x') = x' - x). { intros. unfold behind. rewrite S1, K1. unfold vx, vy. cbn. lra. }
  assert (Bs : forall x x' k, beside 270 (with_k (tt0 x) k) (tt0 x') = 0).
  { intros. unfold beside. rewrite S1, K1. unfold with_k, vx, vy, vz. cbn. transitivity (sqrt 0); [f_equal; lra|apply sqrt_0]. }
  assert (Bs' : forall x x', beside 270 (tt0 x) (tt0 x') = 0).
  { intros. unfold beside. rewrite S1, K1. unfold vx, vy, vz. cbn. transitivity (sqrt 0); [f_equal; lra|apply sqrt_0]. }
  assert (W0 : forall ti x x' f, x' <= x -> wind_effect summed ti (tt0 x) f (tt0 x') = None).
  { intros. unfold wind_effect. apply effect_self. cbn [summed b_c windy c_wd]. rewrite Bh. lra. }
  assert (T0 : forall x x' f, x' <= x -> ti_effect summed (tt0 x) f (tt0 x') = None).
  { intros. unfold ti_effect. cbn [summed b_c windy c_wd]. rewrite Bh'. set (e := 1e-8). assert (0 < e) by (unfold e; lra). destruct (Rlt_dec e (x' - x)); [lra|reflexivity]. }
  assert (T1 : forall x x' f, x + 1000 <= x' -> 8/9 <= b_ct f -> ti_effect summed (tt0 x) f (tt0 x') = Some (1, iec_ti Iec2019 (Linear (1 / 10)) 100 0 (b_ct f) (x' - x) 0)).
  { intros x x' f Hx Hf. unfold ti_effect. cbn [summed b_c windy c_wd]. rewrite Bh', Bs'. destruct (Rlt_dec 1e-8 (x' - x)) as [_|Q]; [|exfalso; lra]. destruct (Rlt_dec 1e-8 (b_ct f)) as [_|Q]; [|exfalso; lra]. reflexivity. }
  assert (B0 := B 0%nat ltac:(cbn; lia)). assert (B1 := B 1%nat ltac:(cbn; lia)). assert (B2 := B 2%nat ltac:(cbn; lia)). assert (O2 := O 2%nat ltac:(cbn; lia)).
  assert (F0 := Ff 0%nat ltac:(cbn; lia)). assert (F1 := Ff 1%nat ltac:(cbn; lia)). clear B O Ff. cbv zeta in B0, B1, B2, O2.
  cbn [frow3 length seq map nth] in B0, B1, B2, O2, F0, F1. fold (tt0 0) (tt0 1000) (tt0 2000) in B0, B1, B2, O2, F0, F1.
  cbn [summed b_c windy c_low c_high c_wsp c_s b_ts b_quad b_ti0] in B0, B1, B2, O2. unfold own_ti in O2.
  destruct F0 as (_ & _ & F0 & _). destruct F1 as (_ & _ & F1 & _). cbn [summed b_c windy c_wsp tt0 t_set] in F0, F1. rewrite Hv in F0, F1 by lra. injection F0 as F0. injection F1 as F1.
  rewrite !W0, !T0 in B0 by lra. destruct B0 as (U0 & V0 & C0 & _). unfold combination, absol, local in U0, V0, C0. cbn [Superp_Spec.covering map rsum limited] in U0, V0, C0.
  cbn [tt0 t_set] in C0. rewrite Hv in C0 by lra. injection C0 as C0.
  rewrite !(W0 _ 1000 1000), !(W0 _ 2000 1000) in B1 by lra. destruct B1 as (U1 & _ & C1 & _).
  assert (Ha : b_ct a = 8/9) by lra. assert (Hti : b_ti a = 1 / 10) by lra.
  assert (W1 : wind_effect summed (b_ti a) (tt0 0) a (tt0 1000) = Some (10, - (1/6))).
  { unfold wind_effect, effect. cbn [summed b_c windy c_wd b_ka b_kb c_amb c_wsp r_ct]. rewrite Bh, Bs, Ha, Hti. destruct (Rlt_dec 1e-8 (1000 - 0)) as [_|Q]; [|exfalso; lra]. destruct (Rlt_dec 1e-8 (8/9)) as [_|Q]; [|exfalso; lra].
    cbn [with_k t_diam t_set y_k tt0]. apply f_equal. apply f_equal2; [reflexivity|]. unfold formula. cbn [summed b_c windy c_def c_ctmax]. destruct (Rlt_dec 0 (100 / 2 + (1 / 2 * (1 / 10) + 0) * (1000 - 0))) as [_|Q]; [|exfalso; lra].
    unfold induction. rewrite Rmin_left by lra. replace (1 - 8/9) with (1/3 * (1/3)) by lra. rewrite sqrt_square by lra. field. }
  rewrite W1 in U1, C1. unfold combination, absol in U1, C1. cbn [Superp_Spec.covering map fst snd rsum limited] in U1, C1. cbn [tt0 t_set] in C1. rewrite Hv in C1 by lra. injection C1 as C1.
  destruct B2 as (_ & V2 & _). destruct O2 as (_ & V2' & _). rewrite !(T0 2000 2000) in V2 by lra. rewrite !(T0 2000 2000) in V2' by lra. rewrite !T1 in V2 by lra. rewrite !T1 in V2' by lra.
  unfold combination, local in V2, V2'. cbn [Superp_Spec.covering map fst snd rsum] in V2, V2'.
  replace (b_ct a') with (8/9) in V2 by lra. replace (b_ct b') with (8/9) in V2 by lra. rewrite Ha in V2'.
  assert (Eq : iec_ti Iec2019 (Linear (1 / 10)) 100 0 (8 / 9) (2000 - 1000) 0 = iec_ti Iec2019 (Linear (1 / 10)) 100 0 (b_ct b) (2000 - 1000) 0) by lra.
  assert (Cb : 8/9 < b_ct b) by lra. clear -Eq Cb. unfold iec_ti, top_hat in Eq. cbn [iec_radius iec_centreline] in Eq.
  replace (Rltb 1e-8 (2000 - 1000)) with true in Eq by (symmetry; apply Rltb_true; lra). replace (Rltb 0 (100 / 2 + 1 / 10 * (2000 - 1000))) with true in Eq by (symmetry; apply Rltb_true; lra).
  replace (Rltb 1e-8 (8/9)) with true in Eq by (symmetry; apply Rltb_true; lra). replace (Rltb 1e-8 (b_ct b)) with true in Eq by (symmetry; apply Rltb_true; lra). cbn [andb] in Eq.
  set (ct := b_ct b) in *. clearbody ct. assert (P : 0 < sqrt (8/9)) by (apply sqrt_lt_R0; lra). assert (Q : sqrt (8/9) < sqrt ct) by (apply sqrt_lt_1; lra).
  set (s := sqrt (8/9)) in *. set (q := sqrt ct) in *. clearbody s q.
  assert (I1 : / q < / s) by (apply Rinv_lt_contravar; nra). assert (I0 : 0 < / q) by (apply Rinv_0_lt_compat; lra). unfold Rdiv in Eq. rewrite !Rmult_1_l in Eq.
  assert (X : 1.5 + 0.8 * (2000 - 1000) * / 100 * / q < 1.5 + 0.8 * (2000 - 1000) * / 100 * / s) by nra.
  assert (Y : 0 < 1.5 + 0.8 * (2000 - 1000) * / 100 * / q) by nra. apply Rinv_lt_contravar in X; [lra|nra].
Qed.
Print Assumptions C262_ti_first_refuted.
(** the hypotheses of the theorem for flat thrust are met by the farm of C252 with the lower limit 0 *)
Definition limited0 : bscene := {| b_c := {| c_wd := 270; c_wsp := 10; c_def := Jensen; c_ctmax := 99/100; c_s := WSLinear; c_low := Some 0; c_high := None; c_amb := true |};
  b_ti0 := 1 / 10; b_ka := 1 / 2; b_kb := 0; b_added := b_added turbulent; b_ts := TIMax; b_quad := false |}.
Example C262_nonvacuous : good_both limited0 /\ good_farm row3 /\ by_thrust limited0 /\ flat_thrust limited0 row3 /\ (exists res, downwind_results limited0 [ti_smodel limited0; wind_smodel limited0] row3 = Ok res /\ length res = 3%nat).
Proof.
  assert (HG : good_both limited0).
  { destruct turbulent_good as [(_ & B & C & D & E & F & G) _]. unfold good_both. cbn [limited0 b_c b_ti0 b_ka b_kb b_added b_ts]. split; [|repeat split; try assumption; lra].
    unfold good_scene. cbn. repeat split; try lra; try (intros ? Q; discriminate Q); try (intros l Q; injection Q as <-; lra); try (now left). }
  assert (HF : good_farm row3) by apply turbulent_good. split; [exact HG|]. split; [exact HF|]. split; [intros D f f' x r _ H; cbn [limited0 turbulent b_added]; now rewrite H|]. split.
  - intros t x y z Ht Hl Hx. assert (Et : y_C (t_set t) = [(0, 8/9); (20, 8/9)]) by (destruct Ht as [<-|[<-|[<-|[]]]]; reflexivity). rewrite Et. cbn [limited0 b_c c_wsp c_low] in *. specialize (Hl 0 eq_refl). clear Ht Et.
    assert (Hv : forall x, 0 <= x <= 10 -> interp [(0, 8/9); (20, 8/9)] x = Ok (8/9)).
    { intros q Hq. unfold interp. cbn [last fst]. replace (Rltb q 0) with false by (symmetry; apply Rltb_false; lra). replace (Rltb 20 q) with false by (symmetry; apply Rltb_false; lra). cbn [interp_from]. replace (Rltb q 20) with true by (symmetry; apply Rltb_true; lra). f_equal. field. }
    rewrite !Hv by lra. intros Q1 Q2. injection Q1 as <-. injection Q2 as <-. reflexivity.
  - destruct (C262_ti_first_partial limited0 row3 HG HF) as (res & E & (L & _) & _). exists res. split; [exact E|exact L].
Qed.
