(** C252: complete farm calculations with wind and turbulence wakes. *)
From Verif Require Import RBase WindDir_Model Superp_Model Superp_Spec Curves_Model Curves_Spec Symm_Model Induction_Model TiWake_Model TiWake_Proofs Whole_Model Whole_Spec Whole_Proofs Whole_Props Both_Model Both_Spec Both_Proofs.
Local Open Scope R_scope.

(** The iterative algorithm reaches, after as many sweeps as there are turbines, and for both orders of the two wake models, the one and only set of results in which the wind, the turbulence and the growth of all wakes fit together. *)
Theorem C252_iterative : forall g farm, good_both g -> good_farm farm ->
  exists res, balance g own_ti farm res /\ (forall other, balance g own_ti farm other -> other = res) /\
    forall ms k, ms = [wind_smodel g; ti_smodel g] \/ ms = [ti_smodel g; wind_smodel g] -> (length farm <= S k)%nat -> iterative_results g ms farm k = res.
Proof. intros g farm HG HF. exact (iterative_balance g farm HG HF). Qed.
Print Assumptions C252_iterative.
(** The downwind algorithm, with the wind deficit model listed before the turbulence model, returns the one and only set of results in which all wakes grow with the turbulence intensity of the state instead of that at the turbine. *)
Theorem C252_downwind_partial : forall g farm, good_both g -> good_farm farm ->
  exists res, downwind_results g [wind_smodel g; ti_smodel g] farm = Ok res /\ balance g (state_ti g) farm res /\ forall other, balance g (state_ti g) farm other -> other = res.
Proof. intros g farm HG HF. exact (downwind_balance g farm HG HF). Qed.
Print Assumptions C252_downwind_partial.
(** If the wake growth does not depend on the turbulence, both algorithms return the same results. *)
Theorem C252_constant_growth_partial : forall g farm k, good_both g -> good_farm farm -> b_ka g = 0 -> (length farm <= S k)%nat ->
  downwind_results g [wind_smodel g; ti_smodel g] farm = Ok (iterative_results g [wind_smodel g; ti_smodel g] farm k) /\
  balance g own_ti farm (iterative_results g [wind_smodel g; ti_smodel g] farm k).
Proof.
  intros g farm k HG HF K Hk. destruct (C252_iterative g farm HG HF) as (res & B & U & I). rewrite (I _ k (or_introl eq_refl) Hk). split; [|exact B].
  destruct (C252_downwind_partial g farm HG HF) as (res' & E & B' & _). rewrite E. f_equal. apply U. destruct B' as [L B']. split; [exact L|]. intros j Hj. specialize (B' j Hj). unfold wind_effect in *. rewrite K in *.
  cbv zeta in *.
  replace (map (fun i => effect (b_c g) (with_k (nth i farm no_turb) (0 * own_ti (nth i res' no_bres) + b_kb g)) {| r_ws := b_ws (nth i res' no_bres); r_ct := b_ct (nth i res' no_bres); r_p := b_p (nth i res' no_bres) |} (nth j farm no_turb)) (seq 0 (length farm)))
    with (map (fun i => effect (b_c g) (with_k (nth i farm no_turb) (0 * state_ti g (nth i res' no_bres) + b_kb g)) {| r_ws := b_ws (nth i res' no_bres); r_ct := b_ct (nth i res' no_bres); r_p := b_p (nth i res' no_bres) |} (nth j farm no_turb)) (seq 0 (length farm))); [exact B'|].
  apply map_ext. intros i. now rewrite !Rmult_0_l.
Qed.
Print Assumptions C252_constant_growth_partial.
(** In both cases no turbine has more wind and none has less turbulence than the state. *)
Theorem C252_bounds : forall g farm res growth_ti j, good_both g -> good_farm farm -> growth_ti = own_ti \/ growth_ti = state_ti g -> balance g growth_ti farm res -> (j < length farm)%nat ->
  b_ws (nth j res no_bres) <= c_wsp (b_c g) /\ b_ti0 g <= b_ti (nth j res no_bres).
Proof.
  intros g farm res gr j HG HF Hgr B Hj. assert (T0 : 0 <= b_ti0 g) by apply HG. assert (P : forall f, b_ti0 g <= b_ti f -> 0 <= gr f) by (intros f Hf; destruct Hgr as [-> | ->]; unfold own_ti, state_ti; lra).
  destruct (balance_eqs g farm HG HF gr res P B) as [E _]. pose proof (eqs_ti g farm HG HF _ _ _ E) as Ht. pose proof (eqs_ws g farm HG HF _ _ _ E) as Hw. split; [|exact (Ht j Hj)].
  apply (Hw); [|exact Hj]. intros i Hi. apply P. cbn. now apply Ht.
Qed.
Print Assumptions C252_bounds.

(** Three turbines in a row, wakes that grow with k = 0.5 TI, TI of the state 0.1, turbulence added after IEC 2019. *)
Definition windy : scene := {| c_wd := 270; c_wsp := 10; c_def := Jensen; c_ctmax := 99/100; c_s := WSLinear; c_low := None; c_high := None; c_amb := true |}.
Definition row3 : list (turb ttype) := [mkturb (0, 0, 100) 100 flat; mkturb (1000, 0, 100) 100 flat; mkturb (2000, 0, 100) 100 flat].
Definition turbulent : bscene := {| b_c := windy; b_ti0 := 1 / 10; b_ka := 1 / 2; b_kb := 0; b_added := fun D f x r => iec_ti Iec2019 (Linear (1 / 10)) D 0 (b_ct f) x r; b_ts := TIMax; b_quad := false |}.
Lemma turbulent_good : good_both turbulent /\ good_farm row3.
Proof.
  assert (HY : good_type flat).
  { unfold good_type, flat. cbn. repeat split; try lra; try discriminate; intros x v [Q|[Q|[]]]; injection Q as <- <-; lra. }
  split.
  - assert (HS : good_scene windy). { unfold good_scene, windy. cbn. repeat split; try lra; try (intros ? Q; discriminate Q); try (now left). }
    split; [exact HS|]. cbn [turbulent b_ti0 b_ka b_kb b_added b_ts]. split; [lra|]. split; [lra|]. split; [lra|]. split; [|split; [reflexivity|exact I]]. intros D f x r HD. apply iec_bounds; lra.
  - intros t [<-|[<-|[<-|[]]]]; cbn; (split; [exact HY|lra]).
Qed.
(** The results of the downwind algorithm do not fit together: the second turbine has more turbulence than the state, but its wake grows with that of the state. *)
Theorem C252_downwind_refuted : exists g farm res, good_both g /\ good_farm farm /\ downwind_results g [wind_smodel g; ti_smodel g] farm = Ok res /\ ~ balance g own_ti farm res /\
  forall k, (length farm <= S k)%nat -> iterative_results g [wind_smodel g; ti_smodel g] farm k <> res.
Proof.
  destruct turbulent_good as [HG HF]. destruct (C252_downwind_partial turbulent row3 HG HF) as (res & E & B & _). exists turbulent, row3, res. split; [exact HG|]. split; [exact HF|]. split; [exact E|].
  enough (N : ~ balance turbulent own_ti row3 res).
  { split; [exact N|]. intros k Hk Q. apply N. destruct (C252_iterative turbulent row3 HG HF) as (r & Br & _ & Ir). rewrite <- Q, (Ir _ k (or_introl eq_refl) Hk). exact Br. }
  intros O. destruct B as [L B]. destruct O as [_ O]. destruct res as [|a [|b [|d [|]]]]; try discriminate L.
  assert (S1 : sin (270 * PI / 180) = -1). { replace (270 * PI / 180) with (3 * (PI / 2)) by field. apply sin_3PI2. }
  assert (K1 : cos (270 * PI / 180) = 0). { replace (270 * PI / 180) with (3 * (PI / 2)) by field. apply cos_3PI2. }
  set (t0 := mkturb (0, 0, 100) 100 flat). set (t1 := mkturb (1000, 0, 100) 100 flat). set (t2 := mkturb (2000, 0, 100) 100 flat).
  assert (Hv : forall x, 0 <= x <= 20 -> interp [(0, 8/9); (20, 8/9)] x = Ok (8/9)).
  { intros x Hx. unfold interp. cbn [last fst]. replace (Rltb x 0) with false by (symmetry; apply Rltb_false; lra). replace (Rltb 20 x) with false by (symmetry; apply Rltb_false; lra). cbn [interp_from]. destruct (Rltb x 20); f_equal; lra. }
  assert (Bh : forall x x' k, behind 270 (with_k (mkturb (x, 0, 100) 100 flat) k) (mkturb (x', 0, 100) 100 flat) = x' - x). { intros. unfold behind. rewrite S1, K1. unfold with_k, vx, vy. cbn. lra. }
  assert (Bh' : forall x x', behind 270 (mkturb (x, 0, 100) 100 flat) (mkturb (x', 0, 100) 100 flat) = x' - x). { intros. unfold behind. rewrite S1, K1. unfold vx, vy. cbn. lra. }
  assert (Bs : forall x x' k, beside 270 (with_k (mkturb (x, 0, 100) 100 flat) k) (mkturb (x', 0, 100) 100 flat) = 0).
  { intros. unfold beside. rewrite S1, K1. unfold with_k, vx, vy, vz. cbn. transitivity (sqrt 0); [f_equal; lra|apply sqrt_0]. }
  assert (Bs' : forall x x', beside 270 (mkturb (x, 0, 100) 100 flat) (mkturb (x', 0, 100) 100 flat) = 0).
  { intros. unfold beside. rewrite S1, K1. unfold vx, vy, vz. cbn. transitivity (sqrt 0); [f_equal; lra|apply sqrt_0]. }
  assert (W0 : forall ti x x' f, x' <= x -> wind_effect turbulent ti (mkturb (x, 0, 100) 100 flat) f (mkturb (x', 0, 100) 100 flat) = None).
  { intros. unfold wind_effect. apply effect_self. cbn [turbulent b_c windy c_wd]. rewrite Bh. lra. }
  assert (T0 : forall x x' f, x' <= x -> ti_effect turbulent (mkturb (x, 0, 100) 100 flat) f (mkturb (x', 0, 100) 100 flat) = None).
  { intros. unfold ti_effect. cbn [turbulent b_c windy c_wd]. rewrite Bh'. set (e := 1e-8). assert (0 < e) by (unfold e; lra). destruct (Rlt_dec e (x' - x)); [lra|reflexivity]. }
  set (G := fun k x : R => - 2 * (1 / 3) * (100 / (100 + 2 * k * x)) ^ 2).
  assert (W1 : forall ti x x' f, 0 <= ti -> x + 1000 <= x' -> b_ct f = 8/9 -> wind_effect turbulent ti (mkturb (x, 0, 100) 100 flat) f (mkturb (x', 0, 100) 100 flat) = Some (10, G (1 / 2 * ti + 0) (x' - x))).
  { intros ti x x' f Hti Hx Hf. unfold wind_effect, effect. cbn [turbulent b_c windy c_wd b_ka b_kb c_amb c_wsp r_ct]. rewrite Bh, Bs, Hf. destruct (Rlt_dec 1e-8 (x' - x)) as [_|Q]; [|exfalso; lra]. destruct (Rlt_dec 1e-8 (8/9)) as [_|Q]; [|exfalso; lra].
    cbn [with_k t_diam t_set y_k]. apply f_equal. apply f_equal2; [reflexivity|]. unfold formula. cbn [turbulent b_c windy c_def c_ctmax]. destruct (Rlt_dec 0 (100 / 2 + (1 / 2 * ti + 0) * (x' - x))) as [_|Q]; [|exfalso; nra].
    unfold G, induction. rewrite Rmin_left by lra. replace (1 - 8/9) with (1/3 * (1/3)) by lra. rewrite sqrt_square by lra. replace ((1 - 1 / 3) / 2) with (1 / 3) by lra. reflexivity. }
  assert (B0 := B 0%nat ltac:(cbn; lia)). assert (B1 := B 1%nat ltac:(cbn; lia)). assert (B2 := B 2%nat ltac:(cbn; lia)). assert (O2 := O 2%nat ltac:(cbn; lia)). clear B O. cbv zeta in B0, B1, B2, O2.
  cbn [row3 length seq map nth] in B0, B1, B2, O2. fold t0 t1 t2 in B0, B1, B2, O2. cbn [turbulent b_c windy c_low c_high c_wsp c_s b_ts b_quad b_ti0] in B0, B1, B2, O2. change (fun _ => 1 / 10) with (fun _ : bres => 1 / 10) in *. unfold state_ti, own_ti in *. cbn [turbulent b_ti0] in B0, B1, B2, O2.
  unfold t0, t1, t2 in B0, B1, B2, O2. rewrite !W0, !T0 in B0 by lra. destruct B0 as (U0 & V0 & C0 & _). unfold combination, absol, local in U0, V0, C0. cbn [Superp_Spec.covering map rsum largest limited] in U0, V0, C0.
  rewrite <- U0 in C0. cbn [t_set flat y_C] in C0. rewrite Hv in C0 by lra. injection C0 as C0. symmetry in C0.
  rewrite !(W0 _ 1000 1000), !(W0 _ 2000 1000), !(T0 1000 1000), !(T0 2000 1000) in B1 by lra. rewrite W1 in B1 by (try exact C0; lra). destruct B1 as (U1 & V1 & C1 & _). unfold combination, absol, local in U1, V1, C1. cbn [Superp_Spec.covering map fst snd rsum largest limited] in U1, V1, C1.
  assert (G1 : G (1 / 2 * (1 / 10) + 0) (1000 - 0) = - (1 / 6)) by (unfold G; field).
  rewrite <- U1 in C1. cbn [t_set flat y_C] in C1. rewrite Hv in C1 by (rewrite U1, G1; lra). injection C1 as C1. symmetry in C1.
  assert (V1' : 1 / 10 < b_ti b).
  { rewrite V1. unfold ti_effect. cbn [turbulent b_c windy c_wd b_added]. rewrite Bh', Bs', C0. destruct (Rlt_dec 1e-8 (1000 - 0)) as [_|Q]; [|exfalso; lra]. destruct (Rlt_dec 1e-8 (8/9)) as [_|Q]; [|exfalso; lra].
    unfold local. cbn [Superp_Spec.covering map snd largest]. pose proof (iec_inside Iec2019 (Linear (1/10)) 100 0 (8/9) (1000 - 0) 0 ltac:(lra) ltac:(lra) ltac:(lra) ltac:(lra) ltac:(cbn; lra)) as J. cbn [t_diam]. pose proof (Rmax_l (iec_ti Iec2019 (Linear (1 / 10)) 100 0 (8 / 9) (1000 - 0) 0) 0). lra. }
  destruct B2 as (U2 & _). destruct O2 as (U2' & _). rewrite !(W0 _ 2000 2000) in U2 by lra. rewrite !(W0 _ 2000 2000) in U2' by lra. rewrite !W1 in U2 by (try exact C0; try exact C1; lra). rewrite !W1 in U2' by (try exact C0; try exact C1; lra).
  unfold combination, absol in U2, U2'. cbn [Superp_Spec.covering map fst snd rsum limited] in U2, U2'.
  assert (Eq : G (1 / 2 * (1 / 10) + 0) (2000 - 1000) = G (1 / 2 * b_ti b + 0) (2000 - 1000)).
  { rewrite Rplus_0_r in V0. rewrite V0 in U2'. lra. }
  unfold G in Eq. set (k := b_ti b) in *. clearbody k. assert (X : (100 / (100 + 2 * (1 / 2 * (1 / 10) + 0) * (2000 - 1000))) = 1 / 2) by field. rewrite X in Eq.
  assert (Y : 0 < 100 / (100 + 2 * (1 / 2 * k + 0) * (2000 - 1000)) < 1 / 2).
  { split; [apply Rdiv_lt_0_compat; lra|]. apply (Rmult_lt_reg_r (100 + 2 * (1 / 2 * k + 0) * (2000 - 1000))); [lra|]. unfold Rdiv at 1. rewrite Rmult_assoc, Rinv_l by lra. lra. }
  set (y := 100 / (100 + 2 * (1 / 2 * k + 0) * (2000 - 1000))) in *. clearbody y. nra.
Qed.
Print Assumptions C252_downwind_refuted.
(** the hypotheses of the other theorems are met by the same case, with ka = 0 for the third one *)
Example C252_nonvacuous : good_both turbulent /\ good_farm row3 /\ good_both {| b_c := windy; b_ti0 := 1 / 10; b_ka := 0; b_kb := 1 / 20; b_added := b_added turbulent; b_ts := TIMax; b_quad := false |}.
Proof.
  destruct turbulent_good as [HG HF]. split; [exact HG|]. split; [exact HF|]. destruct HG as (A & _ & _ & _ & B & C & D). unfold good_both. cbn [b_c b_ti0 b_ka b_kb b_added b_ts]. split; [exact A|]. split; [lra|]. split; [lra|]. split; [lra|]. split; [exact B|]. split; [exact C|exact D].
Qed.
