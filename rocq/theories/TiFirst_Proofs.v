(** Proofs for C262. *)
From Coq Require Import Permutation.
From Verif Require Import RBase WindDir_Model Superp_Model Superp_Spec Superp_Proofs Order_Model Order_Spec Order_Proofs FarmWakes_Model FarmIter_Proofs
  AnyOrder_Model AnyOrder_Spec AnyOrder_Proofs Curves_Model Curves_Spec Curves_Proofs Symm_Model Whole_Model Whole_Spec Whole_Proofs Both_Model Both_Spec Both_Proofs TiFirst_Spec.
Local Open Scope R_scope.

Section First.
Variables (g : bscene) (farm : list (turb ttype)).
Hypothesis HG : good_both g.
Hypothesis HF : good_farm farm.
Let c := b_c g.
Let n := length farm.
Let tb (i : nat) := nth i farm no_turb.
Let ww := as_model centre_points (uniform_ti g) (wind_smodel g).
Let wt := as_model centre_points (uniform_ti g) (ti_smodel g).
Let ambt : turb ttype -> R * R := amb amb_both (uniform_ti g).
Let evt : turb ttype -> R * R -> bres := ev turbine_both.
Let o := argsort Rleb (along (uniform_ti g) farm).
Let res (u v : nat -> R) (j : nat) : bres := evt (tb j) (u j, v j).
Let wsp (_ : nat) : R := c_wsp c.

(** the equations of the two passes *)
Definition feqs (u v : nat -> R) : Prop := forall i, (i < n)%nat ->
  u i = c_wsp c + final_wake (c_s c) false (c_low c) (c_high c) (c_wsp c) (wcons g farm v (res u v) i) /\
  v i = b_ti0 g + final_wake (b_ts g) (b_quad g) None None (b_ti0 g) (tcons g farm (res wsp v) i).
Lemma T0 : 0 <= b_ti0 g. Proof. apply HG. Qed.
Lemma po : isperm n o.
Proof. unfold o. rewrite (order_is g farm HF). exact (o_perm g farm HG). Qed.
Lemma a_ww : forall k l : nat, (k < l)%nat -> (l < n)%nat -> forall f d, w_contrib ww (tb (nth l o 0%nat)) f (tb (nth k o 0%nat)) d = d.
Proof. unfold o. rewrite (order_is g farm HF). exact (adm_ww g farm HG). Qed.
Lemma a_wt : forall k l : nat, (k < l)%nat -> (l < n)%nat -> forall f d, w_contrib wt (tb (nth l o 0%nat)) f (tb (nth k o 0%nat)) d = d.
Proof. unfold o. rewrite (order_is g farm HF). exact (adm_wt g farm HG). Qed.
Lemma tcons_eq sr sr' i : (forall j, (j < n)%nat -> sr j = sr' j) -> tcons g farm sr i = tcons g farm sr' i.
Proof. intros H. unfold tcons. apply map_ext_in. intros j J. apply in_seq in J. now rewrite H by (unfold n; lia). Qed.
Lemma wcons_eq ti ti' sr sr' i : (forall j, (j < n)%nat -> ti j = ti' j /\ sr j = sr' j) -> wcons g farm ti sr i = wcons g farm ti' sr' i.
Proof. intros H. unfold wcons. apply map_ext_in. intros j J. apply in_seq in J. destruct (H j ltac:(unfold n; lia)) as [-> ->]. reflexivity. Qed.
Lemma pass1 wf : solves evt no_turb farm wt (fun i => ambt (tb i)) wf <-> forall i, (i < n)%nat -> fst (wf i) = c_wsp c /\
  snd (wf i) = b_ti0 g + final_wake (b_ts g) (b_quad g) None None (b_ti0 g) (tcons g farm (res wsp (fun j => snd (wf j))) i).
Proof.
  assert (G : forall i, w_add wt (tb i) (ambt (tb i)) (deltas wt (map (fun j => (tb j, evt (tb j) (wf j))) (others farm i)) (tb i) (w_new wt (tb i))) =
    (c_wsp c, b_ti0 g + final_wake (b_ts g) (b_quad g) None None (b_ti0 g) (tcons g farm (fun j => evt (tb j) (wf j)) i))).
  { intros i. exact (f_equal (w_add wt (tb i) (ambt (tb i))) (deltas_wt g farm HG (fun j => evt (tb j) (wf j)) i)). }
  split; intros H.
  - assert (F : forall i, (i < n)%nat -> wf i = (c_wsp c, b_ti0 g + final_wake (b_ts g) (b_quad g) None None (b_ti0 g) (tcons g farm (fun j => evt (tb j) (wf j)) i))) by (intros i Hi; rewrite <- G; exact (H i Hi)).
    intros i Hi. split; [now rewrite (F i Hi)|]. rewrite (F i Hi) at 1. cbn [snd]. rewrite (tcons_eq _ (res wsp (fun j => snd (wf j)))); [reflexivity|]. intros j Hj. unfold res, wsp. f_equal. rewrite (surjective_pairing (wf j)) at 1. f_equal. now rewrite (F j Hj).
  - intros i Hi. change (nth i farm no_turb) with (tb i). change (map (fun j => (nth j farm no_turb, evt (nth j farm no_turb) (wf j))) (others farm i)) with (map (fun j => (tb j, evt (tb j) (wf j))) (others farm i)).
    rewrite G. destruct (H i Hi) as [A B]. rewrite (surjective_pairing (wf i)), A, B. f_equal. f_equal. f_equal. apply tcons_eq. intros j Hj. unfold res, wsp. f_equal. destruct (H j Hj) as [C _]. now rewrite <- C, <- surjective_pairing.
Qed.
Lemma v_low v : (forall i, (i < n)%nat -> v i = b_ti0 g + final_wake (b_ts g) (b_quad g) None None (b_ti0 g) (tcons g farm (res wsp v) i)) -> forall i, (i < n)%nat -> b_ti0 g <= v i.
Proof. intros H i Hi. rewrite (H i Hi), (ti_comb g farm HG HF). pose proof (ti_up g farm HG HF (res wsp v) i). lra. Qed.
Lemma pass2 w1 wf : (forall j, (j < n)%nat -> fst (w1 j) = c_wsp c /\ 0 <= snd (w1 j)) ->
  (solves evt no_turb farm ww w1 wf <-> forall i, (i < n)%nat -> snd (wf i) = snd (w1 i) /\
  fst (wf i) = c_wsp c + final_wake (c_s c) false (c_low c) (c_high c) (c_wsp c) (wcons g farm (fun j => snd (wf j)) (fun j => evt (tb j) (wf j)) i)).
Proof.
  intros H1.
  assert (G : (forall j, (j < n)%nat -> snd (wf j) = snd (w1 j)) -> forall i, (i < n)%nat -> w_add ww (tb i) (w1 i) (deltas ww (map (fun j => (tb j, evt (tb j) (wf j))) (others farm i)) (tb i) (w_new ww (tb i))) =
    (c_wsp c + final_wake (c_s c) false (c_low c) (c_high c) (c_wsp c) (wcons g farm (fun j => snd (wf j)) (fun j => evt (tb j) (wf j)) i), snd (w1 i))).
  { intros H i Hi. assert (P : forall j, (j < n)%nat -> 0 <= b_ti (evt (tb j) (wf j))) by (intros j Hj; change (0 <= snd (wf j)); rewrite H by exact Hj; apply H1; exact Hj).
    etransitivity; [exact (f_equal (w_add ww (tb i) (w1 i)) (deltas_ww g farm HG HF (fun j => evt (tb j) (wf j)) i P))|].
    rewrite (surjective_pairing (w1 i)), (proj1 (H1 i Hi)). reflexivity. }
  split; intros H.
  - assert (S2 : forall j, (j < n)%nat -> snd (wf j) = snd (w1 j)) by (intros j Hj; rewrite (H j Hj); reflexivity).
    intros i Hi. split; [now apply S2|]. pose proof (eq_trans (H i Hi) (G S2 i Hi)) as Q. now rewrite Q at 1.
  - intros i Hi. refine (eq_trans _ (eq_sym (G (fun j Hj => proj1 (H j Hj)) i Hi))). destruct (H i Hi) as [A B]. rewrite <- A, <- B. apply surjective_pairing.
Qed.
(** the equations have one solution, and it is what the algorithm returns *)
Lemma first_run : exists u v, feqs u v /\ downwind_results g [ti_smodel g; wind_smodel g] farm = Ok (map (res u v) (seq 0 n)) /\
  forall u' v', feqs u' v' -> forall i, (i < n)%nat -> u' i = u i /\ v' i = v i.
Proof.
  destruct (pass_solves ambt evt no_turb farm wt o eq_refl (wt_neutral g HG) (wt_comm g) po a_wt (fun i => ambt (tb i)) _ (start_holds ambt evt no_turb 0 farm o po)) as (w1 & S1 & H1).
  destruct (pass_solves ambt evt no_turb farm ww o eq_refl (ww_neutral g HG) (ww_comm g) po a_ww w1 _ H1) as (w2 & S2 & H2).
  pose proof (proj1 (pass1 w1) S1) as E1.
  assert (L1 : forall j, (j < n)%nat -> fst (w1 j) = c_wsp c /\ 0 <= snd (w1 j)).
  { intros j Hj. split; [apply E1; exact Hj|]. pose proof (v_low (fun j => snd (w1 j)) (fun i Hi => proj2 (E1 i Hi)) j Hj). pose proof T0. cbv beta in *. lra. }
  pose proof (proj1 (pass2 w1 w2 L1) S2) as E2.
  exists (fun j => fst (w2 j)), (fun j => snd (w2 j)). split; [|split].
  - intros i Hi. destruct (E2 i Hi) as [A B]. split.
    + rewrite B at 1. apply f_equal. apply (f_equal (final_wake (c_s c) false (c_low c) (c_high c) (c_wsp c))). apply wcons_eq. intros j Hj. split; [reflexivity|]. unfold res. now rewrite <- surjective_pairing.
    + rewrite A, (proj2 (E1 i Hi)). apply f_equal. apply (f_equal (final_wake (b_ts g) (b_quad g) None None (b_ti0 g))). apply tcons_eq. intros j Hj. unfold res. rewrite (proj1 (E2 j Hj)). reflexivity.
  - unfold downwind_results, calc. fold o. unfold calc_with, calc_downwind. rewrite run_down by (repeat constructor). cbn [map fold_left bind]. f_equal.
    transitivity (map (fun i => evt (nth i farm no_turb) (w2 i)) (seq 0 (length farm))); [exact (results_of evt no_turb no_bres farm o w2 _ po H2)|].
    apply map_ext. intros i. unfold res. now rewrite <- surjective_pairing.
  - intros u v E.
    assert (S1' : solves evt no_turb farm wt (fun i => ambt (tb i)) (fun i => (c_wsp c, v i))) by (apply pass1; intros i Hi; split; [reflexivity|]; exact (proj2 (E i Hi))).
    pose proof (solves_unique ambt evt no_turb farm wt o (wt_comm g) po a_wt (fun i => ambt (tb i)) _ w1 S1' S1) as Q1.
    assert (S2' : solves evt no_turb farm ww w1 (fun i => (u i, v i))).
    { apply pass2; [exact L1|]. intros i Hi. cbn [fst snd]. split; [now rewrite <- (Q1 i Hi)|]. exact (proj1 (E i Hi)). }
    pose proof (solves_unique ambt evt no_turb farm ww o (ww_comm g) po a_ww w1 _ w2 S2' S2) as Q2. intros i Hi. now rewrite <- (Q2 i Hi).
Qed.
Lemma mapn f i : (i < n)%nat -> nth i (map f (seq 0 n)) no_bres = f i.
Proof. intros H. rewrite (nth_indep _ no_bres (f 0%nat)) by (rewrite map_length, seq_length; exact H). rewrite map_nth, seq_nth by exact H. reflexivity. Qed.
Lemma wcons_val ti sr l : (forall j, (j < n)%nat -> nth j l no_bres = sr j /\ ti j = b_ti (sr j)) -> forall i,
  wcons g farm ti sr i = map (fun j => wind_effect g (b_ti (nth j l no_bres)) (nth j farm no_turb) (nth j l no_bres) (tb i)) (seq 0 (length farm)).
Proof. intros H i. unfold wcons. apply map_ext_in. intros j J. apply in_seq in J. destruct (H j ltac:(unfold n; lia)) as [-> ->]. reflexivity. Qed.
Lemma tcons_val sr l : (forall j, (j < n)%nat -> nth j l no_bres = sr j) -> forall i,
  tcons g farm sr i = map (fun j => ti_effect g (nth j farm no_turb) (nth j l no_bres) (tb i)) (seq 0 (length farm)).
Proof. intros H i. unfold tcons. apply map_ext_in. intros j J. apply in_seq in J. rewrite (H j ltac:(unfold n; lia)). reflexivity. Qed.
Lemma res_ws_ok u v : feqs u v -> forall l, c_low c = Some l -> 0 <= l -> forall j, (j < n)%nat -> 0 <= b_ws (res u v j).
Proof. intros H l E L j Hj. change (0 <= u j). destruct (H j Hj) as [-> _]. pose proof (low_bound g HG l (wcons g farm v (res u v) j) E). fold c in H0. lra. Qed.
Lemma type_ok j : (j < n)%nat -> good_type (t_set (tb j)).
Proof. intros H. apply HF. now apply nth_In. Qed.
Lemma feqs_balance u v : feqs u v -> balance_ti_first g farm (map (res u v) (seq 0 n)).
Proof.
  intros H. assert (V : forall j, (j < n)%nat -> b_ti0 g <= v j) by (apply v_low; intros i Hi; apply H; exact Hi). pose proof T0 as T0. split; [now rewrite map_length, seq_length|].
  exists (map (res wsp v) (seq 0 n)). split; [now rewrite map_length, seq_length|]. split.
  - intros j Hj. fold n in Hj. rewrite !mapn by exact Hj. destruct (type_ok j Hj) as (Y1 & Y2 & _). unfold in_free_wind. split; [reflexivity|]. split; [reflexivity|]. fold (tb j). split; apply value_ok; assumption.
  - intros j Hj. cbv zeta. fold (tb j). fold n in Hj. fold c.
    rewrite <- (wcons_val v (res u v)) by (intros i Hi; rewrite mapn by exact Hi; split; reflexivity).
    rewrite <- (tcons_val (res wsp v)) by (intros i Hi; now rewrite mapn by exact Hi). rewrite !mapn by exact Hj.
    destruct (H j Hj) as [Eu Ev]. unfold c in Eu. rewrite (wind_comb g farm HG HF) in Eu by (solve [intros i Hi; specialize (V i Hi); lra] || exact (res_ws_ok u v H)). rewrite (ti_comb g farm HG HF) in Ev. fold c in Eu. rewrite <- Eu, <- Ev.
    destruct (type_ok j Hj) as (Y1 & Y2 & _). split; [reflexivity|]. split; [reflexivity|]. split; apply value_ok; assumption.
Qed.
Lemma balance_feqs ys : balance_ti_first g farm ys -> let u := fun i => b_ws (nth i ys no_bres) in let v := fun i => b_ti (nth i ys no_bres) in feqs u v /\ ys = map (res u v) (seq 0 n).
Proof.
  intros (L & free & Lf & Hf & H) u v.
  assert (R : forall j, (j < n)%nat -> nth j ys no_bres = res u v j).
  { intros j Hj. destruct (H j Hj) as (A & B & C & D). unfold res, evt, ev, turbine_both. cbn [fst snd]. rewrite <- A in C, D. fold (tb j) in C, D. fold (u j) in C, D. unfold value. rewrite C, D. unfold u, v. now destruct (nth j ys no_bres). }
  assert (Q : forall j, (j < n)%nat -> nth j free no_bres = res wsp v j).
  { intros j Hj. destruct (Hf j Hj) as (A & B & C & D). unfold res, evt, ev, turbine_both, wsp. cbn [fst snd]. fold c in A, C, D. fold (tb j) in C, D. unfold value. rewrite C, D. unfold v. rewrite <- A, <- B. now destruct (nth j free no_bres). }
  split.
  - assert (V : forall j, (j < n)%nat -> 0 <= v j).
    { intros j Hj. destruct (H j Hj) as (_ & B & _). fold (tb j) in B. rewrite <- (tcons_val (res wsp v) free Q) in B. fold (v j) in B. rewrite B. pose proof (ti_up g farm HG HF (res wsp v) j). pose proof T0. lra. }
    assert (U : forall l, c_low (b_c g) = Some l -> 0 <= l -> forall j, (j < n)%nat -> 0 <= b_ws (res u v j)).
    { intros l El Ll j Hj. change (0 <= u j). destruct (H j Hj) as (A & _). fold (u j) in A. rewrite A. rewrite El. apply Rle_trans with l; [exact Ll|]. apply limited_low. intros h Eh. destruct HG as ((_ & _ & _ & _ & _ & Q1 & Q2 & _) & _). specialize (Q1 l El). specialize (Q2 h Eh). lra. }
    intros j Hj. destruct (H j Hj) as (A & B & _). fold (tb j) in A, B. rewrite <- (wcons_val v (res u v)) in A by (intros i Hi; rewrite R by exact Hi; split; reflexivity). rewrite <- (tcons_val (res wsp v) free Q) in B.
    split.
    + unfold c. rewrite (wind_comb g farm HG HF) by (assumption). exact A.
    + rewrite (ti_comb g farm HG HF). exact B.
  - apply (nth_ext _ _ no_bres no_bres); [now rewrite map_length, seq_length|]. intros j Hj. rewrite L in Hj. rewrite mapn by exact Hj. exact (R j Hj).
Qed.
Lemma ti_first_run : exists ys, downwind_results g [ti_smodel g; wind_smodel g] farm = Ok ys /\ balance_ti_first g farm ys /\ forall zs, balance_ti_first g farm zs -> zs = ys.
Proof.
  destruct first_run as (u & v & E & R & U). exists (map (res u v) (seq 0 n)). split; [exact R|]. split; [exact (feqs_balance u v E)|].
  intros zs B. destruct (balance_feqs zs B) as [E' ->]. apply map_ext_in. intros j J. apply in_seq in J. unfold res. destruct (U _ _ E' j ltac:(lia)) as [-> ->]. reflexivity.
Qed.
Lemma first_bounds ys : balance_ti_first g farm ys -> forall j, (j < n)%nat -> b_ws (nth j ys no_bres) <= c_wsp c /\ b_ti0 g <= b_ti (nth j ys no_bres).
Proof.
  intros B j Hj. destruct (balance_feqs ys B) as [E _]. set (u := fun i => b_ws (nth i ys no_bres)) in *. set (v := fun i => b_ti (nth i ys no_bres)) in *.
  assert (V : forall j, (j < n)%nat -> b_ti0 g <= v j) by (apply v_low; intros i Hi; apply E; exact Hi). split; [|exact (V j Hj)].
  change (u j <= c_wsp c). destruct (E j Hj) as [-> _]. pose proof T0 as T0.
  assert (Fn : fine (c_s c) (wcons g farm v (res u v) j)) by (apply (wcons_fine g farm HG HF); [intros i Hi; specialize (V i Hi); lra|exact (res_ws_ok u v E)]).
  destruct HG as ((Hw & _ & Hs & Hp & _ & Hl & _) & _). pose proof (final_below (c_s c) (c_low c) (c_high c) (c_wsp c) _ Hs Hp ltac:(unfold c; lra) Hl Fn). lra.
Qed.
(** flat thrust: the same as the balance of C252 *)
Lemma flat_balance ys : by_thrust g -> flat_thrust g farm -> balance_ti_first g farm ys -> balance g own_ti farm ys.
Proof.
  intros BT FT B. assert (Bd := first_bounds ys B). destruct B as (L & free & Lf & Hf & H). split; [exact L|]. intros j Hj. pose proof H as HH. specialize (H j Hj). cbv zeta in H |- *. unfold own_ti.
  replace (map (fun i => ti_effect g (nth i farm no_turb) (nth i ys no_bres) (nth j farm no_turb)) (seq 0 (length farm)))
    with (map (fun i => ti_effect g (nth i farm no_turb) (nth i free no_bres) (nth j farm no_turb)) (seq 0 (length farm))); [exact H|].
  apply map_ext_in. intros i J. apply in_seq in J. assert (Hi : (i < length farm)%nat) by lia. destruct (Hf i Hi) as (A & A2 & A3 & _).
  assert (Ec : b_ct (nth i free no_bres) = b_ct (nth i ys no_bres)).
  { symmetry. apply (FT (nth i farm no_turb) (b_ws (nth i ys no_bres))); [now apply nth_In| |exact (proj1 (Bd i Hi))| |exact A3].
    { intros l El. destruct (HH i Hi) as (Z1 & _). cbv zeta in Z1. rewrite Z1, El. apply limited_low. intros h Eh. destruct HG as ((_ & _ & _ & _ & _ & Q1 & Q2 & _) & _). specialize (Q1 l El). specialize (Q2 h Eh). lra. }
    destruct (HH i Hi) as (Z1 & _ & Z3 & _). rewrite Z1. exact Z3. }
  unfold ti_effect. rewrite Ec. destruct (Rlt_dec _ _); [|reflexivity]. destruct (Rlt_dec _ _); [|reflexivity]. f_equal. f_equal. apply BT; assumption.
Qed.
End First.
