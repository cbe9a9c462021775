(** C246: how far an accepted result of the iterative algorithm is from the solution of the coupled wake equations. *)
From Verif Require Import RBase Superp_Model FarmWakes_Model FarmWakes_Spec PointWakes_Model IterLoop_Model IterLoop_Spec Contract_Spec Contract_Proofs.
Local Open Scope R_scope.

(** Accepted with a change of at most [tol]: the last sweep is within q*tol/(1-q) of the solution, the returned results (the sweep before, C68) within tol/(1-q). *)
Theorem C246_accepted_result_accuracy : forall run x0 f reord n q tol verbose block max_it fres dwnd k x,
  runs_as run x0 f reord -> contracts n q f -> length x0 = n -> (0 < n)%nat -> solution n f x -> moves_only n reord ->
  calc_farm_iter run block (Some (delta_crit tol verbose)) false max_it = (fres, dwnd, k) -> (k < max_it)%nat ->
  within (q * tol / (1 - q)) dwnd x /\ within (tol / (1 - q)) fres (reord x).
Proof. intros run x0 f reord n q tol verbose block max_it fres dwnd k x H1 H2 H3 H4 H5 H6 H7 H8. exact (accepted run x0 f reord n q H1 H2 H3 tol verbose block max_it fres dwnd k x H4 H7 H8 H5 H6). Qed.
Print Assumptions C246_accepted_result_accuracy.

(** There is exactly one solution, and the sweeps approach it geometrically, accepted or not. *)
Theorem C246_one_solution : forall n q f, contracts n q f ->
  (forall x y, solution n f x -> solution n f y -> x = y) /\
  (exists x, solution n f x).
Proof.
  intros n q f C. split; [intros x y; exact (solution_unique n q f C x y)|].
  destruct (it_dist n q f C (repeat 0 n) (repeat_length 0 n)) as (d0 & W). destruct (solution_exists n q f C _ d0 (repeat_length 0 n) W) as (x & H & _). eauto.
Qed.
Print Assumptions C246_one_solution.
Theorem C246_error_of_iteration : forall run x0 f reord n q d0 block crit max_it fres dwnd k x,
  runs_as run x0 f reord -> contracts n q f -> length x0 = n -> within d0 x0 (f x0) -> solution n f x ->
  calc_farm_iter run block crit false max_it = (fres, dwnd, k) -> within (q ^ k * d0 / (1 - q)) dwnd x.
Proof. intros run x0 f reord n q d0 block crit max_it fres dwnd k x H1 H2 H3 H4 H5 H6. exact (in_any_case run x0 f reord n q H1 H2 H3 d0 block crit max_it fres dwnd k x H4 H6 H5). Qed.
Print Assumptions C246_error_of_iteration.

(** The loop ends by acceptance, whatever the iteration limit, if the limit is large enough and convergence is blocked for finitely many iterations only. *)
Theorem C246_loop_accepts : forall run x0 f reord n q tol verbose block B,
  runs_as run x0 f reord -> contracts n q f -> length x0 = n -> (0 < n)%nat -> 0 < tol -> (forall j, (B <= j)%nat -> block j = false) ->
  exists N, forall max_it fres dwnd k, calc_farm_iter run block (Some (delta_crit tol verbose)) false max_it = (fres, dwnd, k) -> (k <= N)%nat.
Proof. intros run x0 f reord n q tol verbose block B H1 H2 H3 H4 H5 H6. exact (ends run x0 f reord n q H1 H2 H3 tol verbose block B H4 H5 H6). Qed.
Print Assumptions C246_loop_accepts.
(** with the number: after iteration j+1 if q^j times the first change is at most [tol] *)
Theorem C246_number_of_iterations : forall run x0 f reord n q tol verbose block max_it fres dwnd k j d0,
  runs_as run x0 f reord -> contracts n q f -> length x0 = n -> (0 < n)%nat -> within d0 x0 (f x0) -> q ^ j * d0 <= tol -> block (S j) = false ->
  calc_farm_iter run block (Some (delta_crit tol verbose)) false max_it = (fres, dwnd, k) -> (k <= S j)%nat.
Proof. intros run x0 f reord n q tol verbose block max_it fres dwnd k j d0 H1 H2 H3 H4 H5 H6 H7 H8. exact (ends_by run x0 f reord n q H1 H2 H3 tol verbose block max_it fres dwnd k j d0 H4 H5 H6 H7 H8). Qed.
Print Assumptions C246_number_of_iterations.

(** When sweeps contract: for every turbine, the sensitivities of all wakes acting on it add up to at most q < 1. Any wind speed superposition except the product, with any limits. *)
Theorem C246_weak_coupling_contracts : forall (T P : Type) (amb : P -> R) (hub : T -> P) ts dT (mLs : list (swake T R P * (T -> T -> R))) q,
  0 <= q < 1 -> Forall (fun mL => norm_like (sm_s (fst mL)) /\ sensitive amb hub (fst mL) (snd mL)) mLs ->
  (forall j, (j < length ts)%nat -> rsum (map (fun mL => others_sum (snd mL) ts dT j) mLs) <= q) ->
  contracts (length ts) q (sweep (fun t => amb (hub t)) (fun _ w => w) (map (fun mL => as_wmodel amb hub (fst mL)) mLs) ts).
Proof. exact @sweep_contracts. Qed.
Print Assumptions C246_weak_coupling_contracts.

(** The whole statement for a farm: weakly coupled wind speeds, results kept in processing order. *)
Theorem C246_weakly_coupled_farm : forall (T P : Type) (amb : P -> R) (hub : T -> P) ts dT (mLs : list (swake T R P * (T -> T -> R))) q tol verbose,
  0 <= q < 1 -> 0 < tol -> ts <> [] -> Forall (fun mL => norm_like (sm_s (fst mL)) /\ sensitive amb hub (fst mL) (snd mL)) mLs ->
  (forall j, (j < length ts)%nat -> rsum (map (fun mL => others_sum (snd mL) ts dT j) mLs) <= q) ->
  let ws := map (fun mL => as_wmodel amb hub (fst mL)) mLs in
  let a := fun t => amb (hub t) in
  exists x, sweep a (fun _ w => w) ws ts x = x /\ length x = length ts /\
  exists N, forall max_it fres dwnd k,
    calc_farm_iter (sweep_run a (fun _ w => w) (fun r => r) ws ts) (fun _ => false) (Some (delta_crit tol verbose)) false max_it = (fres, dwnd, k) ->
    (k <= N)%nat /\ ((k < max_it)%nat -> within (tol / (1 - q)) fres x /\ within (q * tol / (1 - q)) dwnd x).
Proof.
  intros T P amb hub ts dT mLs q tol verbose Q Ht Hne HF HQ ws a.
  pose proof (sweep_contracts amb hub ts dT mLs q Q HF HQ) as C. fold ws in C. fold a in C.
  destruct (proj2 (C246_one_solution _ _ _ C)) as (x & Lx & Fx). exists x. split; [exact Fx|]. split; [exact Lx|].
  assert (Hn : (0 < length ts)%nat) by (destruct ts; [congruence|cbn; lia]).
  assert (RA : runs_as (sweep_run a (fun _ w => w) (fun r => r) ws ts) (sweeps a (fun _ w => w) ws ts 1) (sweep a (fun _ w => w) ws ts) (fun r => r)) by (repeat split).
  assert (L0 : length (sweeps a (fun _ w => w) ws ts 1) = length ts) by apply FarmIter_Proofs.sweeps_length.
  destruct (ends _ _ _ _ _ _ RA C L0 tol verbose (fun _ => false) 0%nat Hn Ht ltac:(reflexivity)) as (N & HN). exists N.
  intros max_it fres dwnd k E. split; [exact (HN _ _ _ _ E)|]. intros Hk.
  destruct (accepted _ _ _ _ _ _ RA C L0 tol verbose _ max_it fres dwnd k x Hn E Hk (conj Lx Fx) ltac:(intros d u v _ W; exact W)). now split.
Qed.
Print Assumptions C246_weakly_coupled_farm.

(** Two turbines that weaken each other's wind (ambient 10): the deficit at one falls with the wind speed at the other. *)
Definition mutual (q c : R) : swake nat R nat := mks _ _ _ WSLinear false None None (fun _ u _ => Some (10, - (c - q * u) / 10)).
Definition mutual_sweep (q c : R) : list R -> list R := sweep (fun _ => 10) (fun _ w => w) [as_wmodel (fun _ => 10) (fun t => t) (mutual q c)] [0; 1]%nat.
Lemma mutual_eq q c a b : mutual_sweep q c [a; b] = [10 - c + q * b; 10 - c + q * a].
Proof. unfold mutual_sweep, sweep. cbn [combine sweep_from all_models gather_contribs Nat.eqb as_wmodel w_contrib w_new w_add mutual sm_s sm_c sm_quad sm_low sm_high add_wake final_delta is_ws raw_final clamp]. f_equal; [field|f_equal; field]. Qed.
Lemma mutual_contracts q c : 0 <= q < 1 -> contracts 2 q (mutual_sweep q c).
Proof.
  intros Q. apply (sweep_contracts (fun _ : nat => 10) (fun t : nat => t) [0; 1]%nat 0%nat [(mutual q c, fun _ _ => q)] q Q).
  - constructor; [|constructor]. cbn [fst snd]. split; [split; [reflexivity|exact I]|]. intros t t' u v. cbn [deficit_of mutual sm_s sm_c].
    replace (10 * (- (c - q * u) / 10) - 10 * (- (c - q * v) / 10)) with (q * (u - v)) by field. rewrite Rabs_mult, (Rabs_pos_eq q) by lra. lra.
  - intros [|[|j]] Hj; cbn in Hj; try lia; unfold others_sum; cbn [length seq map rsum snd Nat.eqb nth]; lra.
Qed.

(** The limit is not the accuracy: for every factor K the accepted results can be more than K * tol away from the (unique) solution. *)
Theorem C246_limit_is_not_accuracy_refuted : forall K, 0 < K -> exists (q c tol : R) fres dwnd x,
  contracts 2 q (mutual_sweep q c) /\ solution 2 (mutual_sweep q c) x /\ 0 < tol /\
  calc_farm_iter (sweep_run (fun _ => 10) (fun _ w => w) (fun r => r) [as_wmodel (fun _ => 10) (fun t => t) (mutual q c)] [0; 1]%nat) (fun _ => false) (Some (delta_crit tol false)) false 2 = (fres, dwnd, 1%nat) /\
  ~ within (K * tol) dwnd x /\ ~ within (K * tol) fres x.
Proof.
  intros K HK. set (q := (K + 1) / (K + 2)). assert (EQ : 1 - q = 1 / (K + 2)) by (unfold q; field; lra).
  assert (P2 : 0 < 1 / (K + 2)) by (apply Rmult_lt_0_compat; [lra|apply Rinv_0_lt_compat; lra]).
  assert (Q0 : 0 < q) by (unfold q; apply Rmult_lt_0_compat; [lra|apply Rinv_0_lt_compat; lra]).
  assert (KQ : K * (1 - q) < q) by (rewrite EQ; unfold q; apply Rmult_lt_reg_r with (K + 2); [lra|]; field_simplify; lra).
  set (c := 2 + 8 * q). set (tol := 2 * q * (1 - q)). clearbody q.
  assert (S1 : sweeps (fun _ => 10) (fun _ w => w) [as_wmodel (fun _ => 10) (fun t => t) (mutual q c)] [0; 1]%nat 1 = [8 + 2 * q; 8 + 2 * q]).
  { cbn [sweeps map]. change (sweep _ _ _ _ ?l) with (mutual_sweep q c l). rewrite mutual_eq. unfold c. f_equal; [ring|f_equal; ring]. }
  assert (S2 : mutual_sweep q c [8 + 2 * q; 8 + 2 * q] = [8 + 2 * q * q; 8 + 2 * q * q]).
  { rewrite mutual_eq. unfold c. f_equal; [ring|f_equal; ring]. }
  exists q, c, tol, [8 + 2 * q; 8 + 2 * q], [8 + 2 * q * q; 8 + 2 * q * q], [8; 8]. split; [apply mutual_contracts; lra|].
  split; [split; [reflexivity|]; rewrite mutual_eq; unfold c; f_equal; [ring|f_equal; ring]|].
  split; [unfold tol; apply Rmult_lt_0_compat; lra|]. split.
  - unfold calc_farm_iter. cbn [iter_loop collect Nat.eqb]. unfold stop at 1. cbn iota. rewrite crit_first.
    cbn [sweep_run]. rewrite S1. change (sweep _ _ _ _ ?l) with (mutual_sweep q c l). rewrite S2. unfold stop.
    replace (delta_crit tol false (Some [8 + 2 * q; 8 + 2 * q]) [8 + 2 * q * q; 8 + 2 * q * q]) with true; [reflexivity|].
    symmetry. apply crit_spec; [discriminate|reflexivity|]. split; [reflexivity|].
    assert (T0 : Rabs (8 + 2 * q - (8 + 2 * q * q)) <= tol). { replace (8 + 2 * q - (8 + 2 * q * q)) with tol by (unfold tol; ring). rewrite Rabs_pos_eq; [lra|]. unfold tol. apply Rmult_le_pos; lra. }
    intros [|[|i]]; cbn [nth]; auto. destruct i; replace (0 - 0) with 0 by ring; rewrite Rabs_R0; unfold tol; apply Rmult_le_pos; lra.
  - split; intros (_ & H); specialize (H 0%nat); cbn [nth] in H.
    + replace (8 + 2 * q * q - 8) with (2 * q * q) in H by ring. rewrite Rabs_pos_eq in H by nra. unfold tol in H. nra.
    + replace (8 + 2 * q - 8) with (2 * q) in H by ring. rewrite Rabs_pos_eq in H by nra. unfold tol in H. assert (K * (2 * q * (1 - q)) < 2 * q * q) by nra. nra.
Qed.
Print Assumptions C246_limit_is_not_accuracy_refuted.

(** Without contraction an accepted result need not belong to any solution at all. *)
Theorem C246_accepted_without_solution_refuted : forall tol, 0 < tol -> exists c fres dwnd,
  calc_farm_iter (sweep_run (fun _ => 10) (fun _ w => w) (fun r => r) [as_wmodel (fun _ => 10) (fun t => t) (mutual 1 c)] [0; 1]%nat) (fun _ => false) (Some (delta_crit tol false)) false 2 = (fres, dwnd, 1%nat) /\
  forall x, ~ solution 2 (mutual_sweep 1 c) x.
Proof.
  intros tol Ht. set (c := 10 + tol).
  assert (S1 : sweeps (fun _ => 10) (fun _ w => w) [as_wmodel (fun _ => 10) (fun t => t) (mutual 1 c)] [0; 1]%nat 1 = [10 - tol; 10 - tol]).
  { cbn [sweeps map]. change (sweep _ _ _ _ ?l) with (mutual_sweep 1 c l). rewrite mutual_eq. unfold c. f_equal; [ring|f_equal; ring]. }
  assert (S2 : mutual_sweep 1 c [10 - tol; 10 - tol] = [10 - 2 * tol; 10 - 2 * tol]).
  { rewrite mutual_eq. unfold c. f_equal; [ring|f_equal; ring]. }
  exists c, [10 - tol; 10 - tol], [10 - 2 * tol; 10 - 2 * tol]. split.
  - unfold calc_farm_iter. cbn [iter_loop collect Nat.eqb]. unfold stop at 1. cbn iota. rewrite crit_first.
    cbn [sweep_run]. rewrite S1. change (sweep _ _ _ _ ?l) with (mutual_sweep 1 c l). rewrite S2. unfold stop.
    replace (delta_crit tol false (Some [10 - tol; 10 - tol]) [10 - 2 * tol; 10 - 2 * tol]) with true; [reflexivity|].
    symmetry. apply crit_spec; [discriminate|reflexivity|]. split; [reflexivity|].
    assert (T0 : Rabs (10 - tol - (10 - 2 * tol)) <= tol) by (replace (10 - tol - (10 - 2 * tol)) with tol by ring; rewrite Rabs_pos_eq; lra).
    intros [|[|i]]; cbn [nth]; auto. destruct i; replace (0 - 0) with 0 by ring; rewrite Rabs_R0; lra.
  - intros [|a [|b [|]]] (Lx & Fx); try discriminate Lx. rewrite mutual_eq in Fx. injection Fx as Ea Eb. unfold c in *. lra.
Qed.
Print Assumptions C246_accepted_without_solution_refuted.

(** weak coupling is met: two turbines, q = 1/2 *)
Example C246_nonvacuous : contracts 2 (1 / 2) (mutual_sweep (1 / 2) 6) /\ solution 2 (mutual_sweep (1 / 2) 6) [8; 8].
Proof. split; [apply mutual_contracts; lra|]. split; [reflexivity|]. rewrite mutual_eq. f_equal; [lra|f_equal; lra]. Qed.
