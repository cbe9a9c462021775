(** Properties C173-C175: running foxes from a parameter dictionary. *)
From Coq Require Import String.
From Verif Require Import Base Params_Model Params_Spec Params_Proofs.

(** C173. One run: exactly the calls that the dictionary and the arguments ask for, in their
    order, with the arguments overruling the dictionary. *)
Theorem C173_run : forall ext g p e l,
  all_well ext -> complete g p -> NoDup (map fst (g_pars g)) ->
  (engine_of g p <> None -> e = None) ->
  exists s' a,
    run_dict ext g (mkst p e l)
      = (s', Ok (wants_farm p,
                 match p_points p with None => None | Some _ => Some (wants_points p) end,
                 map (fun o => negb (o_needs o) || wants_farm p) (p_outputs p)))
    /\ log s' = l ++ plan g p a
    /\ (forall a0, g_algo g = false -> p_algo p = Some a0 -> forall k, look k a = algo_value g a0 k).
Proof.
  intros ext g p e l W C N E. destruct (run_once ext g p e l W C E) as (a & A & R).
  exists (mkst (spent g p) e (l ++ plan g p a)), a. split; [exact R|]. split; [reflexivity|].
  intros a0 G PA k. unfold algo_after in A. rewrite G, PA in A. injection A as <-.
  rewrite (look_update _ _ _ N). unfold algo_value. destruct (look k (g_pars g)); [reflexivity|].
  destruct (g_iter g); cbn [andb]; [|reflexivity].
  rewrite look_put. reflexivity.
Qed.
(** The farm calculation is run once or not at all, as the flag says. *)
Theorem C173_flag : forall ext g p e l s' r,
  all_well ext -> complete g p -> (engine_of g p <> None -> e = None) ->
  run_dict ext g (mkst p e l) = (s', r) ->
  List.length (filter is_calc (log s')) = List.length (filter is_calc l) + (if wants_farm p then 1 else 0).
Proof.
  intros ext g p e l s' r W C E H. destruct (run_once ext g p e l W C E) as (a & A & R).
  rewrite R in H. injection H as <- _. cbn [log].
  rewrite filter_app, app_length. f_equal. unfold plan.
  assert (Z : forall f q os, filter is_calc (map (fun o => EvOut (o_id o) f q) os) = [])
    by (intros f q os; induction os; [reflexivity|exact IHos]).
  rewrite !filter_app, Z.
  destruct (g_states g || g_algo g), (g_book g || g_algo g), (g_farm g || g_algo g), (g_algo g),
    (wants_farm p), (wants_points p), (p_states p), (p_book p), (engine_of g p);
  (destruct (p_farm p) as [[[]]|]); (destruct (p_points p) as [[? [] ?]|]); reflexivity.
Qed.
(** A dictionary that lacks something it needs, or contradictory arguments, are never accepted. *)
Theorem C173_incomplete : forall ext g s s' r, run_dict ext g s = (s', Ok r) -> complete g (par s).
Proof. exact incomplete. Qed.
Print Assumptions C173_run.
Print Assumptions C173_flag.
Print Assumptions C173_incomplete.

Section Witness.
Open Scope string_scope.
Open Scope list_scope.
(** a dictionary with states, a farm, an engine, an algorithm, a switched off farm calculation and
    two outputs *)
Definition p_demo : params :=
  mkparams (Some [("states_type", 3)]) None (Some (mkfsec (Some [[("function", 4)]]) [("name", 5)]))
    (Some 7) (Some [("algo_type", 1); ("wake_models", 2)]) (Some (mkcsec (Some false) []))
    None [mkosec 10 true; mkosec 11 false].
Definition g_demo : given := mkgiven false false false false None true [("wake_models", 9)].
Definition ok_env : env := fun _ _ => None.
Example C173_witness : all_well ok_env /\ complete g_demo p_demo /\ NoDup (map fst (g_pars g_demo)) /\
  log (fst (run_dict ok_env g_demo (mkst p_demo None []))) =
    [EvStates [("states_type", 3)]; EvFarm [("name", 5)] [[("function", 4)]]; EvStart 7;
     EvAlgo [("algo_type", 0); ("wake_models", 9)]; EvOut 11 false false; EvStop 7].
Proof.
  repeat split; try discriminate; cbn.
  - right; discriminate.
  - right. eexists; split; [reflexivity|discriminate].
  - repeat constructor. intros [].
Qed.

(** C174. Running the same dictionary once more. With the farm or the algorithm passed by the
    caller, no section calc_points and the farm calculation not switched off, the second run
    makes the same calls with the same result. *)
Theorem C174_repeat_partial : forall ext g p e l,
  all_well ext -> complete g p -> NoDup (map fst (g_pars g)) ->
  look "algo_type" (g_pars g) = None ->
  (engine_of g p <> None -> e = None) ->
  g_farm g || g_algo g = true -> p_points p = None -> wants_farm p = true ->
  exists s1 s2 r, run_dict ext g (mkst p e l) = (s1, Ok r) /\ run_dict ext g s1 = (s2, Ok r)
    /\ exists t, log s1 = l ++ t /\ log s2 = log s1 ++ t.
Proof.
  intros ext g p e l W C N L E G Q F.
  destruct (run_once ext g p e l W C E) as (a & A & R).
  assert (C' : complete g (spent g p)).
  { destruct C as [C1 C2]. split; [|unfold spent; cbn [p_points]; rewrite Q; exact I].
    destruct (g_algo g) eqn:GA; [exact C1|]. destruct C1 as (Ca & Cs & Cf). rewrite Bool.orb_false_r in G.
    split; [|split; [exact Cs|left; exact G]].
    unfold spent, algo_after; cbn [p_algo]. rewrite GA. destruct (p_algo p); [discriminate|congruence]. }
  assert (E' : engine_of g (spent g p) <> None -> e = None) by (rewrite engine_spent; exact E).
  destruct (run_once ext g (spent g p) e (l ++ plan g p a) W C' E') as (a' & A' & R').
  rewrite Q, F in R. eexists _, _, _. split; [exact R|].
  assert (WF : wants_farm (spent g p) = true)
    by (unfold wants_farm, spent; cbn [p_calc]; destruct (p_calc p); reflexivity).
  assert (PL : plan g (spent g p) a' = plan g p a).
  { rewrite (second_plan _ _ _ G Q).
    assert (AA : g_algo g = false -> a' = a).
    { intros GA. rewrite GA in A, A'. rewrite (algo_stable _ _ N L), A in A'. injection A' as ->. reflexivity. }
    unfold plan, wants_farm, wants_points in *.
    cbn [p_states p_book p_farm p_engine p_algo p_calc p_points p_outputs c_run c_args].
    rewrite Q. unfold engine_of; cbn [p_engine].
    destruct (p_calc p) as [c|]; try rewrite F; (destruct (g_algo g); [reflexivity|]);
      rewrite (AA eq_refl); reflexivity. }
  split.
  - rewrite R', WF. replace (p_points (spent g p)) with (@None psec) by (unfold spent; cbn [p_points]; rewrite Q; reflexivity). reflexivity.
  - exists (plan g p a). cbn [log]. rewrite PL. split; reflexivity.
Qed.
(** Otherwise it does not. A dictionary that says how to make its farm has lost the layouts: the
    second run raises KeyError before it calculates anything. *)
Theorem C174_layouts_refuted : forall ext g g' p e l,
  all_well ext -> complete g p -> (engine_of g p <> None -> e = None) ->
  g_farm g = false -> g_algo g = false -> g_algo g' = false -> g_farm g' = false ->
  (g_states g' = true \/ p_states p <> None) ->
  exists s1 s2 r, run_dict ext g (mkst p e l) = (s1, Ok r) /\ run_dict ext g' s1 = (s2, Err KeyError)
    /\ forall a, ~ In (EvCalc a) (skipn (List.length (log s1)) (log s2)).
Proof.
  intros ext g g' p e l W C E G A A' G' PS.
  destruct (run_once ext g p e l W C E) as (a & _ & R).
  assert (PF : p_farm p <> None).
  { destruct C as [C _]. rewrite A in C. destruct C as (_ & _ & [C|(f & C & _)]); [congruence|congruence]. }
  destruct (second_layouts ext g g' p e (l ++ plan g p a) W G A A' G' PF PS) as (s2 & R2 & _ & F).
  eexists _, s2, _. split; [exact R|]. split; [exact R2|exact F].
Qed.
(** With the algorithm passed by the caller, a farm calculation that the dictionary switches off
    is left out by the first run only. *)
Theorem C174_flag_refuted : forall ext g p e l,
  all_well ext -> complete g p -> (engine_of g p <> None -> e = None) ->
  g_algo g = true -> p_points p = None -> wants_farm p = false ->
  exists s1 s2 r r', run_dict ext g (mkst p e l) = (s1, Ok r) /\ run_dict ext g s1 = (s2, Ok r')
    /\ List.length (filter is_calc (log s1)) = List.length (filter is_calc l)
    /\ List.length (filter is_calc (log s2)) = S (List.length (filter is_calc l)).
Proof.
  intros ext g p e l W C E A Q F.
  destruct (run_once ext g p e l W C E) as (a & _ & R).
  pose proof (C173_flag ext g p e l _ _ W C E R) as F1. rewrite F in F1. rewrite Nat.add_0_r in F1.
  assert (C' : complete g (spent g p)).
  { destruct C as [C1 C2]. split; [rewrite A in *; exact C1|unfold spent; cbn [p_points]; rewrite Q; exact I]. }
  assert (E' : engine_of g (spent g p) <> None -> e = None) by (rewrite engine_spent; exact E).
  destruct (run_once ext g (spent g p) e (l ++ plan g p a) W C' E') as (a' & _ & R').
  pose proof (C173_flag ext g _ e _ _ _ W C' E' R') as F2.
  assert (WF : wants_farm (spent g p) = true)
    by (unfold wants_farm, spent; cbn [p_calc]; destruct (p_calc p); reflexivity).
  rewrite WF in F2. eexists _, _, _, _. split; [exact R|]. split; [exact R'|].
  split; [exact F1|]. rewrite F2. cbn [log] in F1. rewrite F1. rewrite Nat.add_1_r. reflexivity.
Qed.
(** With a section calc_points the second run always fails. *)
Theorem C174_points_refuted : forall ext g g' p e l s1 s2 r r',
  all_well ext -> (engine_of g p <> None -> e = None) -> p_points p <> None ->
  run_dict ext g (mkst p e l) = (s1, Ok r) -> run_dict ext g' s1 = (s2, r') -> exists x, r' = Err x.
Proof.
  intros ext g g' p e l s1 s2 r r' W E Q H1 H2.
  pose proof (incomplete _ _ _ _ _ H1) as C. cbn [par] in C.
  destruct (run_once ext g p e l W C E) as (a & _ & R). rewrite R in H1. injection H1 as <- _.
  destruct r' as [r'|x]; [|exists x; reflexivity]. exfalso.
  apply incomplete in H2. destruct H2 as [_ H2]. cbn [par spent p_points] in H2.
  destruct (p_points p); [|congruence]. cbn in H2. destruct H2 as [H2 _]. congruence.
Qed.
(** Algorithm parameters passed to one run overrule those of all later runs of the dictionary
    that do not pass them themselves. *)
Theorem C174_override_refuted : forall ext g g' p e l k v,
  all_well ext -> complete g p -> (engine_of g p <> None -> e = None) ->
  (engine_of g' p <> None -> e = None) ->
  g_algo g = false -> NoDup (map fst (g_pars g)) -> look k (g_pars g) = Some v ->
  g_algo g' = false -> g_farm g' = true -> g_states g' = true -> p_points p = None ->
  NoDup (map fst (g_pars g')) -> look k (g_pars g') = None -> k <> "algo_type" ->
  exists s1 s2 r r' a, run_dict ext g (mkst p e l) = (s1, Ok r) /\ run_dict ext g' s1 = (s2, Ok r')
    /\ In (EvAlgo a) (skipn (List.length (log s1)) (log s2)) /\ look k a = Some v.
Proof.
  intros ext g g' p e l k v W C E E2 A N L A' F' S' Q N' L' K.
  destruct (run_once ext g p e l W C E) as (a & AA & R).
  destruct C as [C1 _]. rewrite A in C1. destruct C1 as (C1 & _).
  assert (C' : complete g' (spent g p)).
  { split; [|unfold spent; cbn [p_points]; rewrite Q; exact I]. rewrite A'.
    split; [|split; left; assumption]. unfold spent, algo_after; cbn [p_algo]. rewrite A.
    destruct (p_algo p); [discriminate|congruence]. }
  assert (E' : engine_of g' (spent g p) <> None -> e = None) by (rewrite engine_spent; exact E2).
  destruct (run_once ext g' (spent g p) e (l ++ plan g p a) W C' E') as (a' & AA' & R').
  eexists _, _, _, _, a'. split; [exact R|]. split; [exact R'|]. cbn [log].
  rewrite skipn_app, skipn_all, Nat.sub_diag. cbn [app skipn]. split.
  - unfold plan. rewrite A'. repeat (rewrite in_app_iff; first [left; left; reflexivity|right]).
  - unfold algo_after in AA'. rewrite A' in AA'. unfold spent, algo_after in AA'; cbn [p_algo] in AA'.
    rewrite A in AA'. destruct (p_algo p) as [a0|]; [|congruence]. injection AA' as <-.
    rewrite (look_update _ _ _ N'), L'.
    assert (KE : String.eqb k "algo_type" = false) by (apply String.eqb_neq; exact K).
    destruct (g_iter g'); rewrite ?look_put, ?KE, (look_update _ _ _ N), L; reflexivity.
Qed.
Print Assumptions C174_repeat_partial.
Print Assumptions C174_layouts_refuted.
Print Assumptions C174_flag_refuted.
Print Assumptions C174_points_refuted.
Print Assumptions C174_override_refuted.
Definition g_algo_demo : given := mkgiven false false false true None false [].
Example C174_witness : complete g_algo_demo p_demo /\ wants_farm p_demo = false /\ p_points p_demo = None /\
  log (fst (run_dict ok_env g_algo_demo (fst (run_dict ok_env g_algo_demo (mkst p_demo None []))))) =
    [EvStart 7; EvOut 11 false false; EvStop 7;
     EvStart 7; EvCalc []; EvOut 10 true false; EvOut 11 true false; EvStop 7].
Proof. repeat split. Qed.
Definition g_parts : given := mkgiven true true true false None false [("wake_models", 9)].
Definition g_parts' : given := mkgiven true true true false None false [].
Example C174_witness2 : complete g_parts p_demo /\ look "wake_models" (g_pars g_parts) = Some 9 /\
  log (fst (run_dict ok_env g_parts' (fst (run_dict ok_env g_parts (mkst p_demo None []))))) =
    [EvStart 7; EvAlgo [("algo_type", 1); ("wake_models", 9)]; EvOut 11 false false; EvStop 7;
     EvStart 7; EvAlgo [("algo_type", 1); ("wake_models", 9)]; EvCalc []; EvOut 10 true false;
     EvOut 11 true false; EvStop 7].
Proof. repeat split; cbn; try discriminate; left; reflexivity. Qed.
Example C174_witness_repeat : let p := mkparams None None None (Some 7) (Some [("algo_type", 1)]) None None
    [mkosec 10 true] in
  complete g_parts p /\ g_farm g_parts || g_algo g_parts = true /\ p_points p = None /\ wants_farm p = true.
Proof. repeat split; cbn; try discriminate; left; reflexivity. Qed.

(** C175. The engine that a run makes is shut down again whenever the run returns... *)
Theorem C175_return_partial : forall ext g s s' r,
  eng s = None -> run_dict ext g s = (s', Ok r) -> eng s' = None.
Proof. exact ended_well. Qed.
(** ... but not when it raises after the engine was started: then it stays registered. *)
Theorem C175_raise : forall ext g s s' x,
  eng s = None -> run_dict ext g s = (s', Err x) ->
  exists t, log s' = log s ++ t /\
    ((eng s' = None /\ forall e, ~ In (EvStart e) t)
     \/ exists e, engine_of g (par s) = Some e /\ In (EvStart e) t /\ eng s' = Some e).
Proof. exact ended_badly. Qed.
(** After that no run with an engine can succeed, whatever its dictionary and arguments. *)
Theorem C175_blocked : forall ext g s i e, eng s = Some i -> engine_of g (par s) = Some e ->
  exists s' x, run_dict ext g s = (s', Err x) /\ eng s' = Some i.
Proof. exact blocked. Qed.
(** A run whose farm calculation raises leaves its engine behind, and blocks the next one. *)
Theorem C175_refuted : exists ext g p s1 x,
  run_dict ext g (mkst p None []) = (s1, Err x) /\ eng s1 = Some 7
  /\ forall ext' g' p' l, p_engine p' = Some 7 -> g_engine g' = None ->
     exists s2 y, run_dict ext' g' (mkst p' (eng s1) l) = (s2, Err y).
Proof.
  exists (fun _ e => if is_calc e then Some ValueError else None), g_algo_demo.
  exists (mkparams None None None (Some 7) None None None []).
  eexists _, ValueError. split; [reflexivity|]. split; [reflexivity|].
  intros ext' g' p' l P G.
  destruct (blocked ext' g' (mkst p' (Some 7) l) 7 7 eq_refl) as (s2 & y & R & _).
  - unfold engine_of. rewrite G. exact P.
  - exists s2, y. exact R.
Qed.
Print Assumptions C175_return_partial.
Print Assumptions C175_raise.
Print Assumptions C175_blocked.
Print Assumptions C175_refuted.
Example C175_witness : exists s' r, run_dict ok_env g_demo (mkst p_demo None []) = (s', Ok r)
  /\ In (EvStart 7) (log s') /\ eng s' = None.
Proof. eexists _, _. split; [reflexivity|]. split; [|reflexivity]. cbn. tauto. Qed.
End Witness.
