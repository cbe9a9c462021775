(** C226: the command line tool foxes_yaml. *)
From Coq Require Import String.
From Verif Require Import Base Params_Model Params_Spec Params_Proofs Params_Props Cli_Model.
Open Scope string_scope.
Open Scope list_scope.

(** a file with all sections a calculation needs *)
Definition full_file (p : params) : Prop :=
  p_algo p <> None /\ p_states p <> None /\ (exists f, p_farm p = Some f /\ f_layouts f <> None)
  /\ match p_points p with None => True | Some q => q_run q <> None /\ (q_run q = Some true -> q_points q <> None) end.
(** the option of an algorithm parameter *)
Definition option_of (o : opts) (k : string) : option nat :=
  if String.eqb k "rotor_model" then o_rotor o else if String.eqb k "partial_wakes" then o_pwakes o
  else if String.eqb k "wake_models" then o_wakes o else if String.eqb k "wake_frame" then o_frame o else None.

Lemma apars_look o k : look k (apars o) = option_of o k.
Proof.
  unfold apars, option_of. destruct (o_rotor o), (o_pwakes o), (o_wakes o), (o_frame o); cbn [app look];
    repeat match goal with |- context [String.eqb k ?x] => destruct (String.eqb_spec k x); [subst; try reflexivity|] end; reflexivity.
Qed.
Lemma apars_nodup o : NoDup (map fst (apars o)).
Proof.
  unfold apars. destruct (o_rotor o), (o_pwakes o), (o_wakes o), (o_frame o); cbn [app map fst];
    repeat (apply NoDup_cons; [cbn [In]; intuition discriminate|]); apply NoDup_nil.
Qed.
(** C226: the algorithm has the options of the command line, all other parameters are those of the file; the file's calculations and outputs are run *)
Theorem C226_options : forall enc ext o p l a0, all_well ext -> full_file p -> p_algo p = Some a0 ->
  exists s a e, let g := mkgiven false false false false e (o_iter o) (apars o) in
    foxes_yaml enc ext o (mkst p None l) = (s, Ok (wants_farm p, match p_points p with None => None | Some _ => Some (wants_points p) end, map (fun x => negb (o_needs x) || wants_farm p) (p_outputs p)))
    /\ log s = l ++ plan g p a
    /\ (forall k, look k a = match option_of o k with
                             | Some v => Some v
                             | None => if o_iter o && String.eqb k "algo_type" then Some 0 else look k a0 end)
    /\ eng s = None.
Proof.
  intros enc ext o p l a0 W (F1 & F2 & F3 & F4) A. set (e := option_map enc (epars o)).
  destruct (C173_run ext (mkgiven false false false false e (o_iter o) (apars o)) p None l W) as (s & a & R & L & Q).
  - split; cbn; [|exact F4]. split; [exact F1|]. split; [now right|now right].
  - apply apars_nodup.
  - reflexivity.
  - exists s, a, e. cbv zeta. split; [exact R|]. split; [exact L|]. split.
    + intros k. rewrite (Q a0 eq_refl A k). unfold algo_value. cbn [g_pars g_iter]. rewrite apars_look. reflexivity.
    + exact (C175_return_partial ext _ _ s _ (eq_refl : eng (mkst p None l) = None) R).
Qed.
(** ... the engine has exactly the given options if one of them is given, else that of the file *)
Definition started (e : event) : list nat := match e with EvStart i => [i] | _ => [] end.
Lemma started_plan g p a : flat_map started (plan g p a) = match engine_of g p with Some e => [e] | None => [] end.
Proof.
  unfold plan. rewrite !flat_map_app.
  assert (Z : forall f q os, flat_map started (map (fun o => EvOut (o_id o) f q) os) = []) by (induction os; [reflexivity|assumption]).
  rewrite Z. destruct (g_states g || g_algo g); [|destruct (p_states p)]; cbn [flat_map started app]; (destruct (g_book g || g_algo g); [|destruct (p_book p)]); cbn [flat_map started app];
    (destruct (g_farm g || g_algo g); [|destruct (p_farm p) as [f|]; [destruct (f_layouts f)|]]); cbn [flat_map started app];
    (destruct (engine_of g p)); cbn [flat_map started app]; (destruct (g_algo g)); cbn [flat_map started app]; (destruct (wants_farm p)); cbn [flat_map started app];
    (destruct (wants_points p); [destruct (p_points p) as [q|]; [destruct (q_points q)|]|]); reflexivity.
Qed.
Theorem C226_engine : forall enc ext o p l, all_well ext -> full_file p ->
  exists s r, foxes_yaml enc ext o (mkst p None l) = (s, Ok r)
    /\ flat_map started (log s) = flat_map started l ++
       match o_eng o with
       | mkep None None None None => match p_engine p with Some e => [e] | None => [] end
       | e => [enc e]
       end.
Proof.
  intros enc ext o p l W F. pose proof F as (F1 & _). destruct (p_algo p) as [a0|] eqn:A; [|congruence].
  destruct F as (_ & F2 & F3 & F4). set (e := option_map enc (epars o)).
  destruct (C173_run ext (mkgiven false false false false e (o_iter o) (apars o)) p None l W) as (s & a & R & L & _).
  - split; cbn; [|exact F4]. rewrite A. split; [discriminate|]. split; [now right|now right].
  - apply apars_nodup.
  - reflexivity.
  - exists s. eexists. split; [exact R|]. rewrite L, flat_map_app. f_equal. rewrite started_plan. unfold engine_of, e, epars. cbn [g_engine].
    destruct (o_eng o) as [[?|] [?|] [?|] [?|]]; reflexivity.
Qed.
(** ... so that the engine settings of the file are dropped by any engine option, also those no option overrules *)
Theorem C226_engine_section_refuted : forall enc ext p l t c n, (forall a b, enc a = enc b -> a = b) -> all_well ext -> full_file p ->
  p_engine p = Some (enc (mkep (Some t) None (Some c) None)) ->
  exists s r, foxes_yaml enc ext (mkopts None None None None (mkep None (Some n) None None) false) (mkst p None l) = (s, Ok r)
    /\ flat_map started (log s) = flat_map started l ++ [enc (mkep None (Some n) None None)]
    /\ enc (mkep None (Some n) None None) <> enc (mkep (Some t) (Some n) (Some c) None).
Proof.
  intros enc ext p l t c n J W F E. destruct (C226_engine enc ext (mkopts None None None None (mkep None (Some n) None None) false) p l W F) as (s & r & R & S).
  exists s, r. split; [exact R|]. split; [exact S|]. intros H. apply J in H. discriminate.
Qed.
Print Assumptions C226_options.
Print Assumptions C226_engine.
Print Assumptions C226_engine_section_refuted.
Example C226_witness : let p := mkparams (Some []) None (Some (mkfsec (Some []) [])) (Some 5) (Some [("algo_type", 1); ("rotor_model", 2); ("wake_frame", 3)]) None None [mkosec 1 true] in
  full_file p /\ log (fst (foxes_yaml (fun e => match e_procs e with Some n => n | None => 0 end) (fun _ _ => None) (mkopts (Some 9) None None None (mkep None (Some 4) None None) true) (mkst p None [])))
  = [EvStates []; EvFarm [] []; EvStart 4; EvAlgo [("algo_type", 0); ("rotor_model", 9); ("wake_frame", 3)]; EvCalc []; EvOut 1 true false; EvStop 4].
Proof.
  cbv zeta. split; [|reflexivity]. repeat split; try discriminate. eexists. split; [reflexivity|discriminate].
Qed.
