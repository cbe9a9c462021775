(** Theorems about the farm controller (farm_controller.py). *)
From Verif Require Import Base Controller_Model Controller_Spec Controller_Proofs.

(** C18: whatever lists the turbines have, a successful merge applies to every turbine exactly its own
    list, in its own order; and the procedure never runs out of its (finite) budget. *)
Theorem C18_merge_respects_every_turbine ls ems : merge ls = Ok ems ->
  forall j l, nth_error ls j = Some l -> applied_models j ems = l.
Proof. intros H j l Hj. exact (proj1 (proj2 (merge_sound ls ems H) j l Hj)). Qed.
Print Assumptions C18_merge_respects_every_turbine.
Theorem C18_merge_terminates ls : (exists ems, merge ls = Ok ems) \/ merge ls = Err ValueError.
Proof.
  pose proof (merge_total ls) as T. unfold merge in *.
  destruct (analyze_ok (total ls) (map (fun l => (l, 0)) ls)) as (r & E); [rewrite rem_init; lia|]. rewrite E in *. cbn in *.
  match goal with |- context [if ?b then _ else _] => destruct b end; eauto.
Qed.
Print Assumptions C18_merge_terminates.
(** ... and for lists without repetitions no model appears twice in the sequence, every entry of it is
    applied to some turbine, and the selections looked up by name are those of the entry itself. *)
Theorem C18_no_duplicates ls ems : Forall (@NoDup nat) ls -> merge ls = Ok ems ->
  NoDup (map fst ems) /\ Forall (fun e => exists j k, nth_error (snd e) j = Some (Some k)) ems.
Proof. exact (merge_nodup ls ems). Qed.
Print Assumptions C18_no_duplicates.
Example C18_nonvacuous : merge [[1;2;3];[2;4];[1;4;5]] =
  Ok [(1,[Some 0;None;Some 0]);(2,[Some 1;Some 0;None]);(3,[Some 2;None;None]);(4,[None;Some 1;Some 1]);(5,[None;None;Some 2])].
Proof. reflexivity. Qed.

(** C19: if any ranking of the models is compatible with all the lists, the controller accepts them;
    for repetition-free lists it accepts them exactly then, and otherwise raises ValueError. *)
Theorem C19_complete rank ls : compatible rank ls -> exists ems, merge ls = Ok ems.
Proof. exact (merge_complete rank ls). Qed.
Print Assumptions C19_complete.
Theorem C19_exactly ls : Forall (@NoDup nat) ls ->
  ((exists ems, merge ls = Ok ems) <-> (exists rank, compatible rank ls)) /\
  ((forall rank, ~ compatible rank ls) -> merge ls = Err ValueError).
Proof. exact (merge_iff ls). Qed.
Print Assumptions C19_exactly.
Example C19_nonvacuous : merge [[1;2];[2;1]] = Err ValueError /\ compatible (fun m => 10 - m) [[3;1];[2;1];[3;2]].
Proof.
  split; [reflexivity|]. intros l Hl i j a b Hij Ha Hb. cbn in Hl.
  destruct Hl as [E|[E|[E|[]]]]; subst l; destruct i as [|[|i]], j as [|[|j]]; cbn in *; try lia; try discriminate;
    try (destruct i; discriminate); try (destruct j; discriminate); congruence || (injection Ha as E1; injection Hb as E2; subst; cbn; lia).
Qed.

(** C20 is false of the code: with models [pre-rotor 1; post-rotor 2], where 1 was added for all states and 2
    for the states [7], model 2 is applied in all states and model 1 in all states. *)
Theorem C20_selection_of_other_model_refuted : exists ep eq,
  collect_models (fun n => [n]) (fun m => m =? 1) [[1; 2]] = Ok (ep, eq) /\
  applied_models 0 eq = [2] /\ applied_sels 0 eq = [0] /\
  used_sel [None; Some [7]] 1 = Ok (Some [7]) /\ used_sel [None; Some [7]] 0 = Ok None.
Proof. exists [(1, [Some 0])], [(2, [Some 0])]. repeat split; reflexivity. Qed.
Print Assumptions C20_selection_of_other_model_refuted.
(** Exactly: the selection used for a model at position i of the turbine's list is the one at the position
    counted within its own (pre- or post-rotor) group; it is the model's own one whenever all the models listed
    before it belong to the same group. *)
Theorem C20_exact_partial pre ts ep eq : collect_models (fun n => [n]) pre ts = Ok (ep, eq) ->
  forall j names i m, nth_error ts j = Some names -> nth_error names i = Some m ->
  let ems := if pre m then ep else eq in
  let c := length (filter (fun m' => Bool.eqb (pre m') (pre m)) (firstn i names)) in
  nth_error (applied_models j ems) c = Some m /\ nth_error (applied_sels j ems) c = Some c /\
  (forallb (fun m' => Bool.eqb (pre m') (pre m)) (firstn i names) = true -> c = i).
Proof.
  intros H j names i m Hj Hi ems c. destruct (collect_models_single _ _ _ _ H) as (Hp & Hq). split; [|split].
  - unfold ems, c. destruct (pre m) eqn:P.
    + pose proof (group_used pre ts ep Hp j names i m Hj Hi P) as (A & _). cbn zeta in A.
      rewrite (filter_ext (fun m' => Bool.eqb (pre m') true) pre) by (intros a; now destruct (pre a)). exact A.
    + pose proof (group_used (fun m => negb (pre m)) ts eq Hq j names i m Hj Hi (f_equal negb P)) as (A & _). cbn zeta in A.
      rewrite (filter_ext (fun m' => Bool.eqb (pre m') false) (fun m => negb (pre m))) by (intros a; now destruct (pre a)). exact A.
  - unfold ems, c. destruct (pre m) eqn:P.
    + pose proof (group_used pre ts ep Hp j names i m Hj Hi P) as (_ & A). cbn zeta in A.
      rewrite (filter_ext (fun m' => Bool.eqb (pre m') true) pre) by (intros a; now destruct (pre a)). exact A.
    + pose proof (group_used (fun m => negb (pre m)) ts eq Hq j names i m Hj Hi (f_equal negb P)) as (_ & A). cbn zeta in A.
      rewrite (filter_ext (fun m' => Bool.eqb (pre m') false) (fun m => negb (pre m))) by (intros a; now destruct (pre a)). exact A.
  - intros F. unfold c. rewrite filter_all_len by exact F. apply firstn_length_le.
    apply Nat.lt_le_incl, nth_error_Some. congruence.
Qed.
Print Assumptions C20_exact_partial.
Example C20_nonvacuous : collect_models (fun n => [n]) (fun m => m <? 3) [[1; 3; 4]; [1; 2; 4]] =
  Ok ([(1, [Some 0; Some 0]); (2, [None; Some 1])], [(3, [Some 0; None]); (4, [Some 1; Some 0])]).
Proof. reflexivity. Qed.

(** C61: find_turbine_types succeeds exactly if every turbine's model list names exactly one turbine type,
    and then returns it; otherwise the first offending turbine is reported, with ValueError if it names no
    turbine type and TypeError if it names several. *)
Theorem C61_exactly_one_type istype ts :
  match find_turbine_types istype 0 ts with
  | inl (Ok l) => map (fun n => [n]) l = map (filter istype) ts
  | inl (Err _) => False
  | inr (tj, e) => exists t, nth_error ts tj = Some t /\ length (filter istype t) <> 1 /\
                   (forall k t', k < tj -> nth_error ts k = Some t' -> length (filter istype t') = 1) /\
                   (e = ValueError <-> filter istype t = [])
  end.
Proof.
  pose proof (find_types_spec istype ts 0) as H. unfold types_in in H.
  destruct (find_turbine_types istype 0 ts) as [[l|e]|[tj e]]; auto.
  destruct H as (t & _ & H). rewrite Nat.sub_0_r in H. exists t. exact H.
Qed.
Print Assumptions C61_exactly_one_type.
Example C61_nonvacuous :
  find_turbine_types (fun n => n <? 10) 0 [[11;1];[2;12]] = inl (Ok [1;2]) /\
  find_turbine_types (fun n => n <? 10) 0 [[11;1];[12]] = inr (1, ValueError) /\
  find_turbine_types (fun n => n <? 10) 0 [[11;1;2];[12]] = inr (0, TypeError).
Proof. repeat split; reflexivity. Qed.

(** C73 is false: a pre-rotor model listed after a post-rotor one is accepted and silently moved before it. *)
Theorem C73_late_pre_rotor_model_refuted : exists ep eq,
  collect_models (fun n => [n]) (fun m => m =? 1) [[2; 1]] = Ok (ep, eq) /\
  applied_models 0 (ep ++ eq) = [1; 2].
Proof. exists [(1, [Some 0])], [(2, [Some 0])]. split; reflexivity. Qed.
Print Assumptions C73_late_pre_rotor_model_refuted.
(** Exactly: the check looks at the parts of one listed (composite) model only, and of these only compares with
    the first part. *)
Theorem C73_exact_check_partial book pre names :
  (exists r, collect_turbine book pre names = Ok r) <->
  (forall n m ms, In n names -> book n = m :: ms -> pre m = true \/ (forall m', In m' ms -> pre m' = false)).
Proof.
  unfold collect_turbine. split.
  - intros (r & H) n m ms Hn Hb. destruct (forallb (fun n => group_ok pre None (book n)) names) eqn:F; [|discriminate].
    rewrite forallb_forall in F. specialize (F n Hn). rewrite group_ok_none, Hb in F. apply orb_true_iff in F.
    destruct F as [F|F]; [auto|right]. rewrite forallb_forall in F. intros m' Hm'. apply negb_true_iff. auto.
  - intros H. replace (forallb (fun n => group_ok pre None (book n)) names) with true; [eauto|].
    symmetry. apply forallb_forall. intros n Hn. rewrite group_ok_none. destruct (book n) as [|m ms] eqn:E; [reflexivity|].
    destruct (H n m ms Hn E) as [P|P]; [now rewrite P|]. apply orb_true_iff. right. apply forallb_forall.
    intros m' Hm'. apply negb_true_iff. auto.
Qed.
Print Assumptions C73_exact_check_partial.
Example C73_nonvacuous :
  collect_turbine (fun n => if n =? 9 then [2; 1] else [n]) (fun m => m =? 1) [3; 9] = Err ValueError /\
  collect_turbine (fun n => if n =? 9 then [1; 2; 1] else [n]) (fun m => m =? 1) [3; 9] = Ok ([1;1],[3;2]).
Proof. split; reflexivity. Qed.

(** C74: for repetition-free model lists the selection array used for the k-th model is its own; it is false when a
    model is listed twice with different selections: then both evaluations use the first one's. *)
Theorem C74_own_selection_partial ls ems k e : Forall (@NoDup nat) ls -> merge ls = Ok ems ->
  nth_error ems k = Some e -> looked_up ems k = Some e.
Proof. exact (looked_up_self ls ems k e). Qed.
Print Assumptions C74_own_selection_partial.
Theorem C74_repeated_model_refuted : exists ems, merge [[5; 5]] = Ok ems /\
  nth_error ems 1 = Some (5, [Some 1]) /\ looked_up ems 1 = Some (5, [Some 0]).
Proof. exists [(5, [Some 0]); (5, [Some 1])]. repeat split. Qed.
Print Assumptions C74_repeated_model_refuted.
