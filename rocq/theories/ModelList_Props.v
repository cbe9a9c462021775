(** Theorems about chains of data models. *)
From Verif Require Import RBase Data_Model Data_Proofs ModelList_Model ModelList_Proofs.
Local Notation length := List.length.
Local Open Scope string_scope.
Local Open Scope list_scope.

(** C60: a chain is its first part, then the rest on the changed data ... *)
Theorem C60_accumulates {V} dflt (ms1 ms2 : list (@model V)) ps1 ps2 fd fd1 r1 fd2 r2 fd3 r3 : length ps1 = length ms1 -> length ps2 = length ms2 ->
  calculate dflt (MList ms1) (PList (Some ps1)) fd = Ok (fd1, r1) -> calculate dflt (MList ms2) (PList (Some ps2)) fd1 = Ok (fd2, r2) ->
  calculate dflt (MList (ms1 ++ ms2)) (PList (Some (ps1 ++ ps2))) fd = Ok (fd3, r3) ->
  fd3 = fd2 /\ map fst r3 = outputs (MList (ms1 ++ ms2)) /\ forall v, In v (map fst r3) -> lookup v r3 = lookup v fd2 /\ lookup v fd2 <> None.
Proof.
  intros L1 L2 H1 H2 H3. rewrite calculate_list in H1 by assumption. rewrite calculate_list in H2 by assumption. rewrite calculate_list in H3 by (rewrite !app_length; congruence).
  rewrite run_seq_app in H3 by assumption. destruct (run_seq dflt ms1 ps1 fd) as [x1|]; [|discriminate]. destruct (collect x1 _) as [y1|]; [|discriminate]. injection H1 as <- <-.
  destruct (run_seq dflt ms2 ps2 x1) as [x2|]; [|discriminate]. destruct (collect x2 (outputs (MList ms2))) as [y2|]; [|discriminate]. injection H2 as <- <-.
  destruct (collect x2 (outputs (MList (ms1 ++ ms2)))) as [y3|] eqn:E3; [|discriminate]. injection H3 as <- <-. destruct (collect_ok _ _ _ E3) as (A & B). split; [reflexivity|]. split; [exact A|].
  rewrite A. exact B.
Qed.
Print Assumptions C60_accumulates.
(** ... where one elementary model changes exactly the variables it returns *)
Theorem C60_single {V} dflt outs calc (p : par) (fd : @vars V) res fd' r : calc fd p = Ok res -> calculate dflt (MList [Elem outs calc]) (PList (Some [p])) fd = Ok (fd', r) ->
  forall v, lookup v fd' = match lookup v (rev res) with Some x => Some x | None => lookup v fd end.
Proof.
  intros Hc H v. rewrite calculate_list in H by reflexivity. cbn [run_seq calculate] in H. rewrite Hc in H. destruct (collect _ _); [|discriminate]. injection H as <- _. apply lookup_update.
Qed.
Print Assumptions C60_single.
Theorem C60_output_variables {V} (ms : list (@model V)) : let outs := outputs (MList ms) in let all := flat_map outputs ms in
  NoDup outs /\ (forall v, In v outs <-> In v all) /\
  forall i j v w, i < j -> nth_error outs i = Some v -> nth_error outs j = Some w -> first_pos v all < first_pos w all.
Proof. cbv zeta. cbn [outputs]. split; [apply fromkeys_NoDup|]. split; [intros v; rewrite fromkeys_in; cbn; tauto|]. intros i j v w. apply fromkeys_order. Qed.
Print Assumptions C60_output_variables.
Theorem C60_wrong_parameters_rejected {V} dflt (ms : list (@model V)) ps fd : length ps <> length ms -> calculate dflt (MList ms) (PList (Some ps)) fd = Err ValueError.
Proof. intros H. cbn [calculate]. apply Nat.eqb_neq in H. now rewrite H. Qed.
Print Assumptions C60_wrong_parameters_rejected.
Theorem C60_no_parameters {V} dflt (ms : list (@model V)) fd : calculate dflt (MList ms) (PList None) fd = calculate dflt (MList ms) (PList (Some (repeat PEmpty (length ms)))) fd.
Proof. apply calculate_none. Qed.
Print Assumptions C60_no_parameters.
Definition inc (v : string) : @model nat := Elem [v] (fun fd _ => match lookup v fd with Some x => Ok [(v, S x)] | None => Err KeyError end).
Definition copy (v w : string) : @model nat := Elem [w; v] (fun fd _ => match lookup v fd with Some x => Ok [(w, x); (v, x)] | None => Err KeyError end).
Example C60_nonvacuous : calculate (Some []) (MList [inc "A"; copy "A" "B"; inc "A"]) (PList None) [("A", 5)] = Ok ([("A", 7); ("B", 6)], [("A", 7); ("B", 6)]).
Proof. reflexivity. Qed.

(** C97: sums of models. For point models a sum of three gives the same data and results as the chain of three ... *)
Theorem C97_point_sums_partial {V} oa fa ob fb oc fc (fd : @vars V) x : let a := Elem oa fa in let b := Elem ob fb in let c := Elem oc fc in
  calculate None (plus (plus a b) c) (PList None) fd = Ok x -> calculate None (MList [a; b; c]) (PList None) fd = Ok x.
Proof.
  cbv zeta. unfold plus. rewrite !calculate_none. rewrite !calculate_list by reflexivity. cbn [length repeat run_seq].
  assert (Q : calculate None (MList [Elem oa fa; Elem ob fb]) PEmpty fd = calculate None (MList [Elem oa fa; Elem ob fb]) (PList (Some [PEmpty; PEmpty])) fd) by reflexivity.
  rewrite Q. clear Q. rewrite calculate_list by reflexivity. cbn [run_seq]. destruct (calculate None (Elem oa fa) PEmpty fd) as [(f1, r1)|e]; [|discriminate].
  destruct (calculate None (Elem ob fb) PEmpty (update f1 r1)) as [(f2, r2)|e]; [|discriminate]. destruct (collect (update f2 r2) (outputs (MList [Elem oa fa; Elem ob fb]))) as [r|e] eqn:C; [|discriminate].
  rewrite (update_same _ r) by (apply (collect_in _ _ _ C)). assert (O : outputs (MList [MList [Elem oa fa; Elem ob fb]; Elem oc fc]) = outputs (MList [Elem oa fa; Elem ob fb; Elem oc fc])).
  { cbn [outputs flat_map]. rewrite fromkeys_idem by tauto. now rewrite !app_nil_r, app_assoc. }
  rewrite O. intros H. exact H.
Qed.
Print Assumptions C97_point_sums_partial.
(** ... and a sum bracketed to the right is the chain in the written order, for farm and point models *)
Theorem C97_right_sums {V} dflt oa fa ob fb oc fc (fd : @vars V) : let a := Elem oa fa in let b := Elem ob fb in let c := Elem oc fc in
  calculate dflt (plus a (plus b c)) (PList None) fd = calculate dflt (MList [a; b; c]) (PList None) fd.
Proof. cbv zeta. reflexivity. Qed.
Print Assumptions C97_right_sums.
(** ... but a sum of three farm models always raises, because a nested chain called without parameters takes the empty list *)
Theorem C97_farm_sums_refuted {V} oa fa ob fb (c : @model V) oc fc (fd : @vars V) : c = Elem oc fc ->
  calculate (Some []) (plus (plus (Elem oa fa) (Elem ob fb)) c) (PList None) fd = Err ValueError.
Proof. intros ->. unfold plus. rewrite calculate_none, calculate_list by reflexivity. cbn [length repeat run_seq]. reflexivity. Qed.
Print Assumptions C97_farm_sums_refuted.
Example C97_nonvacuous : calculate None (plus (plus (inc "A") (copy "A" "B")) (inc "A")) (PList None) [("A", 5)] = Ok ([("A", 7); ("B", 6)], [("A", 7); ("B", 6)]).
Proof. reflexivity. Qed.
