(** C267: the turbine model Calculator. *)
From Verif Require Import RBase Order_Model Calculator_Model Calculator_Spec Calculator_Proofs.
Local Open Scope nat_scope.

(** If the function only changes the selected elements, then with the downwind algorithm, any number of turbines and any number of wake models every turbine has the function of its own value. *)
Theorem C267_selected : forall (A : Type) (g : func A) (f : A -> A) amb out models k d, selective g f -> k < length amb ->
  nth k (out_var {| c_same := true; c_func := g |} (downwind {| c_same := true; c_func := g |} amb out models)) d = f (own amb models k d).
Proof. intros. now apply down_sel. Qed.
Print Assumptions C267_selected.
(** If the function has no regard to the selection, but the output is another variable than the input, then every turbine has the function of its own value, and the input variable is untouched. *)
Theorem C267_other_variable : forall (A : Type) (g : func A) (f : A -> A) amb out models k d, elementwise g f -> k < length amb ->
  nth k (fst (downwind {| c_same := false; c_func := g |} amb out models)) d = own amb models k d /\
  nth k (out_var {| c_same := false; c_func := g |} (downwind {| c_same := false; c_func := g |} amb out models)) d = f (own amb models k d).
Proof. intros. now apply down_sep. Qed.
Print Assumptions C267_other_variable.
(** If the output replaces the input, then the function is applied again for every turbine that is evaluated later: n - k times at position k > 0, and at the first position once more than there are evaluations of later turbines. *)
Theorem C267_replaced_partial : forall (A : Type) (g : func A) (f : A -> A) amb out models k d, elementwise g f -> k < length amb -> models <> [] ->
  nth k (out_var {| c_same := true; c_func := g |} (downwind {| c_same := true; c_func := g |} amb out models)) d =
  times (match k with 0 => 1 + length models * (length amb - 1) | _ => length amb - k end) f (own amb models k d).
Proof. intros A g f amb out models k d Hg Hk Hm. cbn [out_var c_same]. rewrite (down_same g f Hg) by exact Hk. destruct models as [|w ws]; [congruence|]. destruct k; reflexivity. Qed.
Print Assumptions C267_replaced_partial.
(** Hence functions for which a second application changes nothing, like limits, give every turbine the function of its own value. *)
Theorem C267_limits : forall (A : Type) (g : func A) (f : A -> A) amb out models k d, elementwise g f -> (forall x, f (f x) = f x) -> k < length amb ->
  nth k (out_var {| c_same := true; c_func := g |} (downwind {| c_same := true; c_func := g |} amb out models)) d = f (own amb models k d).
Proof.
  intros A g f amb out models k d Hg Hf Hk. destruct models as [|w ws].
  - cbn [out_var c_same]. rewrite (down_same g f Hg) by exact Hk. destruct k; reflexivity.
  - rewrite (C267_replaced_partial A g f) by (assumption || discriminate). destruct k as [|k]; [apply (times_idem _ f _ Hf)|]. replace (length amb - S k) with (S (length amb - S (S k))) by lia. apply (times_idem _ f _ Hf).
Qed.
Print Assumptions C267_limits.
(** With the iterative algorithm the function is applied once in every iteration, in all cases. *)
Theorem C267_iterative : forall (A : Type) (c : calculator A) (f : A -> A) amb out its, elementwise (c_func c) f \/ selective (c_func c) f ->
  out_var c (iterative c amb out its) = map f (last its amb).
Proof.
  intros A c f amb out its H. assert (N : forall l, c_func c None l = map f l) by (intros l; destruct H as [H|[H _]]; apply H). unfold iterative. induction its as [|v its _] using rev_ind.
  - cbn. unfold all_turbines, run_calc, out_var. destruct (c_same c); cbn; apply N.
  - rewrite fold_left_app. cbn [fold_left]. rewrite last_app_one. unfold all_turbines, run_calc, out_var. destruct (c_same c); cbn; apply N.
Qed.
Print Assumptions C267_iterative.
(** A Calculator that multiplies a variable by a factor multiplies the value of every turbine once. False: with two turbines and the downwind algorithm the value of the first one is multiplied twice, and the two algorithms differ. *)
Theorem C267_once_refuted : exists (f : R -> R) (g : func R) amb waked, f = (fun x => (9 / 10 * x)%R) /\ elementwise g f /\ length amb = 2 /\
  nth 0 (out_var {| c_same := true; c_func := g |} (downwind {| c_same := true; c_func := g |} amb [] [waked])) 0%R <> f (own amb [waked] 0 0%R) /\
  out_var {| c_same := true; c_func := g |} (downwind {| c_same := true; c_func := g |} amb [] [waked]) <> out_var {| c_same := true; c_func := g |} (iterative {| c_same := true; c_func := g |} amb [] [[nth 0 amb 0%R; waked 1]]).
Proof.
  set (f := fun x : R => (9 / 10 * x)%R). set (g := fun (s : option nat) (l : list R) => map f l). exists f, g, [10%R; 10%R], (fun _ => 5%R). split; [reflexivity|]. split; [intros s l; reflexivity|]. split; [reflexivity|].
  assert (Hg : elementwise g f) by (intros s l; reflexivity). split.
  - rewrite (C267_replaced_partial R g f) by (exact Hg || discriminate || (cbn; lia)). cbn. unfold f. lra.
  - rewrite (C267_iterative R {| c_same := true; c_func := g |} f) by (now left). intros E. assert (Q : nth 0 (out_var {| c_same := true; c_func := g |} (downwind {| c_same := true; c_func := g |} [10%R; 10%R] [] [fun _ => 5%R])) 0%R = (81 / 10)%R).
    { rewrite (C267_replaced_partial R g f) by (exact Hg || discriminate || (cbn; lia)). cbn. unfold f. lra. }
    rewrite E in Q. cbn in Q. unfold f in Q. lra.
Qed.
Print Assumptions C267_once_refuted.
(** functions that meet the hypotheses: a selective one and a limit *)
Example C267_nonvacuous : selective (fun (s : option nat) (l : list nat) => match s with None => map (fun x => 2 * x) l | Some k => if k <? length l then set_nth k (2 * nth k l 0) l else l end) (fun x => 2 * x) /\
  elementwise (fun (_ : option nat) (l : list nat) => map (fun x => Nat.min x 7) l) (fun x => Nat.min x 7) /\ (forall x, Nat.min (Nat.min x 7) 7 = Nat.min x 7) /\
  out_var {| c_same := true; c_func := fun (_ : option nat) l => map (fun x => 2 * x) l |} (downwind {| c_same := true; c_func := fun (_ : option nat) l => map (fun x => 2 * x) l |} [1; 1; 1] [] [fun k => 10 * k]) = [8; 40; 40].
Proof.
  split; [|split; [intros s l; reflexivity|split; [intros x; lia|reflexivity]]]. split; [reflexivity|]. intros k l. destruct (k <? length l) eqn:E.
  - apply Nat.ltb_lt in E. split; [apply set_len|]. intros j d Hj. destruct (Nat.eq_dec j k) as [->|N]; [rewrite set_same by exact E; f_equal; now apply nth_indep|now rewrite set_other by lia].
  - apply Nat.ltb_ge in E. split; [reflexivity|]. intros j d Hj. destruct (Nat.eq_dec j k); [lia|reflexivity].
Qed.
