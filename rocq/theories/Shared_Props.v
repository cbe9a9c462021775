(** C220, C221: algorithms that share one model book. *)
From Coq Require Import String.
From Verif Require Import Base Shared_Model Shared_Spec Shared_Proofs.
Open Scope string_scope.

(** C220: if the algorithm that was created last has the same turbine types, turbine by turbine (for
    instance if it is the algorithm itself), then the calculation either is right about all diameters
    and hub heights, or is rejected because of rotor variables. *)
Theorem C220_last_created_partial : forall b h1 c h2 a,
  good_farm b a -> same_types b a c ->
  (forall e, In e h2 -> exists d, e = Calc d) ->
  result_after b (h1 ++ Create c :: h2) a = Err KeyError \/
  exists ds vars, result_after b (h1 ++ Create c :: h2) a = Ok (ds, vars) /\ Forall2 (own_dims b) (a_turbs a) ds.
Proof.
  intros b h1 c h2 a G S C. unfold result_after.
  destruct (calc_good_types b a _ G (last_created b h1 c h2 a G S C)) as [ns [ds [F [D ->]]]]. cbn [snd].
  match goal with |- context[if ?x then _ else _] => destruct x end; [right|left; reflexivity].
  eexists. eexists. split; [reflexivity|exact D].
Qed.

(** concrete turbine types, farms and algorithms *)
Definition tb_small : ttype := mkttype 126 90 false true.
Definition tb_large : ttype := mkttype 178 119 false false.
Definition the_book : book :=
  mkbook (fun n => if String.eqb n "NREL5MW" then Some tb_small else if String.eqb n "DTU10MW" then Some tb_large else None)
         (fun n => String.eqb n "kTI").
Definition turbine_of (n : string) : turb := mkturb ["kTI"; n] None None.
Definition std_vars : list string := ["WS"; "WD"; "TI"; "RHO"].
Definition small_large : algo := mkalgo [turbine_of "NREL5MW"; turbine_of "DTU10MW"] std_vars.
Definition large_small : algo := mkalgo [turbine_of "DTU10MW"; turbine_of "NREL5MW"] std_vars.
Definition large_only : algo := mkalgo [turbine_of "DTU10MW"] std_vars.

Lemma small_large_good : good_farm the_book small_large.
Proof.
  intros t [<-|[<-|[]]]; (split; [eexists; reflexivity|]); intros n [<-|[<-|[]]]; auto.
Qed.

Lemma small_large_states : good_states small_large.
Proof. unfold good_states, small_large, std_vars. cbn. intuition discriminate. Qed.

(** the right diameters and heights of that farm *)
Lemma small_large_own : forall ds, Forall2 (own_dims the_book) (a_turbs small_large) ds -> ds = [(126, 90); (178, 119)].
Proof.
  assert (O : forall t y dh, own_dims the_book t dh -> u_D t = None -> u_H t = None ->
    (forall m z, type_of the_book t m z -> z = y) -> dh = (t_D y, t_H y)).
  { intros t y [d h] [m [z [T [E1 E2]]]] ED EH U. rewrite ED in E1. rewrite EH in E2. cbn in E1, E2.
    rewrite (U m z T) in *. congruence. }
  intros ds F. inversion F as [|t d ts l Hd F2]; subst. inversion F2 as [|t' d' ts' l' Hd' F3]; subst. inversion F3; subst.
  rewrite (O _ tb_small _ Hd eq_refl eq_refl).
  2: { intros m z [M1 M2]. cbn in M1. destruct M1 as [<-|[<-|[]]]; cbn in M2; congruence. }
  rewrite (O _ tb_large _ Hd' eq_refl eq_refl).
  2: { intros m z [M1 M2]. cbn in M1. destruct M1 as [<-|[<-|[]]]; cbn in M2; congruence. }
  reflexivity.
Qed.

(** C220 REFUTED: create an algorithm, create a second one with the same model book for a farm with
    the two turbine types exchanged, calculate the first: it has no error, but each turbine has the
    diameter and the hub height of the other type. If the second farm lacks one of the types, the
    first algorithm raises KeyError. *)
Theorem C220_created_in_between_refuted :
  good_farm the_book small_large /\ good_states small_large /\
  right the_book small_large (result_after the_book [Create small_large] small_large) /\
  (exists ds vars, result_after the_book [Create small_large; Create large_small] small_large = Ok (ds, vars) /\
     ~ Forall2 (own_dims the_book) (a_turbs small_large) ds) /\
  result_after the_book [Create small_large; Create large_only] small_large = Err KeyError.
Proof.
  split; [exact small_large_good|]. split; [exact small_large_states|].
  split; [apply agree_right; [exact small_large_good|exact small_large_states|]|].
  - constructor; [|constructor]. split; [|reflexivity]. unfold same_types. cbn. repeat constructor.
  - split; [|reflexivity].
    eexists. eexists. split; [reflexivity|]. intros F. apply small_large_own in F. discriminate.
Qed.

(** C221: calculations with the same model book, of algorithms that have the same turbine types and
    the same state variables, are right: in whatever order they are created and run, and however
    often. *)
Theorem C221_agreeing_partial : forall b a h,
  good_farm b a -> good_states a -> Forall (agrees b a) h -> right b a (result_after b h a).
Proof. exact agree_right. Qed.

Example C221_agreeing_case :
  let h := [Create small_large; Calc small_large; Create small_large; Calc small_large] in
  Forall (agrees the_book small_large) h /\
  result_after the_book h small_large =
    Ok ([(126, 90); (178, 119)], ["REWS"; "REWS3"; "RHO"; "TI"; "WD"; "weight"]).
Proof.
  split; [|reflexivity].
  assert (S : same_types the_book small_large small_large) by (unfold same_types; cbn; repeat constructor).
  repeat (constructor; [split; [exact S|reflexivity]|]). constructor.
Qed.

(** C221, what is always so: after one calculation has run, every later one with that model book has
    exactly the rotor variables of the earlier one, whatever its states and turbine types are. *)
Theorem C221_first_decides : forall b h1 d h2 a ds0 vars0 ds vars,
  result_after b h1 d = Ok (ds0, vars0) ->
  result_after b (h1 ++ Calc d :: h2) a = Ok (ds, vars) ->
  vars = vars0.
Proof.
  intros b h1 d h2 a ds0 vars0 ds vars R0 R1. unfold result_after in *.
  destruct (calc_ok_vars _ _ _ _ _ R0) as [V W].
  replace (h1 ++ Calc d :: h2)%list with ((h1 ++ [Calc d]) ++ h2)%list in R1 by (rewrite <- app_assoc; reflexivity).
  rewrite after_app, after_snoc in R1. cbn [step] in R1.
  eapply calc_vars_kept; [exact W| |exact R1].
  apply vars_survive; assumption.
Qed.

Definition no_rho : algo := mkalgo [turbine_of "DTU10MW"] ["WS"; "WD"; "TI"].
Definition small_no_rho : algo := mkalgo [turbine_of "NREL5MW"] ["WS"; "WD"; "TI"].

(** C221 REFUTED: three good algorithms, each of which alone is right. After a calculation with air
    density, one without air density raises KeyError; in the other order the air density is silently
    missing; and after one whose turbine types do not need REWS3, one that needs it raises KeyError. *)
Theorem C221_other_variables_refuted :
  (forall a, In a [large_only; no_rho; small_no_rho] ->
     good_farm the_book a /\ good_states a /\ right the_book a (result_after the_book [Create a] a)) /\
  result_after the_book [Create large_only; Calc large_only; Create no_rho] no_rho = Err KeyError /\
  (exists ds vars, result_after the_book [Create no_rho; Calc no_rho; Create large_only] large_only = Ok (ds, vars) /\
     own_var the_book large_only "RHO" /\ ~ In "RHO" vars) /\
  result_after the_book [Create no_rho; Calc no_rho; Create small_no_rho] small_no_rho = Err KeyError.
Proof.
  split.
  - intros a I1.
    assert (G : good_farm the_book a /\ good_states a).
    { destruct I1 as [<-|[<-|[<-|[]]]]; (split; [intros t [<-|[]]; (split; [eexists; reflexivity|]); intros n [<-|[<-|[]]]; auto|]);
        unfold good_states; cbn; intuition discriminate. }
    destruct G as [G S]. split; [exact G|]. split; [exact S|]. apply agree_right; try assumption.
    constructor; [|constructor]. split; [|reflexivity]. unfold same_types.
    clear. induction (a_turbs a); constructor; auto.
  - split; [reflexivity|]. split; [|reflexivity].
    eexists. eexists. split; [reflexivity|]. split.
    + right. right. left. split; [cbn; auto|discriminate].
    + cbn. intuition discriminate.
Qed.

Print Assumptions C220_last_created_partial.
Print Assumptions C220_created_in_between_refuted.
Print Assumptions C221_agreeing_partial.
Print Assumptions C221_first_decides.
Print Assumptions C221_other_variables_refuted.
