(** Theorems about names of turbine type files (C197, C198). *)
From Coq Require Import String.
From Verif Require Import Factory_Model Factory_Spec TypeName_Model TypeName_Spec TypeName_Proofs.
Local Open Scope list_scope.

(** ** C197: what a file name states is what the turbine type gets *)

(** Holds for every name made of a base and at least one further part. *)
Theorem C197_round_trip_partial dir sep mark b ts ext :
  style_ok sep mark -> directory dir -> plain b -> ts <> [] -> Forall token_ok ts -> extension ext ->
  parse_name (file_name dir sep mark b ts ext) =
  Ok (mkpars (stated_name mark b ts) (last_of stated_power ts) (last_of stated_D ts) (last_of stated_H ts)).
Proof. exact (parse_file dir sep mark b ts ext). Qed.
Print Assumptions C197_round_trip_partial.
(** Without any further part the file cannot be used: the name "mycurve.csv" raises UnboundLocalError. *)
Theorem C197_no_parts_refuted f : ~ In "-"%char f -> ~ In "_"%char f -> parse_name f = Err NameError.
Proof. exact (no_separator f). Qed.
Print Assumptions C197_no_parts_refuted.
(** Neither can one of whose parts is a word beginning with D or H. *)
Theorem C197_words_refuted b k w ext c : plain b -> plain w -> extension ext -> k = "D"%char \/ k = "H"%char ->
  In c w -> nat_of_ascii c < 48 \/ 57 < nat_of_ascii c -> c <> "d"%char -> last w "x"%char <> "W"%char ->
  parse_name (b ++ "-"%char :: (k :: w) ++ "."%char :: ext) = Err ValueError.
Proof.
  intros B W X K I N D L. assert (Pk : plain (k :: w)).
  { destruct W as (W1 & W2 & W3 & W4). repeat split; intros [E|J]; try contradiction; destruct K; subst; discriminate. }
  rewrite one_piece by (try assumption; discriminate). unfold piece.
  assert (NE : k :: w <> []) by discriminate. destruct (rev_last_cons _ "x"%char NE) as (r & R). rewrite R.
  assert (A : last (k :: w) "x"%char = last w "x"%char) by (destruct w; [destruct I|reflexivity]). rewrite A, (aeq_neq _ _ L).
  assert (Q : num_of w = Err ValueError) by (destruct W as (_ & _ & W3 & _); apply (num_of_bad c); try assumption; intros ->; contradiction).
  destruct K as [-> | ->]; rewrite Q; reflexivity.
Qed.
Print Assumptions C197_words_refuted.
(** With dashes, a dot before the last part ends the parsing (with a warning): diameter, height and power are lost,
    and the name is what precedes the dot. *)
Theorem C197_dots b x y ext : plain b -> ~ In "/"%char x -> ~ In "/"%char y -> extension ext ->
  parse_name (b ++ "."%char :: x ++ "-"%char :: y ++ "."%char :: ext) = Ok (mkpars b None None None).
Proof. exact (dotted b x y ext). Qed.
Print Assumptions C197_dots.
Example C197_nonvacuous : let ts := [Power ([7], Some [5]) MegaWatt; Word (lit "x"); Diameter ([1; 6; 4], None); Height ([1; 0; 0], None)] in
  style_ok "_" "d" /\ Forall token_ok ts /\ plain (lit "IWT") /\ directory (lit "data/") /\
  file_name (lit "data/") "_" "d" (lit "IWT") ts (lit "csv") = lit "data/IWT_7d5MW_x_D164_H100.csv" /\
  parse_name (lit "data/IWT_7d5MW_x_D164_H100.csv") = Ok (mkpars (lit "IWT-7d5MW-x") (Some (75000%Z, 1)) (Some (164%Z, 0)) (Some (100%Z, 0))).
Proof.
  cbv zeta. split; [right; auto|]. split.
  - repeat constructor; cbn; try lia; try discriminate; try (repeat constructor; lia); try (intuition discriminate).
    exists "x"%char, [], "x"%char. repeat split; discriminate.
  - split; [|split; [right; exists (lit "data"); reflexivity|split; reflexivity]].
    repeat split; cbn; intuition discriminate.
Qed.
Example C197_no_parts : parse_name (lit "mycurve.csv") = Err NameError /\ parse_name (lit "my-Delta-D90.csv") = Err ValueError /\
  parse_name (lit "NREL-D126-5.0MW-H90.csv") = Ok (mkpars (lit "NREL-D126-5") None None None).
Proof. repeat split. Qed.

(** ** C198: power and thrust from two files *)

(** Both files state the same power, diameter and height (or both none), and the name is the longest common beginning
    of the two names, without a dash at its end. *)
Theorem C198_agree fa fb r : parse_two fa fb = Ok r -> exists A B, parse_name fa = Ok A /\ parse_name fb = Ok B /\
  same_entry (p_P r) (p_P A) /\ same_entry (p_P r) (p_P B) /\ same_entry (p_D r) (p_D A) /\ same_entry (p_D r) (p_D B) /\
  same_entry (p_H r) (p_H A) /\ same_entry (p_H r) (p_H B) /\ p_name r <> [] /\
  ((longest_common (p_name A) (p_name B) (p_name r) /\ last (p_name r) "x"%char <> "-"%char) \/
   longest_common (p_name A) (p_name B) (p_name r ++ ["-"%char])).
Proof.
  intros H. destruct (two_ok _ _ _ H) as (A & B & E1 & E2 & G1 & G2 & G3 & P1 & P2 & P3 & NE & N & Pos). exists A, B.
  rewrite P1, P2, P3. assert (S : forall o, same_entry o o) by (intros [x|]; cbn; [reflexivity|exact I]).
  repeat (split; [first [assumption|apply S]|]). rewrite N. apply two_name. exact Pos.
Qed.
Print Assumptions C198_agree.
(** Files agreeing in these values whose names begin with the same letter are accepted. *)
Theorem C198_accepts fa fb A B : parse_name fa = Ok A -> parse_name fb = Ok B ->
  same_entry (p_P A) (p_P B) -> same_entry (p_D A) (p_D B) -> same_entry (p_H A) (p_H B) ->
  (exists c x y, p_name A = c :: x /\ p_name B = c :: y /\ c <> "-"%char) -> exists r, parse_two fa fb = Ok r.
Proof. exact (two_complete fa fb A B). Qed.
Print Assumptions C198_accepts.
(** The order of the files does not matter. *)
Theorem C198_symmetric fa fb r : parse_two fa fb = Ok r -> exists r', parse_two fb fa = Ok r' /\ p_name r' = p_name r /\
  same_entry (p_P r) (p_P r') /\ same_entry (p_D r) (p_D r') /\ same_entry (p_H r) (p_H r').
Proof. exact (two_sym fa fb r). Qed.
Print Assumptions C198_symmetric.
(** Hence curves of two different turbines are taken for one type as soon as the names begin alike. *)
Theorem C198_different_turbines_refuted c x y ts ext : plain (c :: x) -> plain (c :: y) -> ts <> [] -> Forall token_ok ts -> extension ext ->
  exists r, parse_two (file_name [] "-" "d" (c :: x) ts ext) (file_name [] "-" "d" (c :: y) ts ext) = Ok r.
Proof.
  intros X Y NE T E.
  assert (S : style_ok "-" "d") by (left; auto). assert (D : directory []) by now left.
  eapply C198_accepts; [apply C197_round_trip_partial; assumption|apply C197_round_trip_partial; assumption| | | |].
  1,2,3: cbn [p_P p_D p_H]; match goal with |- same_entry ?o ?o => destruct o; cbn; [reflexivity|exact I] end.
  cbn [p_name]. unfold stated_name. cbn [app]. eexists c, _, _. split; [reflexivity|split; [reflexivity|]]. intros ->. destruct X as (X1 & _). apply X1. now left.
Qed.
Print Assumptions C198_different_turbines_refuted.
Example C198_nonvacuous : parse_two (lit "NREL-5MW-D126-H90-P.csv") (lit "NREL-5000kW-D126d0-H90-ct.csv") = Ok (mkpars (lit "NREL-5") (Some (5000%Z, 0)) (Some (126%Z, 0)) (Some (90%Z, 0))) /\
  parse_two (lit "NREL-5MW-D126-H90-P.csv") (lit "NREL-5MW-D126-H90-ct.csv") = Ok (mkpars (lit "NREL-5MW") (Some (5000%Z, 0)) (Some (126%Z, 0)) (Some (90%Z, 0))) /\
  parse_two (lit "Vestas-D90-H80.csv") (lit "Vesper-D90-H80.csv") = Ok (mkpars (lit "Ves") None (Some (90%Z, 0)) (Some (80%Z, 0))).
Proof. repeat split. Qed.
