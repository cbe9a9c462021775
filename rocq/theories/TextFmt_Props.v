(** C261: numbers in written tables. *)
From Coq Require Import String Ascii NArith Reals Lra.
From Verif Require Import Base TextFmt_Model TextFmt_Spec TextFmt_Proofs.
Local Open Scope string_scope.

(** every column keeps its place and its name; a column with a format for its variable shows its numbers rounded to the digits of this format, half to even, with their sign, and keeps missing entries; a column without a format is unchanged. Partial: for columns whose own name is no default variable if their variable has no format *)
Theorem C261_write_partial data col2var user :
  (forall c l, In (c, l) data -> format_for col2var user c <> None -> Forall no_text l) ->
  (forall c l, In (c, l) data -> format_for col2var user c = None -> look defaults c = None) ->
  exists out, write data col2var user = Ok out /\
    Forall2 (fun p q : string * list cell => fst q = fst p /\
      match format_for col2var user (fst p) with Some d => Forall2 (shows d) (snd p) (snd q) | None => snd q = snd p end) data out.
Proof.
  intros H K. unfold write.
  assert (U : forall c l, In (c, l) data -> used (fdict col2var user (map fst data)) c = format_for col2var user c).
  { intros c l I'. rewrite used_write by (apply in_map_iff; exists (c, l); split; [reflexivity|exact I']).
    destruct (format_for col2var user c) eqn:E; [reflexivity|exact (K _ _ I' E)]. }
  destruct (write_file_ok (fdict col2var user (map fst data)) data) as (out & E & F).
  { intros c l I' N. rewrite (U _ _ I') in N. exact (H _ _ I' N). }
  exists out. split; [exact E|].
  assert (G : forall a b, incl a data -> Forall2 (fun p q : string * list cell => fst q = fst p /\ column (used (fdict col2var user (map fst data)) (fst p)) (snd p) (snd q)) a b ->
    Forall2 (fun p q : string * list cell => fst q = fst p /\ match format_for col2var user (fst p) with Some d => Forall2 (shows d) (snd p) (snd q) | None => snd q = snd p end) a b).
  { intros a b I' Q. induction Q as [|(c, l) q a b (E1 & E2) Q IH]; constructor.
    - split; [exact E1|]. cbn [fst snd] in *. rewrite (U c l) in E2 by (apply I'; left; reflexivity). exact E2.
    - apply IH. intros z Z. apply I'. right. exact Z. }
  exact (G data out (incl_refl _) F).
Qed.
Print Assumptions C261_write_partial.

(** the full claim is false: a column called P that holds another variable, for which there is no format, loses all but 3 digits *)
Theorem C261_write_refuted :
  format_for [("P", "MY_VAR")] [] "P" = None
  /\ write [("P", [Fin false 1 4096])] [("P", "MY_VAR")] [] = Ok [("P", [Txt (list_ascii_of_string "0.000")])].
Proof. split; reflexivity. Qed.
Print Assumptions C261_write_refuted.

(** a text in a column with a format is an error: nothing is written *)
Theorem C261_text_error data col2var user c l t d :
  In (c, l) data -> In (Txt t) l -> format_for col2var user c = Some d -> write data col2var user = Err ValueError.
Proof.
  intros I' T E. unfold write. apply (write_file_err _ data c l I').
  - rewrite used_write, E by (apply in_map_iff; exists (c, l); split; [reflexivity|exact I']). discriminate.
  - intros F. exact (proj1 (Forall_forall _ _) F _ T).
Qed.
Print Assumptions C261_text_error.

Local Open Scope R_scope.
(** the error is at most half a unit of the last digit *)
Theorem C261_error d x o r : shows d x o -> number x = Some r ->
  exists t m, o = Txt t /\ read t = Some (negative x, m, d) /\ Rabs (denotes (negative x, m, d) - r) <= 1 / 2 / 10 ^ d.
Proof.
  intros [(-> & _)|[(s & -> & _)|(r' & t & m & E & -> & Rd & Ro)]] H; [discriminate|discriminate|].
  rewrite E in H. injection H as ->. exists t, m. split; [reflexivity|]. split; [exact Rd|].
  destruct Ro as (k & -> & A & _). pose proof (pow10R_pos d) as P.
  replace (IZR k / 10 ^ d - r) with (- ((r * 10 ^ d - IZR k) / 10 ^ d)) by (field; lra).
  rewrite Rabs_Ropp. unfold Rdiv at 1. rewrite Rabs_mult, (Rabs_right (/ 10 ^ d)) by (left; apply Rinv_0_lt_compat; exact P).
  apply Rmult_le_compat_r; [left; apply Rinv_0_lt_compat; exact P|exact A].
Qed.
Print Assumptions C261_error.

(** a number with d decimals is written exactly *)
Theorem C261_exact d x o k : shows d x o -> number x = Some (IZR k / 10 ^ d) ->
  exists t m, o = Txt t /\ read t = Some (negative x, m, d) /\ denotes (negative x, m, d) = IZR k / 10 ^ d.
Proof.
  intros [(-> & _)|[(s & -> & _)|(r' & t & m & E & -> & Rd & Ro)]] H; [discriminate|discriminate|].
  rewrite E in H. injection H as ->. exists t, m. split; [reflexivity|]. split; [exact Rd|].
  refine (rounded_unique _ _ _ _ Ro _). exists k. split; [reflexivity|]. pose proof (pow10R_pos d).
  replace (IZR k / 10 ^ d * 10 ^ d - IZR k) with 0 by (field; lra). rewrite Rabs_R0. split; lra.
Qed.
Print Assumptions C261_exact.

(** the order of the numbers is the order in the file, up to ties *)
Theorem C261_order d x y o p r u : shows d x o -> shows d y p -> number x = Some r -> number y = Some u -> r <= u ->
  exists t m t' m', o = Txt t /\ read t = Some (negative x, m, d) /\ p = Txt t' /\ read t' = Some (negative y, m', d)
  /\ denotes (negative x, m, d) <= denotes (negative y, m', d).
Proof.
  intros [(-> & _)|[(s & -> & _)|(r1 & t1 & m1 & E1 & -> & R1 & O1)]] [(-> & _)|[(s' & -> & _)|(r2 & t2 & m2 & E2 & -> & R2 & O2)]] H1 H2 L; try discriminate.
  rewrite E1 in H1. injection H1 as ->. rewrite E2 in H2. injection H2 as ->.
  exists t1, m1, t2, m2. repeat split; try assumption. exact (rounded_le _ _ _ _ _ O1 O2 L).
Qed.
Print Assumptions C261_order.

(** writing again what was read does not change the file: a number with the same sign within half a unit of the decimal in the file, as the nearest float is, is written as the same text *)
Theorem C261_stable d x y t m u :
  number x <> None -> number y = Some u -> negative y = negative x ->
  fmt d x = Some t -> read t = Some (negative x, m, d) -> Rabs (u - denotes (negative x, m, d)) < 1 / 2 / 10 ^ d ->
  fmt d y = Some t.
Proof.
  intros N H S F Rd L. destruct (number x) as [r|] eqn:E; [|congruence].
  destruct (fmt_shows d x r E) as (t' & m' & F' & Rd' & O'). rewrite F in F'. injection F' as <-. rewrite Rd in Rd'. injection Rd' as <-.
  destruct (fmt_shows d y u H) as (q & n & G & Rq & Oq). rewrite G. rewrite S in *.
  assert (V := rounded_near _ _ _ _ _ O' Oq L). apply denotes_inj in V. subst n.
  rewrite (fmt_text _ _ _ _ _ F Rd), (fmt_text _ _ _ _ _ G Rq). reflexivity.
Qed.
Print Assumptions C261_stable.

Local Open Scope string_scope.
Example C261_nonvacuous :
  write [("state", [Whole 0; Whole 1; Whole 2; Whole 3]); ("P", [Fin false 12345678 10000; Missing; Fin true 1 4096; Inf false]);
         ("P_T0003", [Fin false 1 16; Fin false 3 16; Whole (-7); Fin false 99999 1000])]
        [("P_T0003", "MY")] [("MY", 2%nat)]
  = Ok [("state", [Whole 0; Whole 1; Whole 2; Whole 3]);
        ("P", [Txt (list_ascii_of_string "1234.568"); Missing; Txt (list_ascii_of_string "-0.000"); Txt (list_ascii_of_string "inf")]);
        ("P_T0003", [Txt (list_ascii_of_string "0.06"); Txt (list_ascii_of_string "0.19"); Txt (list_ascii_of_string "-7.00"); Txt (list_ascii_of_string "100.00")])]
  /\ read (list_ascii_of_string "1234.568") = Some (false, 1234568%N, 3%nat)
  /\ (exists o, entry 3 (Fin false 12345678 10000) = Ok o /\ shows 3 (Fin false 12345678 10000) o).
Proof. split; [reflexivity|]. split; [reflexivity|]. apply entry_ok. exact I. Qed.
(** The digits of the variables for which no format is given. *)
Theorem C261_default_digits : forall v d, look defaults v = Some d <-> In v (with_digits d).
Proof.
  intros v d. split.
  - unfold defaults. cbn [look]. repeat match goal with |- (if String.eqb v ?n then _ else _) = _ -> _ => destruct (String.eqb_spec v n) as [->|_]; [intros E; injection E as <-; cbn; tauto|] end. discriminate.
  - intros I. destruct d as [|[|[|[|[|[|[|d]]]]]]]; cbn in I; try contradiction; repeat (destruct I as [<-|I]; [reflexivity|]); contradiction.
Qed.
Print Assumptions C261_default_digits.
