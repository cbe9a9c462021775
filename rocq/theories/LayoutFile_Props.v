(** C259: layout files. *)
From Coq Require Import String Ascii.
From Verif Require Import Base DBook_Model DBook_Spec DBook_Props LayoutFile_Model LayoutFile_Spec.
Open Scope string_scope.

Lemma app_nil_s s : s ++ "" = s.
Proof. induction s as [|c s IH]; [reflexivity|]. cbn. now rewrite IH. Qed.
Lemma app_assoc_s a b c : (a ++ b) ++ c = a ++ (b ++ c).
Proof. induction a as [|x a IH]; [reflexivity|]. cbn. now rewrite IH. Qed.
(** texts without dots *)
Fixpoint no_dot (s : string) : bool := match s with EmptyString => true | String c r => negb (Ascii.eqb c ".") && no_dot r end.
Lemma last_dot_none s : last_dot s = None <-> no_dot s = true.
Proof. induction s as [|c s IH]; [cbn; tauto|]. cbn. destruct (last_dot s); [split; [discriminate|]; intros H; apply andb_true_iff in H as [_ H]; apply IH in H; discriminate|]. destruct (Ascii.eqb c "."); cbn; [split; discriminate|]. destruct IH as [IH _]. rewrite IH by reflexivity. tauto. Qed.
Lemma last_dot_app s e : no_dot e = true -> last_dot (s ++ "." ++ e) = Some ("." ++ e).
Proof. intros H. induction s as [|c s IH]; cbn; [apply last_dot_none in H; now rewrite H|]. change (String "." e) with ("." ++ e). now rewrite IH. Qed.
Lemma last_dot_some s t : last_dot s = Some t -> exists a e, s = a ++ t /\ t = "." ++ e /\ no_dot e = true.
Proof.
  revert t. induction s as [|c s IH]; intros t; cbn; [discriminate|]. destruct (last_dot s) as [u|] eqn:E.
  - intros Q. injection Q as <-. destruct (IH u eq_refl) as (a & e & A & B & C). exists (String c a), e. cbn. now rewrite <- A.
  - destruct (Ascii.eqb_spec c "."); [|discriminate]. intros Q. injection Q as <-. exists "", s. split; [reflexivity|]. split; [now subst|]. now apply last_dot_none.
Qed.
Lemma suffix_named n e : no_dot e = true -> e <> "" -> (psuffix n = "." ++ e <-> named n ("." ++ e)).
Proof.
  intros H He. unfold named. split.
  - destruct n as [|c r]; [discriminate|]. cbn. destruct (last_dot r) as [s|] eqn:E; [|discriminate]. destruct (String.eqb s "."); [discriminate|]. intros ->. destruct (last_dot_some r _ E) as (a & _ & A & _). exists (String c a). split; [discriminate|]. cbn. now rewrite A.
  - intros (stem & Hs & ->). destruct stem as [|c s]; [contradiction|]. cbn [psuffix append]. change (String "." e) with ("." ++ e). rewrite last_dot_app by exact H. destruct (String.eqb_spec ("." ++ e) "."); [|reflexivity]. cbn in *. exfalso. apply He. congruence.
Qed.
Lemma sfx_named f s : s <> "" -> (has_sfx f s = true <-> named f s).
Proof. intros H. rewrite C217_suffix. unfold ends_with, named. split; intros (a & A); exists a; tauto. Qed.
Lemma named_dir d n s : named n s -> named (text d n) s.
Proof. intros (a & A & ->). unfold text. exists (d ++ a). split; [destruct d; [exact A|discriminate]|]. now rewrite app_assoc_s. Qed.
Lemma json_dec n : {named n ".json"} + {~ named n ".json"}.
Proof. destruct (String.eqb_spec (psuffix n) ".json") as [E|E]; [left|right]; [|intros N; apply E]; apply (suffix_named n "json"); try reflexivity; try discriminate; assumption. Qed.

(** File names given as texts: files with the supported endings are read by the reader they belong to, all others are refused. *)
Theorem C259_texts : forall book d n v,
  (named n ".json" -> add_from_file true book (AStr d n) v = Ok (ReadJson 1, AStr d n)) /\
  (named n ".csv" \/ compressed n -> add_from_file true book (AStr d n) v = Ok (ReadCsv v, AStr d n)) /\
  (~ named n ".json" -> ~ named n ".csv" -> ~ compressed (text d n) -> add_from_file true book (AStr d n) v = Err KeyError).
Proof.
  intros book d n v. pose proof (suffix_named n "json" eq_refl ltac:(discriminate)) as J. pose proof (suffix_named n "csv" eq_refl ltac:(discriminate)) as C. change ("." ++ "json") with ".json" in J. change ("." ++ "csv") with ".csv" in C.
  assert (JC : named n ".csv" \/ compressed n -> String.eqb (psuffix n) ".json" = false).
  { intros H. apply String.eqb_neq. intros E. destruct H as [H|[(a & A & ->)|[(a & A & ->)|(a & A & ->)]]]; [apply C in H; congruence| | |]; revert E.
    - replace (a ++ ".csv.gz") with ((a ++ ".csv") ++ "." ++ "gz") by now rewrite app_assoc_s. rewrite (proj2 (suffix_named _ "gz" eq_refl ltac:(discriminate))); [discriminate|]. exists (a ++ ".csv"). split; [destruct a; discriminate|reflexivity].
    - replace (a ++ ".csv.bz2") with ((a ++ ".csv") ++ "." ++ "bz2") by now rewrite app_assoc_s. rewrite (proj2 (suffix_named _ "bz2" eq_refl ltac:(discriminate))); [discriminate|]. exists (a ++ ".csv"). split; [destruct a; discriminate|reflexivity].
    - replace (a ++ ".csv.zip") with ((a ++ ".csv") ++ "." ++ "zip") by now rewrite app_assoc_s. rewrite (proj2 (suffix_named _ "zip" eq_refl ltac:(discriminate))); [discriminate|]. exists (a ++ ".csv"). split; [destruct a; discriminate|reflexivity]. }
  unfold add_from_file. cbn [bind fname]. split; [|split].
  - intros H. apply J in H. now rewrite H.
  - intros H. rewrite (JC H). unfold is_csv. destruct (String.eqb (psuffix n) ".csv") eqn:E; [reflexivity|]. destruct H as [H|H]; [apply C in H; rewrite H in E; discriminate|]. cbn [text_ends bind]. destruct H as [H|[H|H]]; apply (named_dir d), sfx_named in H; try discriminate; unfold text in H.
    + rewrite H. reflexivity.
    + rewrite H. destruct (has_sfx (d ++ n) ".csv.gz"); reflexivity.
    + rewrite H. destruct (has_sfx (d ++ n) ".csv.gz"); [reflexivity|]. cbn [bind]. destruct (has_sfx (d ++ n) ".csv.bz2"); reflexivity.
  - intros H1 H2 H3. destruct (String.eqb_spec (psuffix n) ".json") as [E|_]; [apply J in E; contradiction|]. unfold is_csv. destruct (String.eqb_spec (psuffix n) ".csv") as [E|_]; [apply C in E; contradiction|]. cbn [text_ends bind].
    destruct (has_sfx (d ++ n) ".csv.gz") eqn:E1; [exfalso; apply H3; left; apply sfx_named; [discriminate|exact E1]|]. cbn [bind]. destruct (has_sfx (d ++ n) ".csv.bz2") eqn:E2; [exfalso; apply H3; right; left; apply sfx_named; [discriminate|exact E2]|]. cbn [bind].
    destruct (has_sfx (d ++ n) ".csv.zip") eqn:E3; [exfalso; apply H3; right; right; apply sfx_named; [discriminate|exact E3]|]. reflexivity.
Qed.
Print Assumptions C259_texts.
(** The same for files given as pathlib.Path and for files of the data book, as long as they are not compressed. *)
Theorem C259_paths_partial : forall book d n v,
  (named n ".json" -> add_from_file true book (APath d n) v = Ok (ReadJson 1, APath d n)) /\ (named n ".csv" -> add_from_file true book (APath d n) v = Ok (ReadCsv v, APath d n)) /\
  (forall a p q, fname a = n -> book n = Ok (p, q) -> (named n ".json" -> add_from_file false book a v = Ok (ReadJson 1, APath p q)) /\ (named n ".csv" -> add_from_file false book a v = Ok (ReadCsv v, APath p q))) /\
  (forall a e, fname a = n -> book n = Err e -> add_from_file false book a v = Err e).
Proof.
  intros book d n v. pose proof (suffix_named n "json" eq_refl ltac:(discriminate)) as J. pose proof (suffix_named n "csv" eq_refl ltac:(discriminate)) as C. change ("." ++ "json") with ".json" in J. change ("." ++ "csv") with ".csv" in C.
  unfold add_from_file. cbn [bind fname]. split; [|split; [|split]].
  - intros H. apply J in H. now rewrite H.
  - intros H. apply C in H. unfold is_csv. rewrite H. reflexivity.
  - intros a p q Ha Hb. rewrite Ha, Hb. cbn [bind fst snd]. split; intros H; [apply J in H|apply C in H]; unfold is_csv; rewrite H; reflexivity.
  - intros a e Ha Hb. rewrite Ha, Hb. reflexivity.
Qed.
Print Assumptions C259_paths_partial.
(** Compressed files given as pathlib.Path, and compressed files of the data book however they are named, cannot be read; and every unsupported file given like that is a TypeError. *)
Theorem C259_paths_refuted : forall book d n v, ~ named n ".json" -> ~ named n ".csv" ->
  add_from_file true book (APath d n) v = Err TypeError /\ (forall a p, fname a = n -> book n = Ok p -> add_from_file false book a v = Err TypeError).
Proof.
  intros book d n v H1 H2. pose proof (suffix_named n "json" eq_refl ltac:(discriminate)) as J. pose proof (suffix_named n "csv" eq_refl ltac:(discriminate)) as C. change ("." ++ "json") with ".json" in J. change ("." ++ "csv") with ".csv" in C.
  assert (E1 : String.eqb (psuffix n) ".json" = false) by (apply String.eqb_neq; intros E; now apply J in E). assert (E2 : String.eqb (psuffix n) ".csv" = false) by (apply String.eqb_neq; intros E; now apply C in E).
  unfold add_from_file, is_csv. split; [cbn [bind fname]; now rewrite E1, E2|]. intros a p Ha Hb. rewrite Ha, Hb. cbn [bind]. now rewrite E1, E2.
Qed.
Print Assumptions C259_paths_refuted.
(** Compressed files do not count as json or csv files, so that the theorem above speaks about them. *)
Theorem C259_compressed_refuted : forall book d stem v, stem <> "" -> add_from_file true book (AStr d (stem ++ ".csv.gz")) v = Ok (ReadCsv v, AStr d (stem ++ ".csv.gz")) /\ add_from_file true book (APath d (stem ++ ".csv.gz")) v = Err TypeError.
Proof.
  intros book d stem v H. split; [apply (proj1 (proj2 (C259_texts book d (stem ++ ".csv.gz") v))); right; left; now exists stem|]. assert (E : psuffix (stem ++ ".csv.gz") = ".gz").
  { replace (stem ++ ".csv.gz") with ((stem ++ ".csv") ++ "." ++ "gz") by now rewrite app_assoc_s. apply (suffix_named _ "gz" eq_refl ltac:(discriminate)). exists (stem ++ ".csv"). split; [destruct stem; discriminate|reflexivity]. }
  apply (proj1 (C259_paths_refuted book d (stem ++ ".csv.gz") v ltac:(intros N; apply (suffix_named (stem ++ ".csv.gz") "json" eq_refl ltac:(discriminate)) in N; rewrite E in N; discriminate) ltac:(intros N; apply (suffix_named (stem ++ ".csv.gz") "csv" eq_refl ltac:(discriminate)) in N; rewrite E in N; discriminate))).
Qed.
Print Assumptions C259_compressed_refuted.
(** The verbosity does not reach the json reader. *)
Theorem C259_verbosity_refuted : forall book d n v, named n ".json" -> add_from_file true book (AStr d n) v = add_from_file true book (AStr d n) 0.
Proof. intros book d n v H. destruct (C259_texts book d n v) as (A & _). destruct (C259_texts book d n 0) as (B & _). now rewrite A, B. Qed.
Print Assumptions C259_verbosity_refuted.
Example C259_nonvacuous : let book := fun _ => Err KeyError in
  map (fun n => add_from_file true book (AStr "in/" n) 0) ["farm.json"; "a.b.csv"; "farm.csv.bz2"; "farm.txt"; ".csv"] = [Ok (ReadJson 1, AStr "in/" "farm.json"); Ok (ReadCsv 0, AStr "in/" "a.b.csv"); Ok (ReadCsv 0, AStr "in/" "farm.csv.bz2"); Err KeyError; Err KeyError]
  /\ named "a.b.csv" ".csv" /\ compressed "farm.csv.bz2".
Proof. split; [reflexivity|]. split; [now exists "a.b"|right; left; now exists "farm"]. Qed.
