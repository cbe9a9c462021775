(** Lemmas about names of turbine type files. *)
From Verif Require Import Factory_Model Factory_Spec Factory_Proofs Factory_Proofs2 TypeName_Model TypeName_Spec.
Local Open Scope list_scope.

Lemma joinc_join c l : joinc c l = join c l. Proof. induction l as [|a [|b l] IH]; cbn in *; congruence. Qed.
Lemma aeq_neq a b : a <> b -> aeq a b = false. Proof. apply Ascii.eqb_neq. Qed.
Lemma split_mid c : forall a b, split c (a ++ c :: b) = split c a ++ split c b.
Proof.
  induction a as [|x a IH]; intros b; cbn [app split].
  - now rewrite aeq_refl.
  - destruct (aeq x c); [cbn; now rewrite IH|]. rewrite IH. destruct (split c a) as [|w ws] eqn:F; [now apply split_ne in F|]. reflexivity.
Qed.
Lemma last_ne {A} (l : list A) d d' : l <> [] -> last l d = last l d'.
Proof. induction l as [|x [|y l] IH]; intros H; [contradiction|reflexivity|]. cbn [last] in *. apply IH. discriminate. Qed.
Lemma last_app_ne {A} (l r : list A) d : r <> [] -> last (l ++ r) d = last r d.
Proof. intros H. induction l as [|x l IH]; [reflexivity|]. cbn [app]. rewrite <- IH. destruct (l ++ r) eqn:E; [apply app_eq_nil in E; tauto|]. reflexivity. Qed.
Lemma split_parts sep f : forall ts b, ~ In sep b -> Forall (fun t => ~ In sep (f t)) ts ->
  split sep (b ++ concat (map (fun t : token => sep :: f t) ts)) = b :: map f ts.
Proof.
  induction ts as [|t ts IH]; intros b Hb H; cbn [map concat].
  - rewrite app_nil_r. now apply split_free.
  - cbn [app]. rewrite split_mid, (split_free sep b) by assumption. inversion H; subst. now rewrite IH.
Qed.
Lemma stem_of dir n ext : directory dir -> ~ In "/"%char n -> n <> [] -> extension ext -> stem (dir ++ n ++ "."%char :: ext) = n.
Proof.
  intros D Hn Hne (He & H1 & H2). unfold stem.
  assert (E : last (split "/"%char (dir ++ n ++ "."%char :: ext)) [] = n ++ "."%char :: ext).
  { assert (F : split "/"%char (n ++ "."%char :: ext) = [n ++ "."%char :: ext]).
    { apply split_free. rewrite in_app_iff. intros [A|[A|A]]; [tauto|discriminate|tauto]. }
    destruct D as [->|(d & ->)]; [cbn [app]; rewrite F; reflexivity|].
    rewrite <- app_assoc. cbn [app]. rewrite split_mid, F. now rewrite last_app_ne by discriminate. }
  rewrite E, split_mid, (split_free _ ext) by assumption. rewrite last_app_ne by discriminate. cbn [last].
  rewrite removelast_last, joinc_join, join_split. destruct ext; [contradiction|]. destruct n; [contradiction|reflexivity].
Qed.
Lemma has_iff c s : has c s = true <-> In c s.
Proof. unfold has. rewrite existsb_exists. split; [intros (x & H & E); apply aeq_eq in E; now subst|intros H; exists c; split; [assumption|apply aeq_refl]]. Qed.
Lemma has_not c s : ~ In c s -> has c s = false.
Proof. intros H. destruct (has c s) eqn:E; [|reflexivity]. apply has_iff in E. contradiction. Qed.
Lemma from_dot_in c : forall s, In c (from_dot s) -> In c s /\ In "."%char s.
Proof. induction s as [|a s IH]; [intros []|]. cbn [from_dot]. destruct (aeq a ".") eqn:E. - apply aeq_eq in E. subst a. intros H. split; [exact H|now left]. - intros H. apply IH in H. cbn. tauto. Qed.

(** numbers *)
Lemma chars_app a b : chars (a ++ b) = chars a ++ chars b. Proof. unfold chars. apply map_app. Qed.
Lemma number_text_char mark x c : number_ok x -> In c (number_text mark x) -> c = mark \/ (48 <= nat_of_ascii c <= 57).
Proof.
  intros ((_ & H) & G) I. unfold number_text in I. apply in_app_iff in I.
  assert (K : forall ds, Forall (fun d => d < 10) ds -> In c (chars ds) -> 48 <= nat_of_ascii c <= 57).
  { intros ds F J. destruct (le_lt_dec 48 (nat_of_ascii c)); [destruct (le_lt_dec (nat_of_ascii c) 57); [lia|]|]; exfalso; eapply chars_not_in; [exact F| |exact J|exact F| |exact J]; lia. }
  destruct I as [I|I]; [right; eapply K; eassumption|]. destruct (snd x); [|destruct I]. destruct I as [I|I]; [now left|right; eapply K; eassumption].
Qed.
Lemma map_chars ds : Forall (fun d => d < 10) ds -> map (fun c => if aeq c "d"%char then "."%char else c) (chars ds) = chars ds.
Proof.
  intros H. rewrite <- (map_id (chars ds)) at 2. apply map_ext_in. intros c I. rewrite aeq_neq; [reflexivity|]. intros ->. revert I. apply chars_not_in; [exact H|]. right. cbn. lia.
Qed.
Lemma num_of_text mark x : mark = "d"%char \/ mark = "."%char -> number_ok x -> num_of (number_text mark x) = Ok (number_dec x).
Proof.
  intros Hm ((Hne & Ha) & Hf). unfold num_of, number_text, number_dec. destruct x as [a [f|]]; cbn [fst snd] in *.
  - rewrite map_app. cbn [map]. rewrite !map_chars by assumption. replace (if aeq mark "d" then "."%char else mark) with "."%char by (destruct Hm; subst; reflexivity).
    unfold pyfloat. rewrite split_mid, (split_free "."%char (chars a)), (split_free "."%char (chars f)) by (apply chars_not_in; [assumption|left; cbn; lia]).
    cbn [app]. rewrite <- chars_app, digits_chars by (apply Forall_app; now split).
    assert (L : length (chars f) = length f) by (unfold chars; apply map_length). rewrite L. destruct a; [contradiction|]. reflexivity.
  - rewrite app_nil_r, map_chars by assumption. unfold pyfloat. rewrite split_free by (apply chars_not_in; [assumption|left; cbn; lia]).
    assert (E := digits_chars a 0%Z Ha). destruct (chars a) as [|c l] eqn:C; [destruct a; [contradiction|discriminate]|]. rewrite E. reflexivity.
Qed.
Lemma rev_last_cons {A} (p : list A) z : p <> [] -> exists r, rev p = last p z :: r.
Proof. intros H. destruct (exists_last H) as (l & a & ->). rewrite rev_app_distr, last_last. eexists. reflexivity. Qed.
Lemma number_ne mark x : number_ok x -> number_text mark x <> [].
Proof. intros ((H & _) & _). unfold number_text, chars. destruct (fst x); [contradiction|discriminate]. Qed.
Lemma num_char_neq mark x c z : number_ok x -> (nat_of_ascii c < 48 \/ 57 < nat_of_ascii c) -> c <> mark -> last (number_text mark x) z <> c.
Proof.
  intros H C M E. assert (I : In c (number_text mark x)).
  { rewrite <- E. destruct (exists_last (number_ne mark x H)) as (l & a & ->). rewrite last_last. apply in_app_iff. right. now left. }
  apply (number_text_char mark x c H) in I. destruct I as [->|I]; [now apply M|lia].
Qed.
Lemma piece_token mark q t : mark = "d"%char \/ mark = "."%char -> token_ok t ->
  piece q (token_text mark t) = Ok (mkpars
    (p_name q ++ match t with Power _ _ | Word _ => "-"%char :: token_text mark t | _ => [] end)
    (match stated_power t with Some x => Some x | None => p_P q end)
    (match stated_D t with Some x => Some x | None => p_D q end)
    (match stated_H t with Some x => Some x | None => p_H q end)).
Proof.
  intros Hm H. destruct t as [x u|x|x|w]; cbn [token_ok token_text stated_power stated_D stated_H] in *.
  - assert (N := num_of_text mark x Hm H). unfold piece.
    destruct u; cbn [unit_text lit list_ascii_of_string kilowatts]; rewrite rev_app_distr; cbn [rev app].
    + change (aeq "W" "W") with true. cbn iota.
      destruct (rev_last_cons (number_text mark x) "0"%char (number_ne mark x H)) as (r & R). rewrite R.
      assert (L : forall c, (nat_of_ascii c < 48 \/ 57 < nat_of_ascii c) -> c <> mark -> aeq (last (number_text mark x) "0"%char) c = false).
      { intros c C M. apply aeq_neq. now apply num_char_neq. }
      rewrite !L by (try (destruct Hm; subst; discriminate); cbn; lia).
      rewrite <- R, rev_involutive, N. reflexivity.
    + change (aeq "W" "W") with true. change (aeq "k" "k") with true. cbn iota. rewrite rev_involutive, N. cbn. reflexivity.
    + change (aeq "W" "W") with true. change (aeq "M" "k") with false. change (aeq "M" "M") with true. cbn iota. rewrite rev_involutive, N. reflexivity.
    + change (aeq "W" "W") with true. change (aeq "G" "k") with false. change (aeq "G" "M") with false. change (aeq "G" "G") with true. cbn iota. rewrite rev_involutive, N. reflexivity.
  - unfold piece. assert (NE : ("D"%char :: number_text mark x) <> []) by discriminate.
    destruct (rev_last_cons _ "0"%char NE) as (r & R). rewrite R.
    assert (L : aeq (last ("D"%char :: number_text mark x) "0"%char) "W" = false).
    { apply aeq_neq. change ("D"%char :: number_text mark x) with (["D"%char] ++ number_text mark x). rewrite last_app_ne by now apply number_ne. apply num_char_neq; [assumption|cbn; lia|destruct Hm; subst; discriminate]. }
    rewrite L. change (aeq "D" "D") with true. cbn iota. rewrite (num_of_text mark x Hm H). cbn. now rewrite app_nil_r.
  - unfold piece. assert (NE : ("H"%char :: number_text mark x) <> []) by discriminate.
    destruct (rev_last_cons _ "0"%char NE) as (r & R). rewrite R.
    assert (L : aeq (last ("H"%char :: number_text mark x) "0"%char) "W" = false).
    { apply aeq_neq. change ("H"%char :: number_text mark x) with (["H"%char] ++ number_text mark x). rewrite last_app_ne by now apply number_ne. apply num_char_neq; [assumption|cbn; lia|destruct Hm; subst; discriminate]. }
    rewrite L. change (aeq "H" "D") with false. change (aeq "H" "H") with true. cbn iota. rewrite (num_of_text mark x Hm H). cbn. now rewrite app_nil_r.
  - destruct H as (_ & a & r & z & -> & A1 & A2 & A3). unfold piece.
    assert (NE : a :: r <> []) by discriminate. destruct (rev_last_cons _ z NE) as (r' & R). rewrite R, (aeq_neq _ _ A3), (aeq_neq _ _ A1), (aeq_neq _ _ A2). reflexivity.
Qed.
Lemma last_of_cons {A} (f : token -> option A) t ts (d : option A) :
  match last_of f (t :: ts) with Some x => Some x | None => d end =
  match last_of f ts with Some x => Some x | None => match f t with Some x => Some x | None => d end end.
Proof. cbn [last_of]. now destruct (last_of f ts). Qed.
Lemma pieces_tokens mark : mark = "d"%char \/ mark = "."%char -> forall ts q, Forall token_ok ts ->
  pieces q (map (token_text mark) ts) = Ok (mkpars (stated_name mark (p_name q) ts)
    (match last_of stated_power ts with Some x => Some x | None => p_P q end)
    (match last_of stated_D ts with Some x => Some x | None => p_D q end)
    (match last_of stated_H ts with Some x => Some x | None => p_H q end)).
Proof.
  intros Hm. induction ts as [|t ts IH]; intros q H; cbn [map pieces].
  - unfold stated_name. cbn. rewrite app_nil_r. now destruct q.
  - inversion H; subst. rewrite (piece_token mark q t Hm) by assumption. cbn [bind]. rewrite IH by assumption. cbn [p_name p_P p_D p_H].
    rewrite !last_of_cons. unfold stated_name. cbn [map concat]. now rewrite app_assoc.
Qed.
Lemma token_chars sep mark t : style_ok sep mark -> token_ok t -> ~ In sep (token_text mark t) /\ ~ In "/"%char (token_text mark t) /\
  (sep = "-"%char -> ~ In "."%char (token_text mark t) /\ ~ In "_"%char (token_text mark t)) /\ (sep = "_"%char -> ~ In "-"%char (token_text mark t)).
Proof.
  intros S H.
  assert (Hs : sep = "-"%char \/ sep = "_"%char) by (destruct S; tauto).
  assert (Nm : sep <> mark) by (destruct S as [(-> & ->)|(-> & [->| ->])]; discriminate).
  assert (K : forall x c, number_ok x -> (nat_of_ascii c < 48 \/ 57 < nat_of_ascii c) -> c <> mark -> ~ In c (number_text mark x)).
  { intros x c Hx C M I. apply (number_text_char mark x c Hx) in I. destruct I; [contradiction|lia]. }
  assert (U : forall c u, In c (unit_text u) -> c = "W"%char \/ c = "k"%char \/ c = "M"%char \/ c = "G"%char) by (intros c u; destruct u; cbn; intuition).
  assert (G : forall x c, number_ok x -> c <> mark -> In c ["-"%char; "_"%char; "."%char; "/"%char] -> ~ In c (number_text mark x)).
  { intros x c Hx M I. apply K; [assumption| |assumption]. cbn [In] in I. destruct I as [<-|[<-|[<-|[<-|[]]]]]; cbn; lia. }
  assert (T : forall c, c <> mark -> In c ["-"%char; "_"%char; "."%char; "/"%char] -> ~ In c (token_text mark t)).
  { intros c M I J. destruct t as [x u|x|x|w]; cbn [token_ok token_text] in *.
    - apply in_app_iff in J. destruct J as [J|J]; [now apply (G x c) in J|]. apply U in J. cbn [In] in I. intuition congruence.
    - destruct J as [J|J]; [subst c; cbn [In] in I; intuition discriminate|]. now apply (G x c) in J.
    - destruct J as [J|J]; [subst c; cbn [In] in I; intuition discriminate|]. now apply (G x c) in J.
    - destruct H as ((P1 & P2 & P3 & P4) & _). cbn [In] in I. destruct I as [<-|[<-|[<-|[<-|[]]]]]; contradiction. }
  split; [|split; [|split]].
  - apply T; [assumption|]. destruct Hs; subst; cbn; tauto.
  - apply T; [destruct S as [(-> & ->)|(-> & [->| ->])]; discriminate|cbn; tauto].
  - intros ->. destruct S as [(_ & ->)|(A & _)]; [|discriminate]. split; apply T; try discriminate; cbn; tauto.
  - intros ->. destruct S as [(A & _)|(_ & [->| ->])]; [discriminate| |]; apply T; try discriminate; cbn; tauto.
Qed.
Lemma concat_not_in c mark sep ts : c <> sep -> Forall (fun t => ~ In c (token_text mark t)) ts -> ~ In c (concat (map (fun t => sep :: token_text mark t) ts)).
Proof. intros N. induction 1 as [|t ts H F IH]; [intros []|]. cbn [map concat]. rewrite in_app_iff. intros [[E|I]|I]; [congruence|contradiction|contradiction]. Qed.
Lemma parse_file dir sep mark b ts ext : style_ok sep mark -> directory dir -> plain b -> ts <> [] -> Forall token_ok ts -> extension ext ->
  parse_name (file_name dir sep mark b ts ext) =
  Ok (mkpars (stated_name mark b ts) (last_of stated_power ts) (last_of stated_D ts) (last_of stated_H ts)).
Proof.
  intros S D (B1 & B2 & B3 & B4) NE T X.
  set (n := b ++ concat (map (fun t => sep :: token_text mark t) ts)).
  assert (F : Forall (fun t => ~ In sep (token_text mark t) /\ ~ In "/"%char (token_text mark t) /\
    (sep = "-"%char -> ~ In "."%char (token_text mark t) /\ ~ In "_"%char (token_text mark t)) /\ (sep = "_"%char -> ~ In "-"%char (token_text mark t))) ts).
  { apply Forall_forall. intros t I. apply token_chars; [assumption|]. rewrite Forall_forall in T. now apply T. }
  assert (E : stem (file_name dir sep mark b ts ext) = n).
  { unfold file_name. replace (dir ++ b ++ concat (map (fun t => sep :: token_text mark t) ts) ++ "."%char :: ext) with (dir ++ n ++ "."%char :: ext) by (unfold n; now rewrite !app_assoc).
    apply stem_of; [assumption| |unfold n; destruct ts; [contradiction|]; destruct b; discriminate|assumption].
    unfold n. rewrite in_app_iff. intros [I|I]; [contradiction|]. revert I. apply concat_not_in.
    - destruct S as [(-> & _)|(-> & _)]; discriminate.
    - eapply Forall_impl; [|exact F]. intros t (K1 & K2 & _); exact K2. }
  assert (Hsep : In sep n) by (unfold n; destruct ts as [|t ts]; [contradiction|]; apply in_app_iff; right; now left).
  assert (Sb : ~ In sep b) by (destruct S as [(-> & _)|(-> & _)]; assumption).
  assert (P : of_pieces (split sep n) = Ok (mkpars (stated_name mark b ts) (last_of stated_power ts) (last_of stated_D ts) (last_of stated_H ts))).
  { unfold n. rewrite split_parts; [|exact Sb|eapply Forall_impl; [|exact F]; intros t (K1 & _); exact K1]. unfold of_pieces.
    rewrite (pieces_tokens mark) by (try assumption; destruct S as [(_ & ->)|(_ & [->| ->])]; tauto). cbn [p_name p_P p_D p_H].
    destruct (last_of stated_power ts), (last_of stated_D ts), (last_of stated_H ts); reflexivity. }
  unfold parse_name. rewrite E. destruct S as [(-> & Em)|(-> & Em)].
  - assert (Nd : ~ In "."%char n).
    { unfold n. rewrite in_app_iff. intros [I|I]; [contradiction|]. revert I. apply concat_not_in; [discriminate|]. eapply Forall_impl; [|exact F]. intros t (_ & _ & K & _). now apply K. }
    assert (Nu : ~ In "_"%char n).
    { unfold n. rewrite in_app_iff. intros [I|I]; [contradiction|]. revert I. apply concat_not_in; [discriminate|]. eapply Forall_impl; [|exact F]. intros t (_ & _ & K & _). now apply K. }
    rewrite (has_not "-"%char (from_dot n)) by (intros I; apply from_dot_in in I; tauto).
    rewrite (proj2 (has_iff _ _) Hsep), (has_not _ _ Nu). cbn [andb]. exact P.
  - assert (Nd : ~ In "-"%char n).
    { unfold n. rewrite in_app_iff. intros [I|I]; [contradiction|]. revert I. apply concat_not_in; [discriminate|]. eapply Forall_impl; [|exact F]. intros t (_ & _ & _ & K). now apply K. }
    rewrite (has_not "-"%char (from_dot n)) by (intros I; apply from_dot_in in I; tauto).
    rewrite (has_not _ _ Nd). cbn [andb]. rewrite (proj2 (has_iff _ _) Hsep). exact P.
Qed.

(** two files *)
Lemma common_spec : forall a b, let n := firstn (common a b) a in longest_common a b n /\ length n = common a b.
Proof.
  induction a as [|x a IH]; intros b; cbn [common firstn].
  - split; [|reflexivity]. exists [], b. cbn. auto.
  - destruct b as [|y b]; [split; [|reflexivity]; exists (x :: a), []; cbn; auto|]. destruct (aeq x y) eqn:E.
    + apply aeq_eq in E. subst y. destruct (IH b) as ((u & v & A & B & C) & L). cbn [firstn]. split; [|cbn; now rewrite L].
      exists u, v. cbn [app]. rewrite <- A, <- B. tauto.
    + split; [|reflexivity]. exists (x :: a), (y :: b). split; [reflexivity|split; [reflexivity|]]. intros ->. rewrite aeq_refl in E. discriminate.
Qed.
Lemma common_sym : forall a b, common a b = common b a.
Proof.
  induction a as [|x a IH]; intros [|y b]; cbn; try reflexivity. rewrite IH. unfold aeq. rewrite Ascii.eqb_sym. reflexivity.
Qed.
Lemma firstn_common : forall a b, firstn (common a b) a = firstn (common a b) b.
Proof. induction a as [|x a IH]; intros [|y b]; cbn; try reflexivity. destruct (aeq x y) eqn:E; [|reflexivity]. apply aeq_eq in E. cbn. now rewrite E, IH. Qed.
Lemma nth_common : forall a b j, j < common a b -> nth_error a j = nth_error b j.
Proof.
  induction a as [|x a IH]; intros [|y b] j H; cbn [common] in H; try lia. destruct (aeq x y) eqn:E; [|lia]. apply aeq_eq in E. subst y.
  destruct j; [reflexivity|]. cbn. apply IH. lia.
Qed.
Lemma no_dash_sym a b : no_dash a (common a b) = no_dash b (common a b).
Proof. unfold no_dash. destruct (common a b) as [|j] eqn:E; [reflexivity|]. rewrite (nth_common a b j) by lia. reflexivity. Qed.
Lemma no_dash_le s i : no_dash s i <= i.
Proof. destruct i; cbn; [lia|]. destruct (nth_error s i); [|lia]. destruct (aeq a "-"); lia. Qed.
Lemma dec_eqb_iff a b : dec_eqb a b = true <-> same_dec a b. Proof. apply Z.eqb_eq. Qed.
Lemma odec_eqb_iff a b : odec_eqb a b = true <-> same_entry a b.
Proof. destruct a, b; cbn; rewrite ?dec_eqb_iff; intuition discriminate. Qed.
Lemma same_entry_sym a b : same_entry a b -> same_entry b a.
Proof. destruct a, b; cbn; try tauto. unfold same_dec. intros H. symmetry. exact H. Qed.

(** characters of the stem come from the file name *)
Lemma split_incl c : forall s w x, In w (split c s) -> In x w -> In x s.
Proof.
  induction s as [|a s IH]; intros w x I J; cbn [split] in I.
  - destruct I as [<-|[]]. destruct J.
  - destruct (aeq a c); [destruct I as [<-|I]; [destruct J|right; eauto]|].
    destruct (split c s) as [|v vs] eqn:E; [now apply split_ne in E|]. destruct I as [<-|I].
    + destruct J as [->|J]; [now left|right]. apply (IH v); [now left|assumption].
    + right. apply (IH w); [now right|assumption].
Qed.
Lemma joinc_in c x : forall l, In x (joinc c l) -> x = c \/ exists w, In w l /\ In x w.
Proof.
  induction l as [|w [|v l] IH]; [intros []|intros I; right; exists w; split; [now left|assumption]|].
  change (joinc c (w :: v :: l)) with (w ++ c :: joinc c (v :: l)). intros I. apply in_app_iff in I. destruct I as [I|[I|I]].
  - right. exists w. split; [now left|assumption].
  - now left.
  - destruct (IH I) as [A|(u & A & B)]; [now left|right; exists u; split; [now right|assumption]].
Qed.
Lemma last_in {A} (l : list A) d : l <> [] -> In (last l d) l.
Proof. intros H. destruct (exists_last H) as (r & a & ->). rewrite last_last. apply in_app_iff. right. now left. Qed.
Lemma removelast_in {A} (l : list A) x : In x (removelast l) -> In x l.
Proof. destruct l as [|y l] using rev_ind; [tauto|]. rewrite removelast_last. intros H. apply in_app_iff. now left. Qed.
Lemma stem_in f x : x <> "."%char -> In x (stem f) -> In x f.
Proof.
  intros Nx. unfold stem. set (name := last (split "/"%char f) []).
  assert (A : In x name -> In x f) by (intros I; apply (split_incl "/"%char f name x); [apply last_in, split_ne|assumption]).
  destruct (last (split "."%char name) []); [exact A|]. destruct (joinc "."%char (removelast (split "."%char name))) as [|c r] eqn:E; [exact A|].
  intros I. apply A. rewrite <- E in I. apply joinc_in in I. destruct I as [->|(w & I & J)]; [contradiction|].
  apply removelast_in in I. eapply split_incl; eassumption.
Qed.
Lemma no_separator f : ~ In "-"%char f -> ~ In "_"%char f -> parse_name f = Err NameError.
Proof.
  intros A B. assert (A' : ~ In "-"%char (stem f)) by (intros I; apply A; now apply stem_in). assert (B' : ~ In "_"%char (stem f)) by (intros I; apply B; now apply stem_in).
  unfold parse_name. rewrite (has_not "-"%char (from_dot (stem f))) by (intros I; apply from_dot_in in I; tauto).
  rewrite (has_not _ _ A'), (has_not _ _ B'). reflexivity.
Qed.
(** texts that are no numbers *)
Definition non_digit (c : ascii) : Prop := nat_of_ascii c < 48 \/ 57 < nat_of_ascii c.
Lemma digits_none c : non_digit c -> forall s acc, In c s -> digits acc s = None.
Proof.
  intros N. induction s as [|a s IH]; intros acc I; [destruct I|]. cbn [digits]. destruct I as [->|I].
  - unfold digit. destruct (_ && _)%bool eqn:E; [|reflexivity]. apply andb_prop in E. destruct E as [E1 E2]. apply Z.leb_le in E1, E2. destruct N; lia.
  - destruct (digit a); [now apply IH|reflexivity].
Qed.
Lemma pyfloat_bad c s : non_digit c -> c <> "."%char -> In c s -> pyfloat s = Err ValueError.
Proof.
  intros N D I. unfold pyfloat. assert (J : In c (join "."%char (split "."%char s))) by now rewrite join_split.
  destruct (split "."%char s) as [|a [|b [|]]]; try reflexivity.
  - cbn [join] in J. destruct a as [|x a]; [reflexivity|]. now rewrite (digits_none c N (x :: a) 0%Z J).
  - cbn [join] in J. assert (K : In c (a ++ b)) by (apply in_app_iff in J; apply in_app_iff; destruct J as [J|[J|J]]; [tauto|congruence|tauto]).
    destruct (a ++ b) as [|x r]; [reflexivity|]. now rewrite (digits_none c N (x :: r) 0%Z K).
Qed.
Lemma num_of_bad c p : non_digit c -> c <> "d"%char -> c <> "."%char -> In c p -> num_of p = Err ValueError.
Proof.
  intros N D E I. unfold num_of. rewrite (pyfloat_bad c); [reflexivity|assumption|assumption|]. apply in_map_iff. exists c. split; [|assumption]. now rewrite (aeq_neq _ _ D).
Qed.
Lemma one_piece b p ext : plain b -> plain p -> p <> [] -> extension ext ->
  parse_name (b ++ "-"%char :: p ++ "."%char :: ext) = piece (mkpars b None None None) p.
Proof.
  intros (B1 & B2 & B3 & B4) (P1 & P2 & P3 & P4) NE X.
  assert (E : stem (b ++ "-"%char :: p ++ "."%char :: ext) = b ++ "-"%char :: p).
  { replace (b ++ "-"%char :: p ++ "."%char :: ext) with ([] ++ (b ++ "-"%char :: p) ++ "."%char :: ext) by (cbn; now rewrite <- app_assoc).
    apply stem_of; [now left| |destruct b; discriminate|assumption]. rewrite in_app_iff. intros [I|[I|I]]; [contradiction|discriminate|contradiction]. }
  unfold parse_name. rewrite E.
  rewrite (has_not "-"%char (from_dot (b ++ "-"%char :: p))) by (intros I; apply from_dot_in in I; destruct I as [_ I]; apply in_app_iff in I; destruct I as [I|[I|I]]; [contradiction|discriminate|contradiction]).
  rewrite (has_not "_"%char (b ++ "-"%char :: p)) by (rewrite in_app_iff; intros [I|[I|I]]; [contradiction|discriminate|contradiction]).
  rewrite (proj2 (has_iff "-"%char (b ++ "-"%char :: p))) by (apply in_app_iff; right; now left). cbn [andb].
  rewrite split_mid, !split_free by assumption. cbn [app of_pieces pieces]. now destruct (piece _ p).
Qed.
Lemma dotted b x y ext : plain b -> ~ In "/"%char x -> ~ In "/"%char y -> extension ext ->
  parse_name (b ++ "."%char :: x ++ "-"%char :: y ++ "."%char :: ext) = Ok (mkpars b None None None).
Proof.
  intros (B1 & B2 & B3 & B4) HX HY X.
  assert (E : stem (b ++ "."%char :: x ++ "-"%char :: y ++ "."%char :: ext) = b ++ "."%char :: x ++ "-"%char :: y).
  { replace (b ++ "."%char :: x ++ "-"%char :: y ++ "."%char :: ext) with ([] ++ (b ++ "."%char :: x ++ "-"%char :: y) ++ "."%char :: ext) by (cbn; rewrite <- app_assoc; cbn; rewrite <- app_assoc; reflexivity).
    apply stem_of; [now left| |destruct b; discriminate|assumption]. rewrite in_app_iff. cbn. rewrite in_app_iff. cbn. intuition discriminate. }
  unfold parse_name. rewrite E.
  assert (F : from_dot (b ++ "."%char :: x ++ "-"%char :: y) = "."%char :: x ++ "-"%char :: y).
  { clear - B3. induction b as [|c b IH]; [reflexivity|]. cbn [app from_dot]. rewrite aeq_neq by (intros ->; apply B3; now left). apply IH. intros I. apply B3. now right. }
  rewrite F. rewrite (proj2 (has_iff _ _)) by (right; apply in_app_iff; right; now left).
  rewrite split_mid, split_free by assumption. reflexivity.
Qed.
Lemma two_ok fa fb r : parse_two fa fb = Ok r -> exists A B, parse_name fa = Ok A /\ parse_name fb = Ok B /\
  same_entry (p_P A) (p_P B) /\ same_entry (p_D A) (p_D B) /\ same_entry (p_H A) (p_H B) /\
  p_P r = p_P A /\ p_D r = p_D A /\ p_H r = p_H A /\ p_name r <> [] /\
  p_name r = firstn (no_dash (p_name A) (common (p_name A) (p_name B))) (p_name A) /\ 0 < no_dash (p_name A) (common (p_name A) (p_name B)).
Proof.
  unfold parse_two. destruct (parse_name fa) as [A|]; [|discriminate]. destruct (parse_name fb) as [B|]; [|discriminate]. cbn [bind].
  destruct (no_dash (p_name A) (common (p_name A) (p_name B))) as [|i] eqn:E; [discriminate|].
  destruct (_ && _)%bool eqn:G; [|discriminate]. intros [= <-]. apply andb_prop in G. destruct G as [G G3]. apply andb_prop in G. destruct G as [G1 G2].
  exists A, B. rewrite !odec_eqb_iff in *. cbn [p_name p_P p_D p_H]. repeat (split; [first [reflexivity|assumption]|]). split; [|split; [rewrite E; reflexivity|lia]].
  assert (L := no_dash_le (p_name A) (common (p_name A) (p_name B))). destruct (p_name A) as [|c n]; [cbn in E; discriminate|discriminate].
Qed.
Lemma two_name a b : 0 < no_dash a (common a b) -> let n := firstn (no_dash a (common a b)) a in
  (longest_common a b n /\ last n "x"%char <> "-"%char) \/ longest_common a b (n ++ ["-"%char]).
Proof.
  intros H n. unfold n, no_dash in *. clear n. destruct (common_spec a b) as (C & L). destruct (common a b) as [|j] eqn:E; [lia|].
  destruct (nth_error a j) as [c|] eqn:N.
  - assert (F : firstn (S j) a = firstn j a ++ [c]).
    { clear - N. revert a N. induction j as [|j IH]; intros [|x a] N; try discriminate; [injection N as ->; reflexivity|]. cbn in N. cbn [firstn app]. now rewrite <- (IH a N). }
    destruct (aeq c "-") eqn:Q.
    + apply aeq_eq in Q. subst c. right. now rewrite <- F.
    + left. split; [exact C|]. rewrite F, last_last. intros ->. now rewrite aeq_refl in Q.
  - exfalso. apply nth_error_None in N. rewrite firstn_length in L. lia.
Qed.
Lemma two_complete fa fb A B : parse_name fa = Ok A -> parse_name fb = Ok B ->
  same_entry (p_P A) (p_P B) -> same_entry (p_D A) (p_D B) -> same_entry (p_H A) (p_H B) ->
  (exists c x y, p_name A = c :: x /\ p_name B = c :: y /\ c <> "-"%char) -> exists r, parse_two fa fb = Ok r.
Proof.
  intros E1 E2 G1 G2 G3 (c & x & y & N1 & N2 & Hc). unfold parse_two. rewrite E1, E2. cbn [bind]. apply odec_eqb_iff in G1, G2, G3. rewrite G1, G2, G3. cbn [andb].
  assert (P : no_dash (p_name A) (common (p_name A) (p_name B)) <> 0).
  { rewrite N1, N2. cbn [common]. rewrite aeq_refl. unfold no_dash. destruct (common x y) as [|k]; [cbn; rewrite (aeq_neq _ _ Hc); discriminate|].
    destruct (nth_error (c :: x) (S k)); [|discriminate]. destruct (aeq a "-"); discriminate. }
  destruct (no_dash _ _); [contradiction|]. eexists. reflexivity.
Qed.
Lemma two_sym fa fb r : parse_two fa fb = Ok r -> exists r', parse_two fb fa = Ok r' /\ p_name r' = p_name r /\
  same_entry (p_P r) (p_P r') /\ same_entry (p_D r) (p_D r') /\ same_entry (p_H r) (p_H r').
Proof.
  intros H. destruct (two_ok _ _ _ H) as (A & B & E1 & E2 & G1 & G2 & G3 & P1 & P2 & P3 & _ & N & Z). unfold parse_two. rewrite E1, E2. cbn [bind].
  rewrite (common_sym (p_name B)), <- no_dash_sym. rewrite !(proj2 (odec_eqb_iff _ _)) by now apply same_entry_sym. cbn [andb].
  destruct (no_dash (p_name A) (common (p_name A) (p_name B))) as [|i] eqn:E; [lia|]. eexists. split; [reflexivity|]. cbn [p_name p_P p_D p_H].
  rewrite P1, P2, P3. split; [|tauto]. rewrite N. assert (L := no_dash_le (p_name A) (common (p_name A) (p_name B))). rewrite E in L.
  assert (F := firstn_common (p_name A) (p_name B)).
  transitivity (firstn (S i) (firstn (common (p_name A) (p_name B)) (p_name B))); [rewrite firstn_firstn, Nat.min_l by lia; reflexivity|].
  rewrite <- F, firstn_firstn, Nat.min_l by lia. reflexivity.
Qed.
