(** Lemmas about the names of the model book. *)
From Verif Require Import Factory_Model Factory_Spec Factory_Proofs Factory_Proofs2 TypeName_Model TypeName_Spec TypeName_Proofs Book_Model Book_Spec.
Local Open Scope list_scope.

Lemma miss f p ps n : pre f = p :: ps -> prefixb p n = false -> construct f n = Err ValueError.
Proof. intros P E. apply construct_none. rewrite P, match_first, E. reflexivity. Qed.
Lemma one f p v g w : pre f = [p; []] -> vars f = [v] -> dget (options f) v = Some (OFun g) -> (forall a, ctor f a = Ok tt) ->
  construct f (p ++ w) = do x <- g w; Ok (dupdate [(arg_name f v, x)] (fixed f)).
Proof.
  intros P V O C. unfold construct, match_pars. rewrite P, match_head, endmatch, V. cbn [collect]. unfold convert. rewrite O.
  destruct (g w); cbn [bind]; [|reflexivity]. cbn [dput]. rewrite C. reflexivity.
Qed.
Lemma onesep f p q v g w : pre f = [p; q] -> q <> [] -> simple_sep q -> ~ contains_text q w -> vars f = [v] -> dget (options f) v = Some (OFun g) -> (forall a, ctor f a = Ok tt) ->
  construct f (p ++ w ++ q) = do x <- g w; Ok (dupdate [(arg_name f v, x)] (fixed f)).
Proof.
  intros P N S Q V O C. unfold construct, match_pars. rewrite P, match_head, V. replace (w ++ q) with (w ++ q ++ []) by now rewrite app_nil_r.
  rewrite onematch by assumption. cbn [match_pre collect]. unfold convert. rewrite O.
  destruct (g w); cbn [bind]; [|reflexivity]. cbn [dput]. rewrite C. reflexivity.
Qed.
Lemma two f p q v1 v2 g1 g2 w1 w2 : pre f = [p; q; []] -> q <> [] -> simple_sep q -> ~ contains_text q w1 -> vars f = [v1; v2] ->
  dget (options f) v1 = Some (OFun g1) -> dget (options f) v2 = Some (OFun g2) -> (forall a, ctor f a = Ok tt) ->
  construct f (p ++ w1 ++ q ++ w2) = do x <- g1 w1; do y <- g2 w2; Ok (dupdate (dput [(arg_name f v1, x)] (arg_name f v2) y) (fixed f)).
Proof.
  intros P N S Q V O1 O2 C. unfold construct, match_pars. rewrite P, match_head, V. rewrite onematch by assumption. rewrite endmatch.
  cbn [collect]. unfold convert. rewrite O1. destruct (g1 w1); cbn [bind]; [|reflexivity]. cbn [collect]. unfold convert. rewrite O2.
  destruct (g2 w2); cbn [bind]; [|reflexivity]. cbn [dput]. rewrite C. reflexivity.
Qed.
Lemma nosep f p q ps w : pre f = p :: q :: ps -> q <> [] -> (forall i, ~ occurs q w i) -> construct f (p ++ w) = Err ValueError.
Proof. intros P N O. apply construct_none. rewrite P, match_head. now apply nomatch. Qed.

Lemma dig_nonempty ds : digit_list ds -> chars ds <> [].
Proof. intros (N & _) E. destruct ds; [contradiction|discriminate]. Qed.
Lemma dig_float ds : digit_list ds -> pyfloat (chars ds) = Ok (VDec (num ds) 0).
Proof.
  intros (N & F). unfold pyfloat. rewrite split_free by (apply chars_not_in; [assumption|left; cbn; lia]).
  assert (E := digits_chars ds 0%Z F). destruct (chars ds) as [|c l] eqn:C; [destruct ds; [contradiction|discriminate]|]. rewrite E. reflexivity.
Qed.
Lemma dig_int ds : digit_list ds -> pyint (chars ds) = Ok (VDec (num ds) 0).
Proof.
  intros (N & F). unfold pyint. assert (E := digits_chars ds 0%Z F). destruct (chars ds) as [|c l] eqn:C; [destruct ds; [contradiction|discriminate]|]. rewrite E. reflexivity.
Qed.
Lemma bad_int c s : non_digit c -> In c s -> pyint s = Err ValueError.
Proof. intros N I. unfold pyint. destruct s; [destruct I|]. now rewrite (digits_none c N _ 0%Z I). Qed.
Lemma num_nonneg ds : (0 <= num ds)%Z.
Proof.
  unfold num. assert (H : forall l a, (0 <= a)%Z -> (0 <= fold_left (fun a d => (10 * a + Z.of_nat d)%Z) l a)%Z); [|apply H; lia].
  induction l as [|d l IH]; intros a A; cbn [fold_left]; [assumption|]. apply IH. lia.
Qed.
Lemma n2n_square ds n : digit_list ds -> square_of n ds -> n2n (chars ds) = Ok (VDec n 0).
Proof.
  intros D (N & E). unfold n2n. rewrite dig_float, E by assumption. change (10 ^ Z.of_nat 0)%Z with 1%Z. rewrite Z.div_1_r, Z.sqrt_square by assumption.
  rewrite Z.mul_1_r, Z.eqb_refl. reflexivity.
Qed.
Lemma n2n_other ds : digit_list ds -> (forall n, ~ square_of n ds) -> n2n (chars ds) = Err PlainException.
Proof.
  intros D H. unfold n2n. rewrite dig_float by assumption. change (10 ^ Z.of_nat 0)%Z with 1%Z. rewrite Z.div_1_r, Z.mul_1_r.
  destruct (Z.eqb_spec (Z.sqrt (num ds) * Z.sqrt (num ds)) (num ds)) as [E|]; [|reflexivity]. exfalso.
  apply (H (Z.sqrt (num ds))). split; [apply Z.sqrt_nonneg|congruence].
Qed.
Lemma n2n_bad c s : non_digit c -> c <> "."%char -> In c s -> n2n s = Err ValueError.
Proof. intros N D I. unfold n2n. now rewrite (pyfloat_bad c). Qed.

(** endings *)
Lemma ends_app t x : ends t (x ++ t) = true.
Proof. unfold ends. rewrite rev_app_distr. apply prefixb_iff. eauto. Qed.
Lemma cut_app t x n : List.length t = n -> cut n (x ++ t) = x.
Proof. intros <-. unfold cut. rewrite app_length, Nat.add_sub. apply first_app. Qed.
Lemma ends_last a t x b : a <> b -> ends (t ++ [a]) (x ++ [b]) = false.
Proof. intros N. unfold ends. rewrite !rev_app_distr. cbn. now rewrite aeq_neq. Qed.
Lemma number_float x : number_ok x -> pyfloat (number_text "."%char x) = Ok (VDec (fst (number_dec x)) (snd (number_dec x))).
Proof.
  intros ((Hne & Ha) & Hf). unfold number_text, number_dec. destruct x as [a [f|]]; cbn [fst snd] in *.
  - unfold pyfloat. rewrite split_mid, (split_free "."%char (chars a)), (split_free "."%char (chars f)) by (apply chars_not_in; [assumption|left; cbn; lia]).
    cbn [app]. rewrite <- chars_app, digits_chars by (apply Forall_app; now split).
    assert (L : length (chars f) = length f) by (unfold chars; apply map_length). rewrite L. destruct a; [contradiction|]. reflexivity.
  - rewrite app_nil_r. apply dig_float. now split.
Qed.
Lemma todt_time x u : number_ok x -> todt (time_text x u) = Ok (minutes x u).
Proof.
  intros H. assert (F := number_float x H). unfold todt, time_text, minutes. set (w := number_text "."%char x) in *.
  assert (N : forall t, t <> [] -> match w ++ t with [] => Err IndexError | _ :: _ =>
     if ends (lit "s") (w ++ t) then match pyfloat (cut 1 (w ++ t)) with Ok (VDec m e) => Ok (VQuot m e 60) | Ok _ => Err TypeError | Err e => Err e end
     else if ends (lit "min") (w ++ t) then pyfloat (cut 3 (w ++ t)) else Err NotImplementedError end =
     if ends (lit "s") (w ++ t) then match pyfloat (cut 1 (w ++ t)) with Ok (VDec m e) => Ok (VQuot m e 60) | Ok _ => Err TypeError | Err e => Err e end
     else if ends (lit "min") (w ++ t) then pyfloat (cut 3 (w ++ t)) else Err NotImplementedError).
  { intros t T. destruct (w ++ t) eqn:E; [|reflexivity]. apply app_eq_nil in E. tauto. }
  destruct u.
  - rewrite N by discriminate. rewrite ends_app, cut_app by reflexivity. rewrite F. reflexivity.
  - rewrite N by discriminate. assert (E : ends (lit "s") (w ++ lit "min") = false); [|rewrite E, ends_app, (cut_app (lit "min")) by reflexivity; exact F].
    change (lit "min") with (lit "mi" ++ ["n"%char]). rewrite app_assoc. apply (ends_last "s"%char [] (w ++ lit "mi") "n"%char). discriminate.
Qed.
Lemma tokm_length x u : number_ok x -> tokm (length_text x u) = Ok (kilometres x u).
Proof.
  intros H. assert (F := number_float x H). unfold tokm, length_text, kilometres.
  assert (L : last (number_text "."%char x) " "%char <> "k"%char) by (apply num_char_neq; [exact H|right; cbn; lia|discriminate]).
  assert (Ne := number_ne "."%char x H). set (w := number_text "."%char x) in *.
  assert (E0 : forall t, t <> [] -> exists a r, w ++ t = a :: r).
  { intros t T. destruct (w ++ t) eqn:E; [apply app_eq_nil in E; tauto|eauto]. }
  destruct u.
  - destruct (E0 (lit "m")) as (a & r & E); [discriminate|]. rewrite E. rewrite <- E.
    replace (ends (lit "km") (w ++ lit "m")) with false.
    + rewrite ends_app, (cut_app (lit "m")) by reflexivity. rewrite F. reflexivity.
    + symmetry. unfold ends. rewrite rev_app_distr. destruct (rev_last_cons w " "%char Ne) as (q & Q). rewrite Q. cbn -[last aeq]. rewrite (aeq_neq "k"%char); [reflexivity|congruence].
  - destruct (E0 (lit "km")) as (a & r & E); [discriminate|]. rewrite E. rewrite <- E.
    rewrite ends_app, (cut_app (lit "km")) by reflexivity. exact F.
Qed.
Lemma todt_unit x c : c <> "s"%char -> c <> "n"%char -> todt (x ++ [c]) = Err NotImplementedError.
Proof.
  intros A B. unfold todt. destruct (x ++ [c]) eqn:E; [now apply app_eq_nil in E as (_ & E)|]. rewrite <- E.
  assert (E1 : ends (lit "s") (x ++ [c]) = false) by (apply (ends_last "s"%char [] x c); congruence).
  assert (E2 : ends (lit "min") (x ++ [c]) = false) by (apply (ends_last "n"%char (lit "mi") x c); congruence). now rewrite E1, E2.
Qed.
Lemma tokm_unit x c : c <> "m"%char -> tokm (x ++ [c]) = Err NotImplementedError.
Proof.
  intros A. unfold tokm. destruct (x ++ [c]) eqn:E; [now apply app_eq_nil in E as (_ & E)|]. rewrite <- E.
  assert (E1 : ends (lit "km") (x ++ [c]) = false) by (apply (ends_last "m"%char (lit "k") x c); congruence).
  assert (E2 : ends (lit "m") (x ++ [c]) = false) by (apply (ends_last "m"%char [] x c); congruence). now rewrite E1, E2.
Qed.

(** numbers of kTI names *)
Lemma knum_short x : short_ok x -> knum (number_text "."%char x) = Ok (short_value x).
Proof.
  intros (((Ne & F) & G) & S). destruct x as [ds [fr|]]; cbn [fst snd] in *.
  - destruct S as [S|S]; [discriminate|]. destruct ds as [|d ds]; [contradiction|]. cbn [hd] in S.
    assert (X : number_ok (d :: ds, Some fr)) by (split; [split; [discriminate|assumption]|assumption]).
    assert (E := number_float _ X). unfold knum. unfold number_text in *. cbn [fst snd chars map app] in *.
    rewrite aeq_neq. + rewrite E. destruct d; [contradiction|reflexivity].
    + apply Forall_inv in F. do 10 (destruct d as [|d]; [try contradiction; discriminate|]). lia.
  - unfold number_text. cbn [fst snd]. rewrite app_nil_r. rewrite knum_chars by (split; assumption). destruct ds as [|[|d] ds]; [contradiction|reflexivity|reflexivity].
Qed.
Lemma knum_bad c s : non_digit c -> c <> "."%char -> In c s -> knum s = Err ValueError.
Proof.
  intros N D I. unfold knum. destruct s as [|a r]; [destruct I|]. destruct (aeq a "0"%char) eqn:E.
  - apply aeq_eq in E. subst a. apply (pyfloat_bad c); [assumption|assumption|]. destruct I as [<-|I]; [destruct N; cbn in *; lia|]. apply in_app_iff. now right.
  - now apply (pyfloat_bad c).
Qed.
Lemma knum_zero_dot f : knum (lit "0." ++ f) = Err ValueError.
Proof.
  unfold knum. change (lit "0." ++ f) with ("0"%char :: "."%char :: f). change (aeq "0" "0") with true. cbn iota.
  change (lit "0." ++ "."%char :: f) with (("0"%char :: "."%char :: []) ++ "."%char :: f). unfold pyfloat. rewrite split_mid.
  change (split "."%char ["0"%char; "."%char]) with [["0"%char]; []]. destruct (split "."%char f) as [|a l] eqn:E; [now apply split_ne in E|]. reflexivity.
Qed.
Lemma number_text_in x c : number_ok x -> In c (number_text "."%char x) -> c = "."%char \/ 48 <= nat_of_ascii c <= 57.
Proof. apply number_text_char. Qed.
Lemma number_no_sep x : number_ok x -> ~ In "_"%char (number_text "."%char x).
Proof. intros H I. apply number_text_in in I; [|assumption]. cbn in I. destruct I as [I|I]; [discriminate|lia]. Qed.
Lemma no_occ c s : ~ In c s -> forall i, ~ occurs [c] s i.
Proof. intros N i (a & b & E & _). apply N. rewrite E. apply in_app_iff. right. now left. Qed.
Lemma no_text c s : ~ In c s -> ~ contains_text [c] s.
Proof. intros N (i & O). now apply (no_occ c s N i). Qed.
Lemma no_text_hd c p s : ~ In c s -> ~ contains_text (c :: p) s.
Proof. intros N (i & a & b & E & _). apply N. rewrite E. apply in_app_iff. right. now left. Qed.

(** what a lookup creates *)
Lemma created_found d k kw : created d k = Ok kw -> snd (getitem d k) = Ok (next d) /\ (store d = true -> dget (items (fst (getitem d k))) k = Some (next d)).
Proof.
  unfold created, getitem. destruct (dget (items d) k); [discriminate|]. destruct (first_construct (facs d) k) as [(f, a)|e]; [|discriminate].
  intros _. cbn. split; [reflexivity|]. intros ->. now rewrite dget_dput, seqb_refl.
Qed.
Lemma created_fails d k e : dget (items d) k = None -> created d k = Err e -> getitem d k = (d, Err e).
Proof. unfold created, getitem. intros ->. destruct (first_construct (facs d) k) as [(f, a)|e']; [discriminate|]. now intros [= ->]. Qed.

(** the factories in the order of the search *)
Lemma rotor_facs : facs rotor_models =
    [ fac "GridRotor" "grid<n2>" [(lit "reduce", VBool true)] [(lit "n2", lit "n")] [(lit "n2", OFun n2n)];
      fac "GridRotor" "grid<n2>_raw" [(lit "reduce", VBool false)] [(lit "n2", lit "n")] [(lit "n2", OFun n2n)];
      fac "LevelRotor" "level<n>" [(lit "reduce", VBool true)] [] [(lit "n", OFun pyint)];
      fac "LevelRotor" "level<n>_raw" [(lit "reduce", VBool false)] [] [(lit "n", OFun pyint)] ].
Proof. reflexivity. Qed.
Lemma partial_facs : facs partial_wakes =
    [ fac "PartialAxiwake" "axiwake<n>" [] [] [(lit "n", OFun pyint)];
      fac "PartialGrid" "grid<n2>" [] [(lit "n2", lit "n")] [(lit "n2", OFun n2n)] ].
Proof. reflexivity. Qed.
Lemma kti_facs : facs turbine_models =
    [ fac "kTI" "kTI_<kTI>_<kb>" [] [] [(lit "kTI", OFun knum); (lit "kb", OFun knum)];
      fac "kTI" "kTI_<kTI>" [] [] [(lit "kTI", OFun knum)];
      fac "kTI" "kTI_amb_<kTI>_<kb>" [(lit "ti_var", VStr (lit "AMB_TI"))] [] [(lit "kTI", OFun knum); (lit "kb", OFun knum)];
      fac "kTI" "kTI_amb_<kTI>" [(lit "ti_var", VStr (lit "AMB_TI"))] [] [(lit "kTI", OFun knum)] ].
Proof. reflexivity. Qed.
Lemma frame_facs : exists yawed, List.length yawed = 6 /\ Forall (fun f => exists p ps, pre f = (lit "yawed" ++ p) :: ps) yawed /\ facs wake_frames = yawed ++
    [ fac "Streamlines2D" "streamlines_<step>" [] [] [(lit "step", OFun pyfloat)];
      fac "Streamlines2D" "streamlines_<step>" [] [] [(lit "step", OFun pyfloat)];
      fac "Timelines" "timelines_<dt>" [] [(lit "dt", lit "dt_min")] [(lit "dt", OFun todt)];
      fac "DynamicWakes" "dyn_wakes_<length>" [] [(lit "length", lit "max_length_km")] [(lit "length", OFun tokm)];
      fac "SeqDynamicWakes" "seq_dyn_wakes_<dt>" [] [(lit "dt", lit "dt_min")] [(lit "dt", OFun todt)] ].
Proof.
  exists (wakek_factories [lit "yawed"] [] [] [(lit "class", VStr (lit "YawedWakes"))] (fun _ => Ok tt)). split; [reflexivity|split; [|reflexivity]].
  repeat constructor; eexists _, _; cbn; reflexivity.
Qed.
Lemma skip_all l l' n : Forall (fun f => construct f n = Err ValueError) l -> first_construct (l ++ l') n = first_construct l' n.
Proof. intros H. induction H; [reflexivity|]. cbn [app]. now rewrite first_skip. Qed.
Lemma skip_yawed l l' n : prefixb (lit "yawed") n = false -> Forall (fun f => exists p ps, pre f = (lit "yawed" ++ p) :: ps) l -> first_construct (l ++ l') n = first_construct l' n.
Proof.
  intros N H. apply skip_all. eapply Forall_impl; [|exact H]. intros f (p & ps & E). eapply miss; [exact E|].
  destruct (prefixb (lit "yawed" ++ p) n) eqn:P; [|reflexivity]. apply prefixb_iff in P as (b & ->). rewrite <- N. symmetry. apply prefixb_iff.
  exists (p ++ b). now rewrite app_assoc.
Qed.
Lemma raw_not_in ds : digit_list ds -> ~ contains_text (lit "_raw") (chars ds).
Proof. intros (_ & F). apply no_text_hd. apply chars_not_in; [exact F|]. right. cbn. lia. Qed.

(** tactics of Book_Props *)
Ltac made := eexists; split; [reflexivity|split; [reflexivity|]];
  let k := fresh "k" in let K := fresh "K" in intros k K;
  match goal with |- dget ?a k = dget ?b k => let a' := eval vm_compute in a in let b' := eval vm_compute in b in change (dget a' k = dget b' k) end;
  cbn [dget]; repeat match goal with |- context[seqb ?a k] => destruct (seqb a k) eqn:?; try reflexivity end;
  try (exfalso; apply K; symmetry; now apply seqb_eq).
Ltac raw_char := unfold non_digit; right; cbn; lia.
Ltac raw_in := apply in_app_iff; right; cbn; tauto.
Ltac raw_sep := cbn; intuition discriminate.
Ltac raw_text := apply raw_not_in; assumption.
