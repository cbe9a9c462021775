From Verif Require Import Factory_Model Factory_Spec Factory_Proofs.
Local Open Scope list_scope.
Local Notation length := List.length.

(** digits *)
Lemma digit_char d : d < 10 -> digit (ascii_of_nat (48 + d)) = Some (Z.of_nat d).
Proof. intros H. do 10 (destruct d as [|d]; [reflexivity|]). lia. Qed.
Lemma digits_chars : forall ds acc, Forall (fun d => d < 10) ds -> digits acc (chars ds) = Some (fold_left (fun a d => (10 * a + Z.of_nat d)%Z) ds acc).
Proof.
  induction ds as [|d ds IH]; intros acc H; [reflexivity|]. inversion H; subst. cbn [chars map digits]. rewrite digit_char by assumption. now apply IH.
Qed.
Lemma char_special d c : d < 10 -> (nat_of_ascii c < 48 \/ 57 < nat_of_ascii c) -> ascii_of_nat (48 + d) <> c.
Proof.
  intros H G E. subst c. rewrite nat_ascii_embedding in G by lia. lia.
Qed.
Lemma chars_not_in ds c : Forall (fun d => d < 10) ds -> (nat_of_ascii c < 48 \/ 57 < nat_of_ascii c) -> ~ In c (chars ds).
Proof.
  intros H G I. apply in_map_iff in I. destruct I as (d & E & I). rewrite Forall_forall in H. now apply (char_special d c (H d I) G).
Qed.
Lemma split_free c s : ~ In c s -> split c s = [s].
Proof.
  induction s as [|a s IH]; intros N; [reflexivity|]. cbn. destruct (aeq a c) eqn:E; [apply aeq_eq in E; subst; exfalso; apply N; now left|].
  rewrite IH; [reflexivity|]. intros I. apply N. now right.
Qed.
Lemma knum_chars ds : digit_list ds -> knum (chars ds) = Ok (number_value ds).
Proof.
  intros (N & F). destruct ds as [|d r]; [congruence|]. inversion F as [|? ? Hd Hr]; subst. destruct d as [|d].
  - cbn [chars map knum]. change (aeq (ascii_of_nat (48 + 0)) "0"%char) with true. cbn iota. change (map _ r) with (chars r).
    unfold pyfloat. cbn [lit list_ascii_of_string app split]. change (aeq "0" ".") with false. change (aeq "." ".") with true. cbn iota.
    rewrite split_free by (apply chars_not_in; [assumption|left; cbn; lia]). cbn [app].
    change ("0"%char :: chars r) with (chars (0 :: r)). rewrite digits_chars by (constructor; [lia|assumption]).
    cbn [number_value fold_left chars map]. unfold chars. rewrite map_length. reflexivity.
  - assert (E : knum (chars (S d :: r)) = pyfloat (chars (S d :: r))).
    { cbn [chars map knum]. replace (aeq _ "0"%char) with false; [reflexivity|]. symmetry. unfold aeq. apply Ascii.eqb_neq. intros E.
      apply (f_equal nat_of_ascii) in E. rewrite nat_ascii_embedding in E by lia. cbn in E. lia. }
    rewrite E. unfold pyfloat. rewrite split_free by (apply chars_not_in; [assumption|left; cbn; lia]).
    pose proof (digits_chars (S d :: r) 0%Z F) as D. destruct (chars (S d :: r)) as [|x y] eqn:Q; [discriminate|]. rewrite D. reflexivity.
Qed.

(** texts that do not occur *)
Lemma nocc_in c p t : ~ In c t -> forall i, ~ occurs (c :: p) t i.
Proof. intros N i (a & b & E & _). apply N. rewrite E. apply in_or_app. right. now left. Qed.
Lemma nocc_head c p t : prefixb (c :: p) (c :: t) = false -> ~ In c t -> forall i, ~ occurs (c :: p) (c :: t) i.
Proof. intros H N [|i]; [rewrite occurs_0; congruence|]. intros O. apply (proj1 (occurs_S _ _ _ _)) in O. now apply (nocc_in c p t N) in O. Qed.
Lemma nocc_app c p s t : ~ In c p -> (forall i, ~ occurs (c :: p) s i) -> (forall i, ~ occurs (c :: p) (c :: t) i) ->
  forall i, ~ occurs (c :: p) (s ++ c :: t) i.
Proof.
  intros Np. revert t. induction s as [|x s IH]; intros t Hs Ht i O; [now apply (Ht i)|]. destruct i as [|i].
  - assert (Q : prefixb (c :: p) (x :: s) = false).
    { destruct (prefixb (c :: p) (x :: s)) eqn:E; [|reflexivity]. exfalso. now apply (Hs 0), occurs_0. }
    apply occurs_0 in O. cbn [app prefixb] in O, Q. destruct (aeq c x); [|discriminate]. cbn [andb] in *. clear IH Hs Ht x.
    revert s O Q. induction p as [|a p IHp]; intros s O Q; [discriminate|]. destruct s as [|y s].
    + cbn in O. apply andb_prop in O. destruct O as (O & _). apply aeq_eq in O. subst. apply Np. now left.
    + cbn in O, Q. destruct (aeq a y); [|discriminate]. apply (IHp (fun I => Np (or_intror I)) s O Q).
  - apply (proj1 (occurs_S _ _ _ _)) in O. revert O. apply IH; [|assumption]. intros j Oj. apply (Hs (S j)). now apply occurs_S.
Qed.
Lemma contains_shorter p q s : ~ contains_text p s -> forall i, ~ occurs (p ++ q) s i.
Proof. intros N i (a & b & E & L). apply N. exists i, a, (q ++ b). rewrite E, <- app_assoc. tauto. Qed.

Lemma construct_none f name : match_pre true (pre f) name = None -> construct f name = Err ValueError.
Proof. unfold construct, match_pars. now intros ->. Qed.
Lemma match_head p ps rest : match_pre true (p :: ps) (p ++ rest) = match_pre false ps rest.
Proof.
  rewrite match_first. replace (prefixb p (p ++ rest)) with true by (symmetry; apply prefixb_iff; eauto).
  rewrite skipn_app, skipn_all, Nat.sub_diag. reflexivity.
Qed.
Lemma nomatch p ps rest : p <> [] -> (forall i, ~ occurs p rest i) -> match_pre false (p :: ps) rest = None.
Proof. intros N H. rewrite match_cons by assumption. unfold match_step. now rewrite (proj2 (find_none rest p) H). Qed.
Lemma onematch p ps w rest : p <> [] -> simple_sep p -> ~ contains_text p w ->
  match_pre false (p :: ps) (w ++ p ++ rest) = match match_pre false ps rest with None => None | Some ws => Some (w :: ws) end.
Proof.
  intros N S C. rewrite match_cons by assumption. unfold match_step. rewrite find_separated; [|assumption|now apply simple_ok].
  cbn [andb]. rewrite skip_app. now rewrite first_app.
Qed.
Lemma endmatch rest : match_pre false [[]] rest = Some [rest].
Proof. reflexivity. Qed.

Section Names.
Variables (b s : str) (conv : str -> result value) (sv : value) (kw : dict value) (c : dict value -> result unit).
Hypothesis Hc : forall a, c a = Ok tt.
Hypothesis Hconv : conv s = Ok sv.
Hypothesis Nk : ~ contains_text (lit "_k") s.
Hypothesis Na : ~ contains_text (lit "_ambka") s.
Let names := [lit "superposition"; lit "k"; lit "ka"; lit "kb"; lit "ti_var"].
Hypothesis Hkw : forall x, In x names -> ~ In x (map fst kw).
Let sup := lit "superposition".
Let fs := wakek_factories [b; []] [sup] [(sup, OFun conv)] kw c.

Lemma put_end a : dput kw (lit "ti_var") a = kw ++ [(lit "ti_var", a)].
Proof.
  assert (H : ~ In (lit "ti_var") (map fst kw)) by (apply Hkw; cbn; tauto). revert H. clear Hkw. induction kw as [|(k, x) l IH]; intros H; [reflexivity|].
  cbn [dput]. rewrite seqb_neq by (intros E; apply H; now left). cbn [app]. f_equal. apply IH. intros I. apply H. now right.
Qed.
Lemma get_arg d a x : In x [lit "superposition"; lit "k"; lit "ka"; lit "kb"] -> dget (dupdate d (dput kw (lit "ti_var") a)) x = dget d x.
Proof.
  intros H. apply dget_dupdate. rewrite put_end, map_app. intros I. apply in_app_or in I. destruct I as [I|[I|[]]].
  - revert I. apply Hkw. cbn in H |- *. tauto.
  - cbn in I. subst x. destruct H as [E|[E|[E|[E|[]]]]]; discriminate.
Qed.
Lemma get_ti d a : dget (dupdate d (dput kw (lit "ti_var") a)) (lit "ti_var") = Some a.
Proof. rewrite put_end. unfold dupdate. rewrite fold_left_app. cbn [fold_left fst snd]. now rewrite dget_dput, seqb_refl. Qed.

Lemma success f ws kws n : match_pre true (pre f) n = Some ws -> collect f (vars f) ws [] = Ok kws -> ctor f = c -> construct f n = Ok (dupdate kws (fixed f)).
Proof. intros M K E. unfold construct, match_pars. rewrite M. rewrite K. cbn [bind]. rewrite E, Hc. reflexivity. Qed.
Lemma first_skip f l n : construct f n = Err ValueError -> first_construct (f :: l) n = first_construct l n.
Proof. intros E. cbn [first_construct]. now rewrite E. Qed.
Lemma first_take f l n a : construct f n = Ok a -> first_construct (f :: l) n = Ok (f, a).
Proof. intros E. cbn [first_construct]. now rewrite E. Qed.

Lemma names_ok g : growth_ok g -> exists f args, first_construct fs (b ++ s ++ growth_text g) = Ok (f, args) /\
  dget args (lit "superposition") = Some sv /\
  (dget args (lit "k"), dget args (lit "ka"), dget args (lit "kb"), dget args (lit "ti_var")) =
  (let '(k, ka, kb, ti) := growth_args g in (k, ka, kb, Some (VStr ti))).
Proof.
  assert (S1 : forall i, ~ occurs (lit "_ka") s i) by (intros i; now apply (contains_shorter (lit "_k") (lit "a"))).
  assert (S2 : forall i, ~ occurs (lit "_ambka") s i) by (intros i O; apply Na; now exists i).
  assert (S3 : forall i, ~ occurs (lit "_k") s i) by (intros i O; apply Nk; now exists i).
  assert (S1' : ~ contains_text (lit "_ka") s) by (intros (i & O); now apply S1 in O).
  assert (D : forall ds, digit_list ds -> ~ In "_"%char (chars ds)) by (intros ds (_ & F); apply chars_not_in; [assumption|right; cbn; lia]).
  assert (DK : forall ds p, digit_list ds -> forall i, ~ occurs ("_"%char :: p) (chars ds) i) by (intros ds p Hd; apply nocc_in; now apply D).
  assert (DC : forall ds p, digit_list ds -> ~ contains_text ("_"%char :: p) (chars ds)) by (intros ds p Hd (i & O); now apply (DK ds p Hd) in O).
  assert (DL : forall q ds, digit_list ds -> ~ In "_"%char q -> ~ In "_"%char (q ++ chars ds))
    by (intros q ds Hd Hq I; apply in_app_or in I; destruct I as [I|I]; [now apply Hq|now apply (D ds Hd)]).
  (* "_k" x does not contain "_ka" *)
  assert (KA : forall ds, digit_list ds -> prefixb (lit "_ka") (lit "_k" ++ chars ds) = false).
  { intros [|d ds] (H1 & H2); [congruence|]. inversion H2; subst. cbn [lit list_ascii_of_string app prefixb chars map]. rewrite !aeq_refl. cbn [andb].
    destruct (aeq "a" _) eqn:E; [|reflexivity]. apply aeq_eq in E. symmetry in E. exfalso. revert E. apply char_special; [assumption|right; cbn; lia]. }
  assert (nu : forall l, ~ In "_"%char (lit l) <-> existsb (aeq "_"%char) (lit l) = false).
  { intros l. induction (lit l) as [|z t IHt]; cbn [existsb]; [cbn; tauto|]. destruct (aeq "_" z) eqn:E; cbn [orb].
    - apply aeq_eq in E. split; [intros H; exfalso; apply H; now left|intros X; discriminate X].
    - rewrite <- IHt. split; [intros H G; apply H; now right|]. intros H [G|G]; [subst; rewrite aeq_refl in E; discriminate|now apply H]. }
  assert (cons_app : forall l (t : str), (lit (String "_" l)) ++ t = "_"%char :: lit l ++ t) by reflexivity.
  unfold fs, wakek_factories. cbv zeta. Opaque knum chars.
  intros Hg. destruct g as [|x|x|x y|x|x y]; cbn [growth_ok growth_text growth_args] in Hg |- *.
  - rewrite app_nil_r.
    do 5 (rewrite first_skip; [|apply construct_none; cbn [kfac pre app_last removelast last map fst app]; rewrite match_head; now apply nomatch]).
    do 2 eexists. split.
    { apply first_take. eapply success; [cbn [kfac pre]; rewrite match_head; apply endmatch| |reflexivity]. cbn. rewrite Hconv. reflexivity. }
    cbn [kfac fixed]. rewrite !get_arg, get_ti by (cbn; tauto). split; reflexivity.
  - assert (Q1 : forall i, ~ occurs (lit "_ka") (s ++ lit "_k" ++ chars x) i).
    { apply nocc_app; [now apply (nu "ka"%string)|assumption|]. apply nocc_head; [now apply KA|]. apply (DL (lit "k")); [assumption|now apply nu]. }
    assert (Q2 : forall i, ~ occurs (lit "_ambka") (s ++ lit "_k" ++ chars x) i).
    { apply nocc_app; [now apply (nu "ambka"%string)|assumption|]. apply nocc_head; [reflexivity|]. apply (DL (lit "k")); [assumption|now apply nu]. }
    do 4 (rewrite first_skip; [|apply construct_none; cbn [kfac pre app_last removelast last map fst app]; rewrite match_head; now apply nomatch]).
    do 2 eexists. split.
    { apply first_take. eapply success; [cbn [kfac pre app_last removelast last map fst app]; rewrite match_head| |reflexivity].
      - rewrite onematch, endmatch; [reflexivity|discriminate|now apply (nu "k"%string)|assumption].
      - cbn. rewrite Hconv. cbn. rewrite knum_chars by assumption. reflexivity. }
    cbn [kfac fixed]. rewrite !get_arg, get_ti by (cbn; tauto). split; reflexivity.
  - assert (Q2 : forall i, ~ occurs (lit "_ambka") (s ++ lit "_ka" ++ chars x) i).
    { apply nocc_app; [now apply (nu "ambka"%string)|assumption|]. apply nocc_head; [reflexivity|]. apply (DL (lit "ka")); [assumption|now apply nu]. }
    rewrite first_skip; [|apply construct_none; cbn [kfac pre app_last removelast last map fst app]; rewrite match_head].
    2: { rewrite onematch; [|discriminate|now apply (nu "ka"%string)|assumption]. rewrite nomatch; [reflexivity|discriminate|now apply (DK x (lit "kb"))]. }
    rewrite first_skip; [|apply construct_none; cbn [kfac pre app_last removelast last map fst app]; rewrite match_head; now apply nomatch].
    do 2 eexists. split.
    { apply first_take. eapply success; [cbn [kfac pre app_last removelast last map fst app]; rewrite match_head| |reflexivity].
      - rewrite onematch, endmatch; [reflexivity|discriminate|now apply (nu "ka"%string)|assumption].
      - cbn. rewrite Hconv. cbn. rewrite knum_chars by assumption. reflexivity. }
    cbn [kfac fixed]. rewrite !get_arg, get_ti by (cbn; tauto). split; reflexivity.
  - destruct Hg as (Hx & Hy). do 2 eexists. split.
    { apply first_take. eapply success; [cbn [kfac pre app_last removelast last map fst app]; rewrite match_head| |reflexivity].
      - rewrite onematch; [|discriminate|now apply (nu "ka"%string)|assumption]. rewrite onematch, endmatch; [reflexivity|discriminate|now apply (nu "kb"%string)|now apply (DC x (lit "kb"))].
      - cbn. rewrite Hconv. cbn. rewrite knum_chars by assumption. cbn. rewrite knum_chars by assumption. reflexivity. }
    cbn [kfac fixed]. rewrite !get_arg, get_ti by (cbn; tauto). split; reflexivity.
  - assert (Q1 : forall i, ~ occurs (lit "_ka") (s ++ lit "_ambka" ++ chars x) i).
    { apply nocc_app; [now apply (nu "ka"%string)|assumption|]. apply nocc_head; [reflexivity|]. apply (DL (lit "ambka")); [assumption|now apply nu]. }
    rewrite first_skip; [|apply construct_none; cbn [kfac pre app_last removelast last map fst app]; rewrite match_head; now apply nomatch].
    rewrite first_skip; [|apply construct_none; cbn [kfac pre app_last removelast last map fst app]; rewrite match_head].
    2: { rewrite onematch; [|discriminate|now apply (nu "ambka"%string)|assumption]. rewrite nomatch; [reflexivity|discriminate|now apply (DK x (lit "kb"))]. }
    rewrite first_skip; [|apply construct_none; cbn [kfac pre app_last removelast last map fst app]; rewrite match_head; now apply nomatch].
    do 2 eexists. split.
    { apply first_take. eapply success; [cbn [kfac pre app_last removelast last map fst app]; rewrite match_head| |reflexivity].
      - rewrite onematch, endmatch; [reflexivity|discriminate|now apply (nu "ambka"%string)|assumption].
      - cbn. rewrite Hconv. cbn. rewrite knum_chars by assumption. reflexivity. }
    cbn [kfac fixed]. rewrite !get_arg, get_ti by (cbn; tauto). split; reflexivity.
  - destruct Hg as (Hx & Hy).
    assert (Q1 : forall i, ~ occurs (lit "_ka") (s ++ lit "_ambka" ++ chars x ++ lit "_kb" ++ chars y) i).
    { apply nocc_app; [now apply (nu "ka"%string)|assumption|].
      apply (nocc_app _ _ ("_"%char :: lit "ambka" ++ chars x) (lit "kb" ++ chars y)); [now apply (nu "ka"%string)| |].
      - apply nocc_head; [reflexivity|]. apply DL; [assumption|now apply nu].
      - apply nocc_head; [reflexivity|]. apply DL; [assumption|now apply nu]. }
    rewrite first_skip; [|apply construct_none; cbn [kfac pre app_last removelast last map fst app]; rewrite match_head; now apply nomatch].
    do 2 eexists. split.
    { apply first_take. eapply success; [cbn [kfac pre app_last removelast last map fst app]; rewrite match_head| |reflexivity].
      - rewrite onematch; [|discriminate|now apply (nu "ambka"%string)|assumption]. rewrite onematch, endmatch; [reflexivity|discriminate|now apply (nu "kb"%string)|now apply (DC x (lit "kb"))].
      - cbn. rewrite Hconv. cbn. rewrite knum_chars by assumption. cbn. rewrite knum_chars by assumption. reflexivity. }
    cbn [kfac fixed]. rewrite !get_arg, get_ti by (cbn; tauto). split; reflexivity.
Qed.

Lemma decimal_name x sv2 : digit_list x -> conv (s ++ lit "_k0." ++ chars x) = Ok sv2 ->
  exists f args, first_construct fs (b ++ s ++ lit "_k0." ++ chars x) = Ok (f, args) /\
  dget args (lit "superposition") = Some sv2 /\ dget args (lit "k") = None.
Proof.
  intros Hx Hc2.
  assert (S1 : forall i, ~ occurs (lit "_ka") s i) by (intros i; now apply (contains_shorter (lit "_k") (lit "a"))).
  assert (S2 : forall i, ~ occurs (lit "_ambka") s i) by (intros i O; apply Na; now exists i).
  assert (D : ~ In "_"%char (lit "k0." ++ chars x)).
  { intros I. apply in_app_or in I. destruct I as [I|I]; [cbn in I; intuition discriminate|]. destruct Hx as (_ & F). revert I. apply chars_not_in; [assumption|right; cbn; lia]. }
  assert (Q1 : forall i, ~ occurs (lit "_ka") (s ++ lit "_k0." ++ chars x) i).
  { apply nocc_app; [cbn; intuition discriminate|assumption|]. apply nocc_head; [reflexivity|exact D]. }
  assert (Q2 : forall i, ~ occurs (lit "_ambka") (s ++ lit "_k0." ++ chars x) i).
  { apply nocc_app; [cbn; intuition discriminate|assumption|]. apply nocc_head; [reflexivity|exact D]. }
  unfold fs, wakek_factories. cbv zeta.
  do 4 (rewrite first_skip; [|apply construct_none; cbn [kfac pre app_last removelast last map fst app]; rewrite match_head; now apply nomatch]).
  rewrite first_skip.
  2: { unfold construct, match_pars. cbn [kfac pre app_last removelast last map fst app]. rewrite match_head.
    change (s ++ lit "_k0." ++ chars x) with (s ++ lit "_k" ++ (lit "0." ++ chars x)).
    rewrite onematch, endmatch; [|discriminate|cbn; intuition discriminate|assumption]. cbn [kfac vars collect app map snd convert options].
    unfold convert. cbn. rewrite Hconv. cbn [bind]. unfold sup, arg_name, convert. cbn.
    replace (knum _) with (@Err value ValueError); [reflexivity|]. symmetry. Transparent knum. cbn. unfold pyfloat. cbn.
    rewrite split_free; [reflexivity|]. destruct Hx as (_ & F). apply chars_not_in; [assumption|left; cbn; lia]. }
  do 2 eexists. split.
  { apply first_take. eapply success; [cbn [kfac pre]; rewrite match_head; apply endmatch| |reflexivity]. cbn. cbn in Hc2. rewrite Hc2. reflexivity. }
  cbn [kfac fixed]. rewrite !get_arg by (cbn; tauto). split; reflexivity.
Qed.
End Names.
