(** Theorems about model names and factory dictionaries. *)
From Verif Require Import Factory_Model Factory_Spec Factory_Proofs Factory_Proofs2.
Local Open Scope list_scope.
Local Notation length := List.length.

(** C49 *)
Theorem C49_template_meaning t ps vs : parse_template t = Ok (ps, vs) -> length ps = S (length vs) /\ render ps (map bracket vs) = t.
Proof. intros H. apply parse_template_ok in H. tauto. Qed.
Print Assumptions C49_template_meaning.
Theorem C49_round_trip f t ws : parse_template t = Ok (pre f, vars f) -> length ws = length (vars f) -> separated (tl (pre f)) ws ->
  check_match f (render (pre f) ws) = true /\ match_pre true (pre f) (render (pre f) ws) = Some ws.
Proof.
  intros H L S. apply parse_template_ok in H. destruct H as (L1 & _ & W). assert (E : match_pre true (pre f) (render (pre f) ws) = Some ws) by (apply match_render; congruence || assumption).
  unfold check_match. rewrite E. tauto.
Qed.
Print Assumptions C49_round_trip.
(** the constructor is called with the converted values *)
Theorem C49_arguments f t ws xs : parse_template t = Ok (pre f, vars f) -> separated (tl (pre f)) ws ->
  length ws = length (vars f) -> length xs = length (vars f) ->
  (forall i v w x, nth_error (vars f) i = Some v -> nth_error ws i = Some w -> nth_error xs i = Some x -> convert f v w = Ok x) ->
  NoDup (map (arg_name f) (vars f)) -> (forall v, In v (vars f) -> ~ In (arg_name f v) (map fst (fixed f))) ->
  exists args, match_pars f (render (pre f) ws) = Ok args /\
    forall i v x, nth_error (vars f) i = Some v -> nth_error xs i = Some x -> dget args (arg_name f v) = Some x.
Proof.
  intros H S L1 L2 C N F. destruct (C49_round_trip f t ws H L1 S) as (_ & E). unfold match_pars. rewrite E.
  assert (A : all_conv f (vars f) ws xs).
  { clear - L1 L2 C. revert ws xs L1 L2 C. induction (vars f) as [|v vs IH]; intros [|w ws] [|x xs] L1 L2 C; try discriminate; constructor.
    - apply (C 0); reflexivity.
    - apply IH; [now injection L1|now injection L2|]. intros i. apply (C (S i)). }
  destruct (collect_ok f _ _ _ [] A N) as (kw & K & _ & K2). rewrite K. cbn [bind]. eexists. split; [reflexivity|].
  intros i v x Hv Hx. rewrite dget_dupdate; [now apply (K2 i)|]. apply F. now apply nth_error_In in Hv.
Qed.
Print Assumptions C49_arguments.
(** For separators in which the first character does not recur, like _kb, it suffices that no value contains the
    separator following it. *)
Theorem C49_plain_separators seps ws : length seps = length ws ->
  (forall i p w, nth_error seps i = Some p -> nth_error ws i = Some w -> simple_sep p /\ (p <> [] -> ~ contains_text p w)) -> separated seps ws.
Proof.
  revert ws. induction seps as [|p seps IH]; intros [|w ws] L H; try discriminate; [exact I|]. split.
  - intros Np. destruct (H 0 p w eq_refl eq_refl) as (A & B). apply simple_ok; auto.
  - apply IH; [now injection L|]. intros i. apply (H (S i)).
Qed.
Print Assumptions C49_plain_separators.
Example C49_nonvacuous :
  let ps := [lit "Jensen_"; lit "_ka"; lit "_kb"; []] in let ws := [lit "linear_lim"; lit "02"; lit "001"] in
  parse_template (lit "Jensen_<superposition>_ka<ka>_kb<kb>") = Ok (ps, [lit "superposition"; lit "ka"; lit "kb"]) /\
  separated (tl ps) ws /\ render ps ws = lit "Jensen_linear_lim_ka02_kb001" /\ match_pre true ps (render ps ws) = Some ws.
Proof.
  cbv zeta. split; [reflexivity|]. split; [|split; reflexivity].
  apply C49_plain_separators; [reflexivity|]. intros [|[|[|i]]] p w E1 E2; cbn in E1, E2; [| | |destruct i; discriminate];
    injection E1 as <-; injection E2 as <-; (split; [cbn; intuition discriminate|]); intros Np; first [now contradict Np|intros (i & O); revert O; apply find_none; reflexivity].
Qed.
(** a separator that overlaps with itself can be found too early although no value contains it *)
Example C49_overlap : match_pre true [lit "x"; lit "__"; []] (render [lit "x"; lit "__"; []] [lit "a_"; lit "b"]) = Some [lit "a"; lit "_b"].
Proof. reflexivity. Qed.

(** C50 is false: if the template ends with text, everything after its first occurrence is ignored. *)
Theorem C50_trailing_text_refuted f t name more : parse_template t = Ok (pre f, vars f) -> last (pre f) [] <> [] ->
  check_match f name = true -> check_match f (name ++ more) = true /\ match_pars f (name ++ more) = match_pars f name.
Proof.
  intros H N. unfold check_match, match_pars. destruct (match_pre true (pre f) name) as [ws|] eqn:E; [|discriminate]. intros _.
  apply parse_template_ok in H. rewrite (match_tail_first (pre f) name more ws) by tauto. tauto.
Qed.
Print Assumptions C50_trailing_text_refuted.
Example C50_trailing_example : exists f, parse_template (lit "grid<n2>_raw") = Ok (pre f, vars f) /\ check_match f (lit "grid16_rawhide") = true /\
  match_pars f (lit "grid16_rawhide") = match_pars f (lit "grid16_raw").
Proof.
  exists {| pre := [lit "grid"; lit "_raw"]; vars := [lit "n2"]; options := [(lit "n2", OFun pyfloat)]; var2arg := [(lit "n2", lit "n")]; fixed := []; ctor := fun _ => Ok tt |}.
  repeat split; reflexivity.
Qed.
(** exactly the names starting with an instance are accepted, and exactly the instances if the template ends with a variable *)
Theorem C50_accepts_instances_partial f t name : parse_template t = Ok (pre f, vars f) ->
  (check_match f name = true <-> exists ws tail, name = render (pre f) ws ++ tail /\ length ws = length (vars f) /\
     (vars f <> [] -> last (pre f) [] = [] -> tail = [])).
Proof.
  intros H. apply parse_template_ok in H. destruct H as (L & _ & W). pose proof (match_iff (pre f) name W) as M. unfold check_match.
  assert (B : (if match_pre true (pre f) name then true else false) = true <-> match_pre true (pre f) name <> None) by (destruct (match_pre _ _ _); split; congruence).
  rewrite B, M. split; intros (ws & tail & E & E1 & T); exists ws, tail; (split; [assumption|]); (split; [congruence|]).
  - intros V. apply T. destruct (vars f); [congruence|cbn in L; lia].
  - intros V. apply T. intros X. rewrite X in L. cbn in L. lia.
Qed.
Print Assumptions C50_accepts_instances_partial.
Theorem C50_open_templates_partial f t name : parse_template t = Ok (pre f, vars f) -> vars f <> [] -> last (pre f) [] = [] ->
  (check_match f name = true <-> exists ws, name = render (pre f) ws /\ length ws = length (vars f)).
Proof.
  intros H N E. rewrite (C50_accepts_instances_partial f t name H). split.
  - intros (ws & tail & A & B & C). rewrite (C N E), app_nil_r in A. eauto.
  - intros (ws & A & B). exists ws, []. rewrite app_nil_r. auto.
Qed.
Print Assumptions C50_open_templates_partial.

(** C51 *)
Theorem C51_same_object_afterwards d k d' o l : store d = true -> getitem d k = (d', Ok o) ->
  (forall k', In (OSet k') l -> k' <> k) -> snd (getitem (run_ops d' l) k) = Ok o.
Proof.
  intros S G N. pose proof (getitem_stored _ _ _ _ S G) as H. apply (run_ops_keep l) in H; [|assumption]. unfold getitem. now rewrite H.
Qed.
Print Assumptions C51_same_object_afterwards.
Theorem C51_entries_kept d k o l : dget (items d) k = Some o -> (forall k', In (OSet k') l -> k' <> k) -> snd (getitem (run_ops d l) k) = Ok o.
Proof. intros H N. apply (run_ops_keep l) in H; [|assumption]. unfold getitem. now rewrite H. Qed.
Print Assumptions C51_entries_kept.
Theorem C51_lookup_implies_membership d k d' o : getitem d k = (d', Ok o) -> contains d k = true.
Proof. exact (getitem_contains d k d' o). Qed.
Print Assumptions C51_lookup_implies_membership.
(** Membership does not imply a successful lookup: the values are not converted by the membership test, and an exception
    other than ValueError ends the search. *)
Definition ki_templates : list factory :=
  [ {| pre := [lit "kTI_"; lit "_"; []]; vars := [lit "kTI"; lit "kb"]; options := [(lit "kTI", OFun knum); (lit "kb", OFun knum)]; var2arg := []; fixed := []; ctor := fun _ => Ok tt |};
    {| pre := [lit "kTI_"; []]; vars := [lit "kTI"]; options := [(lit "kTI", OFun knum)]; var2arg := []; fixed := []; ctor := fun _ => Ok tt |} ].
Definition ki_dict : fdict := {| items := []; facs := ki_templates; next := 0; store := true |}.
Theorem C51_membership_refuted :
  (contains ki_dict (lit "kTI_abc") = true /\ snd (getitem ki_dict (lit "kTI_abc")) = Err KeyError) /\
  (contains ki_dict (lit "kTI_02_") = true /\ snd (getitem ki_dict (lit "kTI_02_")) = Err IndexError).
Proof. repeat split; reflexivity. Qed.
Print Assumptions C51_membership_refuted.
(** It does if one matching factory accepts the values and the others fail with ValueError only. *)
Theorem C51_membership_partial d k : (exists f kw, In f (facs d) /\ construct f k = Ok kw) ->
  (forall f, In f (facs d) -> forall e, construct f k = Err e -> e = ValueError) -> exists o, snd (getitem d k) = Ok o.
Proof.
  intros H1 H2. unfold getitem. destruct (dget (items d) k); [eexists; reflexivity|]. destruct (first_construct_err _ _ H1 H2) as (r & E). rewrite E. eexists. reflexivity.
Qed.
Print Assumptions C51_membership_partial.
Example C51_nonvacuous : snd (getitem ki_dict (lit "kTI_02_004")) = Ok 0 /\
  snd (getitem (run_ops (fst (getitem ki_dict (lit "kTI_02_004"))) [OGet (lit "kTI_02"); OSet (lit "other")]) (lit "kTI_02_004")) = Ok 0.
Proof. split; reflexivity. Qed.

(** C86 *)
Theorem C86_numbers ds : digit_list ds -> knum (chars ds) = Ok (number_value ds).
Proof. exact (knum_chars ds). Qed.
Print Assumptions C86_numbers.
Theorem C86_growth_parameters b s conv sv kw c g : (forall a, c a = Ok tt) -> conv s = Ok sv ->
  ~ contains_text (lit "_k") s -> ~ contains_text (lit "_ambka") s ->
  (forall x, In x [lit "superposition"; lit "k"; lit "ka"; lit "kb"; lit "ti_var"] -> ~ In x (map fst kw)) -> growth_ok g ->
  exists f args, first_construct (wakek_factories [b; []] [lit "superposition"] [(lit "superposition", OFun conv)] kw c) (b ++ s ++ growth_text g) = Ok (f, args) /\
    dget args (lit "superposition") = Some sv /\
    (dget args (lit "k"), dget args (lit "ka"), dget args (lit "kb"), dget args (lit "ti_var")) =
    (let '(k, ka, kb, ti) := growth_args g in (k, ka, kb, Some (VStr ti))).
Proof. intros H1 H2 H3 H4 H5 H6. now apply names_ok. Qed.
Print Assumptions C86_growth_parameters.
(** Registering them keeps the order used above. *)
Theorem C86_registration_order b conv kw c : facs (add_k_factory {| items := []; facs := []; next := 0; store := true |}
    (wakek_factories [b; []] [lit "superposition"] [(lit "superposition", OFun conv)] kw c)) =
  wakek_factories [b; []] [lit "superposition"] [(lit "superposition", OFun conv)] kw c.
Proof.
  assert (A : forall f l, (forall g, In g l -> (length (vars g) <? length (vars f)) = false) -> insert_factory f l = l ++ [f]).
  { intros f l. induction l as [|g l IH]; intros H; [reflexivity|]. cbn [insert_factory app]. unfold goes_before. rewrite (H g) by now left. rewrite andb_false_r.
    f_equal. apply IH. intros g' Hg. apply H. now right. }
  unfold wakek_factories, add_k_factory. cbv zeta. cbn [fold_left]. unfold add_factory at 1. cbn [facs items next store].
  assert (S : forall d f, facs (add_factory d f) = insert_factory f (facs d)) by reflexivity.
  unfold add_factory. cbn [facs].
  repeat (match goal with |- context [insert_factory ?f ?l] => lazymatch l with context [insert_factory] => fail | _ => rewrite (A f l) end end; [cbn [app]|intros g Hg; cbn [In app insert_factory] in Hg; repeat (destruct Hg as [<-|Hg]; [reflexivity|]); destruct Hg]).
  reflexivity.
Qed.
Print Assumptions C86_registration_order.
(** Decimal numbers, as in the example names the factories print, are silently not understood: the model is created
    without the parameter and with a superposition of another name. *)
Theorem C86_decimal_numbers_refuted b s conv sv sv2 kw c x : (forall a, c a = Ok tt) -> conv s = Ok sv ->
  ~ contains_text (lit "_k") s -> ~ contains_text (lit "_ambka") s ->
  (forall x, In x [lit "superposition"; lit "k"; lit "ka"; lit "kb"; lit "ti_var"] -> ~ In x (map fst kw)) ->
  digit_list x -> conv (s ++ lit "_k0." ++ chars x) = Ok sv2 ->
  exists f args, first_construct (wakek_factories [b; []] [lit "superposition"] [(lit "superposition", OFun conv)] kw c) (b ++ s ++ lit "_k0." ++ chars x) = Ok (f, args) /\
    dget args (lit "superposition") = Some sv2 /\ dget args (lit "k") = None.
Proof. intros H1 H2 H3 H4 H5 H6 H7. now apply (decimal_name b s conv sv kw c). Qed.
Print Assumptions C86_decimal_numbers_refuted.
Example C86_yawed : (let yawed := wakek_factories [lit "yawed"] [] [] [] (fun _ => Ok tt) in
  exists f, first_construct yawed (lit "yawed_k0.04") = Ok (f, [(lit "ti_var", VStr (lit "TI"))]) /\
  exists g, first_construct yawed (lit "yawed_k004") = Ok (g, [(lit "k", VDec 4 2); (lit "ti_var", VStr (lit "TI"))]))%string.
Proof. eexists. split; [reflexivity|]. eexists. reflexivity. Qed.
Example C86_nonvacuous : growth_ok (GAmbKb [0; 4] [0; 0; 1]) /\ growth_text (GAmbKb [0; 4] [0; 0; 1]) = lit "_ambka04_kb001" /\
  growth_args (GAmbKb [0; 4] [0; 0; 1]) = (None, Some (VDec 4 1), Some (VDec 1 2), lit "AMB_TI") /\
  ~ contains_text (lit "_k") (lit "quadratic_lim").
Proof.
  split; [|split; [reflexivity|split; [reflexivity|]]].
  - repeat split; try discriminate; repeat constructor; lia.
  - intros (i & O). revert O. apply find_none. reflexivity.
Qed.
