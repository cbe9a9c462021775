(** Property theorems C217: data books. *)
From Coq Require Import String.
From Verif Require Import Base DBook_Model DBook_Spec DBook_Proofs.

(** C217: after any history of additions, also failed ones, a file name gives the path added last under this name in this context; an existing file of that name has precedence if asked for *)
Theorem C217_lookup : forall is_file base_name (h : list call) c n p check_raw errors, (check_raw = true -> is_file n = false) ->
  (last_added is_file base_name h c n p -> get_file_path is_file (after is_file base_name h) c n check_raw errors = Ok (Some p)) /\
  (never_added is_file base_name h c n -> get_file_path is_file (after is_file base_name h) c n check_raw errors = if errors then Err KeyError else Ok None).
Proof.
  intros is_file base_name h c n p raw errs Hr. unfold get_file_path. replace (raw && is_file n) with false by (destruct raw; cbn; [symmetry; now apply Hr|reflexivity]).
  pose proof (after_find is_file base_name h [] c n) as E. fold (after is_file base_name h) in E. unfold find_path at 1 in E. split; intros H.
  - unfold last_added in H. rewrite (pick_last _ c n p H) in E. destruct (dget c (after is_file base_name h)) as [d|]; [|discriminate]. now rewrite E.
  - unfold never_added in H. rewrite (pick_none _ c n H) in E. unfold find_path in E. cbn in E. destruct (dget c (after is_file base_name h)) as [d|]; [now rewrite E|reflexivity].
Qed.
Print Assumptions C217_lookup.
(** one of the two cases holds *)
Theorem C217_cases : forall is_file base_name (h : list call) c n, (exists p, last_added is_file base_name h c n p) \/ never_added is_file base_name h c n.
Proof. intros. apply last_or_never. Qed.
Print Assumptions C217_cases.
Theorem C217_raw : forall is_file b c n errors, is_file n = true -> get_file_path is_file b c n true errors = Ok (Some n).
Proof. intros is_file b c n e H. unfold get_file_path. now rewrite H. Qed.
Print Assumptions C217_raw.
(** the contents of a context: the names that were added, an error for contexts that were never mentioned *)
Theorem C217_toc : forall is_file base_name (h : list call) c,
  match toc (after is_file base_name h) c with
  | Ok l => (exists k, In k h /\ context k = c) /\ forall n, In n l <-> exists p, In (c, n, p) (flat_map (adds is_file base_name) h)
  | Err e => e = KeyError /\ forall k, In k h -> context k <> c
  end.
Proof.
  intros is_file base_name h c. unfold toc. pose proof (after_context is_file base_name h [] c) as C. fold (after is_file base_name h) in C.
  pose proof (fun n => after_find is_file base_name h [] c n) as F. fold (after is_file base_name h) in F. unfold find_path at 1 in F.
  destruct (dget c (after is_file base_name h)) as [d|] eqn:E.
  - split.
    + destruct (existsb (fun k => String.eqb (context k) c) h) eqn:X; [apply existsb_exists in X as (k & I & K); apply String.eqb_eq in K; eauto|]. exfalso.
      enough (Some d = None) by discriminate. apply (proj2 C). split; [reflexivity|]. intros k I K. assert (existsb (fun k => String.eqb (context k) c) h = true); [|congruence].
      apply existsb_exists. exists k. split; [exact I|]. now apply String.eqb_eq.
    + intros n. rewrite <- (dget_in is_file base_name). specialize (F n). pose proof (last_or_never (flat_map (adds is_file base_name) h) c n) as LN. destruct LN as [(p & L)|N].
      * rewrite (pick_last _ c n p L) in F. rewrite F. split; [intros _|discriminate]. destruct L as (a & b & -> & _). exists p. apply in_or_app. right. now left.
      * rewrite (pick_none _ c n N) in F. unfold find_path in F. cbn in F. rewrite F. split; [congruence|]. intros (p & I). now apply N in I.
  - split; [reflexivity|]. now apply (proj1 C).
Qed.
Print Assumptions C217_toc.
(** the suffix test of packages: proper, non-empty endings *)
Theorem C217_suffix : forall f s, has_sfx f s = true <-> ends_with f s.
Proof.
  intros f s. unfold has_sfx, ends_with.
  assert (A : forall a b, substring (String.length a) (String.length b) (a ++ b)%string = b).
  { induction a as [|x a IH]; intros b; cbn; [|apply IH]. induction b as [|y b IHb]; cbn; [reflexivity|]. now rewrite IHb. }
  assert (L : forall a b, String.length (a ++ b)%string = (String.length a + String.length b)%nat) by (induction a as [|x a IH]; intros b; cbn; [reflexivity|now rewrite IH]).
  assert (S0 : forall k g, k <= String.length g -> exists a, String.length a = k /\ g = (a ++ substring k (String.length g - k) g)%string).
  { induction k as [|k IH]; intros g H.
    - exists ""%string. split; [reflexivity|]. cbn. rewrite Nat.sub_0_r. clear. induction g as [|x g IH]; cbn; [reflexivity|]. now rewrite <- IH.
    - destruct g as [|x g]; cbn in H; [lia|]. destruct (IH g) as (a & La & E); [lia|]. exists (String x a). cbn. split; [now rewrite La|]. now rewrite <- E. }
  split.
  - intros H. apply andb_true_iff in H as (H1 & H2). apply Nat.ltb_lt in H1. apply String.eqb_eq in H2. destruct (Nat.eqb_spec (String.length s) 0) as [Z0|Z0]; [subst; lia|].
    destruct (S0 (String.length f - String.length s)%nat f ltac:(lia)) as (a & La & E). exists a. replace (String.length f - (String.length f - String.length s))%nat with (String.length s) in E by lia. rewrite H2 in E.
    split; [intros ->; cbn in La; lia|]. split; [intros ->; cbn in Z0; lia|exact E].
  - intros (a & Na & Ns & ->). rewrite L. destruct a as [|x a]; [congruence|]. destruct s as [|y s]; [congruence|]. apply andb_true_iff. split; [apply Nat.ltb_lt; cbn; lia|].
    apply String.eqb_eq. destruct (Nat.eqb_spec (String.length (String y s)) 0) as [Q|Q]; [cbn in Q; lia|]. replace (String.length (String x a) + String.length (String y s) - String.length (String y s))%nat with (String.length (String x a)) by lia. apply A.
Qed.
Print Assumptions C217_suffix.
(** a book from another book, as documented, always fails; a dictionary works *)
Theorem C217_copy_refuted : forall b, construct (FromBook b) = Err AttributeError.
Proof. reflexivity. Qed.
Print Assumptions C217_copy_refuted.
Theorem C217_dict_partial : forall b, NoDup (map fst b) -> construct (FromDict b) = Ok b.
Proof.
  intros b N. cbn. f_equal. assert (G : forall d, (forall k, In k (map fst d) -> ~ In k (map fst b)) -> fold_left (fun d p => dset (fst p) (snd p) d) b d = (d ++ b)%list); [|now apply (G [])].
  induction b as [|[k a] b IH]; intros d H; cbn [fold_left]; [now rewrite app_nil_r|]. inversion N as [|? ? N1 N2]; subst. cbn [fst snd].
  assert (E : dset k a d = (d ++ [(k, a)])%list).
  { assert (Hk : ~ In k (map fst d)) by (intros I; apply (H k I); now left). clear -Hk. induction d as [|[j x] d IH]; cbn; [reflexivity|].
    rewrite (proj2 (String.eqb_neq k j)) by (intros ->; apply Hk; now left). f_equal. apply IH. intros I. apply Hk. now right. }
  rewrite E, IH; [now rewrite <- app_assoc|assumption|]. intros j I. rewrite map_app in I. apply in_app_or in I as [I|[<-|[]]]; [|exact N1]. intros J. apply (H j I). now right.
Qed.
Print Assumptions C217_dict_partial.
(** Non-vacuity: the second path replaces the first; the addition stops at a path that is no file *)
Example ex_book : let h := [AddFiles "s" ["a/x.csv"; "b/x.csv"; "none"; "c/y.csv"]; AddPackage "s" [("z.csv", "p/z.csv"); ("z.py", "p/z.py")] [".csv"]]%string in
  let b := after (fun p => negb (String.eqb p "none")) (fun p => substring 2 5 p) h in
  b = [("s", [("x.csv", "b/x.csv"); ("z.csv", "p/z.csv")])]%string.
Proof. reflexivity. Qed.
