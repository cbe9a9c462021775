(** Lemmas about wind fields from NetCDF files. *)
From Verif Require Import RBase FieldNC_Model.
Local Open Scope R_scope.

(** --- window --- *)
Lemma lmin_le x l y : In y (x :: l) -> lmin x l <= y.
Proof.
  unfold lmin. induction l as [|a l IH]; cbn [fold_right In].
  - intros [->|[]]. lra.
  - intros [->|[->|H]]; [apply Rle_trans with (2 := IH (or_introl eq_refl)), Rmin_r|apply Rmin_l|apply Rle_trans with (2 := IH (or_intror H)), Rmin_r].
Qed.
Lemma lmin_in x l : In (lmin x l) (x :: l).
Proof.
  unfold lmin. induction l as [|a l IH]; cbn [fold_right]; [now left|]. unfold Rmin at 1. destruct (Rle_dec _ _); [right; now left|].
  destruct IH as [H|H]; [left; exact H|right; now right].
Qed.
Lemma lmax_ge x l y : In y (x :: l) -> y <= lmax x l.
Proof.
  unfold lmax. induction l as [|a l IH]; cbn [fold_right In].
  - intros [->|[]]. lra.
  - intros [->|[->|H]]; [apply Rle_trans with (1 := IH (or_introl eq_refl)), Rmax_r|apply Rmax_l|apply Rle_trans with (1 := IH (or_intror H)), Rmax_r].
Qed.
Lemma lmax_in x l : In (lmax x l) (x :: l).
Proof.
  unfold lmax. induction l as [|a l IH]; cbn [fold_right]; [now left|]. unfold Rmax at 1. destruct (Rle_dec _ _); [|right; now left].
  destruct IH as [H|H]; [left; exact H|right; now right].
Qed.
(** turbine positions *)
Definition turbines (f : farm) : list (R * R) := fst f :: snd f.
Lemma select_in s coords c : In c (select s coords) <-> In c coords /\ fst s <= c <= snd s.
Proof. unfold select. rewrite filter_In, Bool.andb_true_iff, !Rleb_true. tauto. Qed.
Lemma min_iff (g : R * R -> R) (f : farm) e c : lmin (g (fst f)) (map g (snd f)) - e <= c <-> exists p, In p (turbines f) /\ g p - e <= c.
Proof.
  split.
  - intros H. pose proof (lmin_in (g (fst f)) (map g (snd f))) as I. change (In (lmin (g (fst f)) (map g (snd f))) (map g (turbines f))) in I.
    apply in_map_iff in I. destruct I as (p & E & I). exists p. split; [exact I|]. rewrite E. exact H.
  - intros (p & I & H). assert (J := lmin_le (g (fst f)) (map g (snd f)) (g p) (in_map g (turbines f) p I)). lra.
Qed.
Lemma max_iff (g : R * R -> R) (f : farm) e c : c <= lmax (g (fst f)) (map g (snd f)) + e <-> exists p, In p (turbines f) /\ c <= g p + e.
Proof.
  split.
  - intros H. pose proof (lmax_in (g (fst f)) (map g (snd f))) as I. change (In (lmax (g (fst f)) (map g (snd f))) (map g (turbines f))) in I.
    apply in_map_iff in I. destruct I as (p & E & I). exists p. split; [exact I|]. rewrite E. exact H.
  - intros (p & I & H). assert (J := lmax_ge (g (fst f)) (map g (snd f)) (g p) (in_map g (turbines f) p I)). lra.
Qed.

(** --- variables --- *)
Lemma veqb_eq a b : veqb a b = true <-> a = b.
Proof. destruct a, b; cbn; try (split; congruence); rewrite Nat.eqb_eq. split; congruence. Qed.
Lemma vin_in v l : vin v l = true <-> In v l.
Proof. unfold vin. rewrite existsb_exists. split; [intros (x & I & E); apply veqb_eq in E; now subst|intros I; exists v; split; [exact I|now apply veqb_eq]]. Qed.
Lemma vin_not v l : vin v l = false <-> ~ In v l.
Proof. rewrite <- vin_in. destruct (vin v l); split; congruence. Qed.
Lemma var2nc_in ovars fixed v : In v (var2nc ovars fixed) <-> In v ovars /\ ~ In v fixed.
Proof. unfold var2nc. rewrite filter_In, Bool.negb_true_iff, vin_not. reflexivity. Qed.
Lemma slot_some d v i : slot d v = Some i -> (i < length d)%nat /\ nth_error d i = Some v.
Proof.
  revert i. induction d as [|u d IH]; intros i; cbn [slot]; [discriminate|]. destruct (veqb v u) eqn:E.
  - intros H. injection H as <-. apply veqb_eq in E. subst. cbn. split; [lia|reflexivity].
  - destruct (slot d v) as [k|]; [|discriminate]. intros H. injection H as <-. destruct (IH k eq_refl). cbn. split; [lia|assumption].
Qed.
Lemma slot_none d v : slot d v = None <-> ~ In v d.
Proof.
  induction d as [|u d IH]; cbn [slot In]; [tauto|]. destruct (veqb v u) eqn:E.
  - apply veqb_eq in E. subst. split; [discriminate|tauto].
  - assert (u <> v) by (intros ->; now rewrite (proj2 (veqb_eq v v) eq_refl) in E). destruct (slot d v); split; try congruence; intuition congruence.
Qed.
Lemma slot_app d e v i : slot d v = Some i -> slot (d ++ e) v = Some i.
Proof.
  revert i. induction d as [|u d IH]; intros i; cbn [slot app]; [discriminate|]. destruct (veqb v u); [easy|].
  destruct (slot d v) as [k|]; [|discriminate]. intros H. rewrite (IH k eq_refl). exact H.
Qed.
(** adding names that are not there yet *)
Lemma add_vars l : forall d, NoDup l -> NoDup d ->
  let d' := fold_left (fun d v => if vin v d then d else d ++ [v]) l d in
  NoDup d' /\ (forall v, In v d' <-> In v d \/ In v l) /\ (exists e, d' = d ++ e).
Proof.
  induction l as [|a l IH]; intros d Hl Hd; cbn [fold_left].
  - split; [exact Hd|]. split; [intros v; cbn; tauto|]. exists []. now rewrite app_nil_r.
  - inversion Hl as [|? ? Ha Hl']; subst. destruct (vin a d) eqn:E.
    + apply vin_in in E. destruct (IH d Hl' Hd) as (A & B & C). split; [exact A|]. split; [|exact C]. intros v. rewrite B. cbn. intuition congruence.
    + apply vin_not in E. assert (Hd2 : NoDup (d ++ [a])).
      { apply NoDup_Add with (a := a) (l := d); [|easy]. rewrite <- (app_nil_r d) at 1. apply Add_app. }
      destruct (IH (d ++ [a]) Hl' Hd2) as (A & B & e & C). split; [exact A|]. split.
      * intros v. rewrite B, in_app_iff. cbn. tauto.
      * exists ([a] ++ e). rewrite C. now rewrite app_assoc.
Qed.
Lemma dkys_spec ovars fixed : NoDup ovars ->
  NoDup (dkys ovars fixed) /\ (forall v, In v (dkys ovars fixed) <-> (v = WD /\ In WS ovars) \/ In v (var2nc ovars fixed)) /\
  (exists e, dkys ovars fixed = (if vin WS ovars then [WD] else []) ++ (if vin WS (var2nc ovars fixed) then [WS] else []) ++ e).
Proof.
  intros H. assert (Hn : NoDup (var2nc ovars fixed)) by now apply NoDup_filter.
  set (d1 := (if vin WS ovars then [WD] else []) ++ (if vin WS (var2nc ovars fixed) then [WS] else [])).
  assert (E : dkys ovars fixed = fold_left (fun d v => if vin v d then d else d ++ [v]) (var2nc ovars fixed) d1).
  { unfold dkys, d1. destruct (vin WS (var2nc ovars fixed)); [reflexivity|]. now rewrite app_nil_r. }
  assert (Hd : NoDup d1).
  { unfold d1. destruct (vin WS ovars), (vin WS (var2nc ovars fixed)); cbn; repeat constructor; cbn; intuition congruence. }
  destruct (add_vars (var2nc ovars fixed) d1 Hn Hd) as (A & B & e & C). rewrite <- E in A, B, C. split; [exact A|]. split.
  - intros v. rewrite B. unfold d1. rewrite in_app_iff. destruct (vin WS ovars) eqn:E1, (vin WS (var2nc ovars fixed)) eqn:E2; cbn [In];
      repeat match goal with H : vin _ _ = true |- _ => apply vin_in in H | H : vin _ _ = false |- _ => apply vin_not in H end; intuition (subst; intuition congruence).
  - exists e. rewrite C. unfold d1. now rewrite app_assoc.
Qed.
Lemma fold_fine (g : var -> status) l : (forall v, In v l -> g v = Fine) -> fold_left (fun s v => andthen s (g v)) l Fine = Fine.
Proof. induction l as [|a l IH]; intros H; [reflexivity|]. cbn [fold_left andthen]. rewrite (H a (or_introl eq_refl)). apply IH. intros v Hv. apply H. now right. Qed.
Lemma fold_stuck (g : var -> status) l s : s <> Fine -> fold_left (fun s v => andthen s (g v)) l s = s.
Proof. intros H. induction l as [|a l IH]; [reflexivity|]. cbn [fold_left]. now replace (andthen s (g a)) with s by now destruct s. Qed.
Lemma fold_err (g : var -> status) l e : e <> Fine -> (forall v, In v l -> g v = Fine \/ g v = e) -> (exists v, In v l /\ g v = e) ->
  fold_left (fun s v => andthen s (g v)) l Fine = e.
Proof.
  intros He H (v & I & E). induction l as [|a l IH]; [destruct I|]. cbn [fold_left andthen]. destruct (H a (or_introl eq_refl)) as [F|F]; rewrite F.
  - apply IH; [intros u Hu; apply H; now right|]. destruct I as [->|I]; [congruence|exact I].
  - now apply fold_stuck.
Qed.
(** a list without repetitions that contains the elements of another one, and one more, is longer *)
Lemma nodup_len (d l : list var) : NoDup d -> NoDup l -> (forall v, In v d <-> In v l) -> length d = length l.
Proof. intros A B C. apply Nat.le_antisymm; apply NoDup_incl_length; try assumption; intros v; apply C. Qed.

(** --- files --- *)
Lemma fly_later {A} (files : list (list A)) j0 i0 i1 : (i0 < j0)%nat -> fly_loop files j0 i0 i1 = ([], i0).
Proof. intros H. destruct files; cbn [fly_loop]; [reflexivity|]. now rewrite (proj2 (Nat.ltb_lt _ _) H). Qed.
Lemma fly_done {A} (files : list (list A)) j0 i : (i <= j0)%nat -> fly_loop files j0 i i = ([], i).
Proof.
  revert j0. induction files as [|f files IH]; intros j0 H; [reflexivity|]. cbn [fly_loop]. destruct (Nat.ltb_spec i j0); [reflexivity|]. assert (j0 = i) by lia. subst.
  destruct (Nat.ltb_spec i (i + length f)).
  - replace (Nat.min i (i + length f) - i)%nat with O by lia. rewrite Nat.sub_diag. cbn [Nat.sub]. rewrite Nat.add_0_r, IH by lia. reflexivity.
  - apply IH. lia.
Qed.
Lemma fly_spec {A} (files : list (list A)) : forall j0 i0 i1, (j0 <= i0 <= i1)%nat -> (i1 <= j0 + length (concat files))%nat ->
  fly_loop files j0 i0 i1 = (slice (i0 - j0) (i1 - j0) (concat files), i1).
Proof.
  induction files as [|f files IH]; intros j0 i0 i1 H1 H2; cbn [concat] in *.
  - cbn [length] in H2. assert (i0 = i1) by lia. subst. cbn [fly_loop]. unfold slice. now rewrite skipn_nil, firstn_nil.
  - cbn [fly_loop]. destruct (Nat.ltb_spec i0 j0); [lia|]. rewrite app_length in H2. destruct (Nat.ltb_spec i0 (j0 + length f)).
    + destruct (le_lt_dec i1 (j0 + length f)) as [Hi|Hi].
      * rewrite Nat.min_l by lia. replace (i0 + (i1 - j0 - (i0 - j0)))%nat with i1 by lia. rewrite fly_done by lia. rewrite app_nil_r. f_equal.
        unfold slice. rewrite skipn_app, firstn_app, skipn_length. replace (i1 - j0 - (i0 - j0) - (length f - (i0 - j0)))%nat with O by lia.
        cbn [firstn]. now rewrite app_nil_r.
      * rewrite Nat.min_r by lia. replace (j0 + length f - j0)%nat with (length f) by lia.
        replace (i0 + (length f - (i0 - j0)))%nat with (j0 + length f)%nat by lia. rewrite IH by lia. rewrite Nat.sub_diag. f_equal.
        unfold slice. rewrite skipn_app, firstn_app, skipn_length. replace (i0 - j0 - length f)%nat with O by lia. cbn [skipn].
        rewrite !(firstn_all2 (skipn (i0 - j0) f)) by (rewrite skipn_length; lia). f_equal. f_equal. lia.
    + rewrite IH by lia. f_equal. unfold slice. rewrite skipn_app, (skipn_all2 f) by lia. cbn [app]. f_equal; [lia|]. f_equal. lia.
Qed.

(** --- NaN --- *)
Lemma forward_len l : forall last, length (interp_forward last l) = length l.
Proof. induction l as [|[x|] l IH]; intros last; cbn [interp_forward length]; now rewrite ?IH. Qed.
Lemma leading_len l : length (fill_leading l) = length l.
Proof. induction l as [|[x|] l IH]; cbn [fill_leading length]; now rewrite ?IH. Qed.
Lemma forward_keep l : forall last i x, nth_error l i = Some (Some x) -> nth_error (interp_forward last l) i = Some (Some x).
Proof.
  induction l as [|[y|] l IH]; intros last [|i] x; cbn [nth_error interp_forward]; try discriminate; [easy|apply IH|apply IH].
Qed.
Lemma leading_keep l : forall i x, nth_error l i = Some (Some x) -> nth_error (fill_leading l) i = Some (Some x).
Proof.
  induction l as [|[y|] l IH]; intros [|i] x; cbn [nth_error fill_leading]; try discriminate; [easy|easy|apply IH].
Qed.
(** no NaN after a number *)
Lemma forward_num l : forall k x, Forall (fun v => v <> None) (interp_forward (Some (k, x)) l).
Proof. induction l as [|[y|] l IH]; intros k x; cbn [interp_forward]; constructor; try congruence; try apply IH. now destruct (next_num l) as [[m z]|]. Qed.
Lemma next_num_none l : next_num l = None <-> Forall (fun v => v = None) l.
Proof.
  induction l as [|[x|] l IH]; cbn [next_num]; [split; auto|split; [discriminate|inversion 1; discriminate]|].
  destruct (next_num l) as [[k y]|]; split; try discriminate; try (inversion 1; subst; tauto); [inversion 1; subst; apply IH in H3; discriminate|].
  intros _. constructor; [reflexivity|now apply IH].
Qed.
Lemma next_forward l : next_num (interp_forward None l) = next_num l.
Proof. induction l as [|[x|] l IH]; cbn [interp_forward next_num]; [reflexivity|reflexivity|now rewrite IH]. Qed.
Lemma interp_num l x : In (Some x) l -> Forall (fun v => v <> None) (interp_nans l).
Proof.
  unfold interp_nans. induction l as [|[y|] l IH]; cbn [In]; [easy| |].
  - intros _. cbn [interp_forward fill_leading]. constructor; [congruence|]. apply forward_num.
  - intros [H|H]; [discriminate|]. cbn [interp_forward fill_leading]. constructor; [|now apply IH]. rewrite next_forward.
    destruct (next_num l) as [[k z]|] eqn:E; [congruence|]. apply next_num_none in E. rewrite Forall_forall in E. specialize (E _ H). discriminate.
Qed.
(** after a number the earlier values do not matter *)
Lemma forward_app l1 x l2 : forall last, interp_forward last (l1 ++ Some x :: l2) = interp_forward last (l1 ++ [Some x]) ++ interp_forward (Some (1%nat, x)) l2.
Proof.
  induction l1 as [|[y|] l1 IH]; intros last; cbn [app interp_forward]; [reflexivity|now rewrite IH|]. f_equal; [|apply IH].
  destruct last as [[k z]|]; [|reflexivity]. replace (next_num (l1 ++ Some x :: l2)) with (next_num (l1 ++ [Some x])); [reflexivity|].
  clear. induction l1 as [|[y|] l1 IH]; cbn [app next_num]; [reflexivity|reflexivity|now rewrite IH].
Qed.
Lemma leading_app l1 l2 : (exists x, In (Some x) l1) -> fill_leading (l1 ++ l2) = fill_leading l1 ++ l2.
Proof.
  induction l1 as [|[y|] l1 IH]; intros (x & H); cbn [In] in H; [easy|reflexivity|]. destruct H as [H|H]; [discriminate|]. cbn [app fill_leading].
  rewrite IH by eauto. f_equal. replace (next_num (l1 ++ l2)) with (next_num l1); [reflexivity|]. clear -H.
  induction l1 as [|[y|] l1 IH]; [destruct H|reflexivity|]. cbn [app next_num]. destruct H as [H|H]; [discriminate|]. now rewrite IH.
Qed.
Lemma leading_id l : (match l with None :: _ => False | _ => True end) -> fill_leading l = l.
Proof. now destruct l as [|[x|] l]. Qed.
Lemma interp_from l x : interp_nans (Some x :: l) = Some x :: interp_forward (Some (1%nat, x)) l.
Proof. reflexivity. Qed.
(** a block between two numbers: computed alone as in the whole list *)
Lemma interp_block pre a mid b post : interp_nans (pre ++ (Some a :: mid ++ [Some b]) ++ post) =
  firstn (length pre) (interp_nans (pre ++ [Some a])) ++ interp_nans (Some a :: mid ++ [Some b]) ++ interp_forward (Some (1%nat, b)) post.
Proof.
  unfold interp_nans at 1. replace (pre ++ (Some a :: mid ++ [Some b]) ++ post) with (pre ++ Some a :: (mid ++ [Some b]) ++ post) by reflexivity.
  rewrite forward_app. replace ((mid ++ [Some b]) ++ post) with (mid ++ Some b :: post) by now rewrite <- app_assoc. rewrite (forward_app mid b post).
  rewrite leading_app.
  2: { exists a. apply nth_error_In with (n := length pre). apply forward_keep. rewrite nth_error_app2 by lia. now rewrite Nat.sub_diag. }
  fold (interp_nans (pre ++ [Some a])). rewrite interp_from.
  assert (E : interp_nans (pre ++ [Some a]) = firstn (length pre) (interp_nans (pre ++ [Some a])) ++ [Some a]).
  { set (l := interp_nans (pre ++ [Some a])). assert (L : length l = S (length pre)) by (unfold l, interp_nans; rewrite leading_len, forward_len, app_length; cbn; lia).
    assert (K : nth_error l (length pre) = Some (Some a)).
    { apply leading_keep, forward_keep. rewrite nth_error_app2 by lia. now rewrite Nat.sub_diag. }
    rewrite <- (firstn_skipn (length pre) l) at 1. f_equal. destruct (skipn (length pre) l) as [|u r] eqn:Q.
    - apply (f_equal (@length _)) in Q. rewrite skipn_length in Q. cbn in Q. lia.
    - assert (r = []). { apply (f_equal (@length _)) in Q. rewrite skipn_length in Q. cbn in Q. destruct r; [reflexivity|cbn in Q; lia]. } subst.
      f_equal. rewrite <- (firstn_skipn (length pre) l), Q in K. rewrite nth_error_app2 in K by (rewrite firstn_length; lia).
      rewrite firstn_length, Nat.min_l, Nat.sub_diag in K by lia. cbn in K. congruence. }
  rewrite E at 1. rewrite <- !app_assoc. reflexivity.
Qed.
