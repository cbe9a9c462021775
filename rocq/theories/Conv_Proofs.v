(** Proofs about convergence. *)
From Verif Require Import RBase WindDir_Model WindDir_Proofs Conv_Model Conv_Spec.
Local Open Scope R_scope.

Lemma fold_max_le lim : forall l x, fle (fold_left (flift2 Rmax) l x) lim = true <-> (fle x lim = true /\ Forall (fun y => fle y lim = true) l).
Proof.
  induction l as [|y l IH]; intros x; cbn [fold_left]; [split; [auto|tauto]|].
  rewrite IH, Forall_cons_iff. destruct x as [a|], y as [b|]; cbn; try (split; intros; intuition discriminate).
  rewrite !Rleb_true. split.
  - intros (H & F). pose proof (Rmax_l a b). pose proof (Rmax_r a b). intuition lra.
  - intros (H1 & H2 & F). split; auto. now apply Rmax_lub.
Qed.
Lemma np_max_le l lim : l <> [] -> exists d, np_max l = Ok d /\ (fle d lim = true <-> Forall (fun y => fle y lim = true) l).
Proof.
  destruct l as [|x l]; [congruence|]. intros _. cbn [np_max]. eexists. split; [reflexivity|].
  rewrite fold_max_le, Forall_cons_iff. tauto.
Qed.
Lemma forall_map2 {A B C} (P : C -> Prop) (f : A -> B -> C) : forall l m, length l = length m ->
  (Forall P (map2 f l m) <-> forall i x y, nth_error l i = Some x -> nth_error m i = Some y -> P (f x y)).
Proof.
  induction l as [|a l IH]; intros [|b m] H; cbn in H; try discriminate; cbn [map2].
  - split; [intros _ [|i] x y E; discriminate|constructor].
  - rewrite Forall_cons_iff, IH by lia. split.
    + intros (H1 & H2) [|i] x y Ex Ey; cbn in Ex, Ey; [congruence|eauto].
    + intros G. split; [exact (G 0%nat a b eq_refl eq_refl)|]. intros i x y. exact (G (S i) x y).
Qed.
Lemma map2_nonempty {A B C} (f : A -> B -> C) l m : l <> [] -> length l = length m -> map2 f l m <> [].
Proof. destruct l, m; cbn; try congruence; discriminate. Qed.

Lemma elem_close (is_wd : bool) lim x0 x :
  (forall a b, x0 = Some a -> x = Some b -> is_wd = true -> -540 <= b - a <= 540) ->
  (fle (if is_wd then flift2 (fun a b => Rabs (delta_wd a b)) x0 x else flift2 (fun a b => Rabs (b - a)) x0 x) lim = true <-> close is_wd lim x0 x).
Proof.
  intros H. unfold close. destruct x0 as [a|], x as [b|], is_wd; cbn;
    try (split; [discriminate|intros (a' & b' & E1 & E2 & _); discriminate]); rewrite Rleb_true.
  - specialize (H a b eq_refl eq_refl eq_refl). split.
    + intros G. exists a, b. repeat split; auto. destruct (delta_wd_congr a b) as (k & E). exists k. rewrite <- E. exact G.
    + intros (a' & b' & E1 & E2 & k & G). injection E1 as E1. injection E2 as E2. subst. eapply Rle_trans; [apply delta_wd_shortest; exact H|exact G].
  - split; [eauto|]. intros (a' & b' & E1 & E2 & G). injection E1 as E1. injection E2 as E2. now subst.
Qed.
Lemma var_delta_spec is_wd x0 x lim : x0 <> [] -> length x0 = length x -> wd_ok is_wd x0 x ->
  exists d, var_delta is_wd (Some x0) (Some x) = Ok d /\
    (fle d lim = true <-> forall i a b, nth_error x0 i = Some a -> nth_error x i = Some b -> close is_wd lim a b).
Proof.
  intros Hne Hl Hw. unfold var_delta.
  assert (G : exists d, np_max (map2 (fun a b => if is_wd then flift2 (fun a b => Rabs (delta_wd a b)) a b else flift2 (fun a b => Rabs (b - a)) a b) x0 x) = Ok d /\
    (fle d lim = true <-> forall i a b, nth_error x0 i = Some a -> nth_error x i = Some b -> close is_wd lim a b)).
  { destruct (np_max_le (map2 (fun a b => if is_wd then flift2 (fun a b => Rabs (delta_wd a b)) a b else flift2 (fun a b => Rabs (b - a)) a b) x0 x) lim) as (d & E & I).
    { now apply map2_nonempty. }
    exists d. split; [exact E|]. rewrite I, forall_map2 by exact Hl. split; intros K i a b Ha Hb.
    - apply elem_close; eauto. intros a' b' -> -> W. destruct (Hw W) as (W1 & W2).
      pose proof (W1 a' (nth_error_In _ _ Ha)). pose proof (W2 b' (nth_error_In _ _ Hb)). lra.
    - apply elem_close; eauto. intros a' b' -> -> W. destruct (Hw W) as (W1 & W2).
      pose proof (W1 a' (nth_error_In _ _ Ha)). pose proof (W2 b' (nth_error_In _ _ Hb)). lra. }
  destruct is_wd; exact G.
Qed.

Definition all_close (wd_vars : nat -> bool) (limits : list (nat * R)) (prev res : nat -> option (list fval)) : Prop :=
  forall v lim x0 x i a b, In (v, lim) limits -> prev v = Some x0 -> res v = Some x ->
    nth_error x0 i = Some a -> nth_error x i = Some b -> close (wd_vars v) lim a b.
Lemma conv_loop_spec wd_vars prev res verbose : forall limits ok, well_formed wd_vars limits prev res ->
  exists b, conv_loop wd_vars prev res verbose limits ok = Ok b /\ (b = true <-> ok = true /\ all_close wd_vars limits prev res).
Proof.
  induction limits as [|[v lim] ls IH]; intros ok W; cbn [conv_loop].
  - exists ok. split; [reflexivity|]. split; [|tauto]. intros ->. split; auto. intros v lim x0 x i a b [].
  - destruct (W v lim (or_introl eq_refl)) as (x0 & x & E0 & E & Hne & Hl & Hw). rewrite E0, E.
    destruct (var_delta_spec (wd_vars v) x0 x lim Hne Hl Hw) as (d & Ed & I). rewrite Ed. cbn [bind].
    assert (W' : well_formed wd_vars ls prev res) by (intros v' lim' H'; apply (W v' lim'); now right).
    assert (AC : all_close wd_vars ((v, lim) :: ls) prev res <-> fle d lim = true /\ all_close wd_vars ls prev res).
    { rewrite I. unfold all_close. split.
      - intros G. split; [intros i a b Ha Hb; eapply (G v lim); eauto; now left|]. intros v' lim' y0 y i a b Hin. apply (G v' lim'). now right.
      - intros (G1 & G2) v' lim' y0 y i a b [Hin|Hin] P1 P2 P3 P4; [injection Hin as -> ->|now apply (G2 v' lim' y0 y i a b)].
        rewrite E0 in P1. rewrite E in P2. injection P1 as ->. injection P2 as ->. eauto. }
    destruct (fle d lim) eqn:F.
    + rewrite andb_true_r. destruct ok; cbn [negb andb].
      * rewrite andb_false_r. destruct (IH true W') as (b & Eb & Ib). exists b. split; [exact Eb|]. rewrite Ib, AC. tauto.
      * destruct verbose; cbn [negb andb].
        -- destruct (IH false W') as (b & Eb & Ib). exists b. split; [exact Eb|]. rewrite Ib. split; intros (X & _); discriminate.
        -- exists false. split; [reflexivity|]. split; [discriminate|intros (X & _); discriminate].
    + rewrite andb_false_r. cbn [negb]. rewrite andb_true_r. destruct verbose; cbn [negb].
      * destruct (IH false W') as (b & Eb & Ib). exists b. split; [exact Eb|]. rewrite Ib, AC. split; [intros (X & _); discriminate|intros (_ & X & _); discriminate].
      * exists false. split; [reflexivity|]. rewrite AC. split; [discriminate|intros (_ & X & _); discriminate].
Qed.
Lemma check_spec wd_vars limits verbose p res : well_formed wd_vars limits p res -> (verbose = true -> limits <> []) ->
  exists b, check_converged wd_vars limits verbose (Some p) res = Ok b /\ (b = true <-> all_close wd_vars limits p res).
Proof.
  intros W V. unfold check_converged. destruct (conv_loop_spec wd_vars p res verbose limits true W) as (b & E & I).
  exists b. split; [|rewrite I; tauto]. destruct verbose; [|exact E]. destruct limits; [now destruct (V eq_refl)|exact E].
Qed.
Lemma check_list_spec crits : check_list crits = Ok true <-> Forall (fun c => c = Ok true) crits.
Proof.
  induction crits as [|c cs IH]; cbn; [split; auto|]. rewrite Forall_cons_iff, <- IH.
  destruct c as [[|]|e]; cbn; split; intros; intuition (try discriminate; auto).
Qed.
