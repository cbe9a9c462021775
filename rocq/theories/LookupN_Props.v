(** Theorems about LookupTable with any number of input variables. *)
From Coq Require Import Sorting.Permutation.
From Verif Require Import RBase Curves_Model Heights_Model Heights_Proofs Heights_Props Lookup_Model Lookup_Proofs Lookup_Props LookupN_Model LookupN_Proofs.
Local Open Scope R_scope.

(** C155: a table with two or more input variables can be loaded exactly if it has rows for all combinations of its input values *)
Theorem C155_n_full_grid n rows : (2 <= n)%nat -> rows <> [] -> (forall r, In r rows -> length (fst r) = n) ->
  (exists d, load_n n rows = Some d) <->
  (forall k, length k = n -> (forall i, (i < n)%nat -> exists r, In r rows /\ nth i (fst r) 0 = nth i k 0) -> exists v, In (k, v) rows).
Proof.
  intros Hn Hr Hl. split.
  - intros (d & H) k Lk Hk. destruct (load_n_some n rows d Hr Hl H) as (_ & A & P & _). set (keys := sort_u llt leqb (map fst rows)) in *.
    assert (I : In k keys).
    { rewrite P. apply grid_in. rewrite A.
      assert (G : forall k' s, (forall i, (i < length k')%nat -> nth i k' 0 = nth (s + i) k 0) -> (s + length k' = n)%nat ->
         Forall2 (fun x a => In x a) k' (map (fun i => sort_u Rltb Reqb (col i keys)) (seq s (length k')))).
      { induction k' as [|x k' IH]; intros s Q L; cbn [length seq map] in *; constructor.
        - apply (sort_in Rltb Reqb Reqb_true). destruct (Hk s ltac:(lia)) as (r & Ir & E). unfold col. apply in_map_iff. exists (fst r).
          split; [rewrite E; specialize (Q 0%nat ltac:(lia)); cbn [nth] in Q; rewrite Q; f_equal; lia|]. apply keys_in. now apply in_map.
        - apply IH; [|lia]. intros i Hi. specialize (Q (S i) ltac:(lia)). cbn [nth] in Q. rewrite Q. f_equal. lia. }
      rewrite <- Lk. apply G; [reflexivity|exact Lk]. }
    apply (proj1 (keys_in (map fst rows) k)) in I. apply in_map_iff in I. destruct I as ([k' v] & <- & I). now exists v.
  - intros H. unfold load_n. set (keys := sort_u llt leqb (map fst rows)). set (levels := map (fun i => sort_u Rltb Reqb (col i keys)) (seq 0 n)).
    assert (Ll : length levels = n) by (unfold levels; now rewrite map_length, seq_length).
    destruct (levshape levels) as [s|] eqn:Hs; [|exfalso; destruct levels as [|a [|b l]]; cbn in Ll, Hs; try discriminate; lia].
    assert (Sl : Forall (srt Rltb) levels) by (apply Forall_forall; intros a Ia; unfold levels in Ia; apply in_map_iff in Ia; destruct Ia as (i & <- & _); apply rsort_srt).
    assert (Lk : forall k, In k keys -> length k = n).
    { intros k Hk. apply (proj1 (keys_in (map fst rows) k)) in Hk. apply in_map_iff in Hk. destruct Hk as (r & <- & Hk). now apply Hl. }
    assert (P : keys = grid levels).
    { apply (srt_eq llt llt_irr llt_tr); [apply keys_srt|now apply grid_srt|]. intros k. split; intros I.
      - apply grid_in, key_cols; [now apply Lk|exact I].
      - apply grid_in in I. apply keys_in.
        assert (L : length k = n) by (rewrite <- Ll; clear -I; induction I; cbn; congruence).
        assert (Q : forall i, (i < n)%nat -> In (nth i k 0) (nth i levels [])).
        { intros i Hi. rewrite <- L in Hi. clear -I Hi. revert i Hi. induction I as [|x a k' r Hx I IH]; intros [|i] Hi; cbn [length] in Hi; try lia; cbn [nth]; [exact Hx|apply IH; lia]. }
        destruct (H k L) as (v & I2); [|change k with (fst (k, v)); now apply in_map]. intros i Hi. specialize (Q i Hi). unfold levels in Q.
        rewrite (nth_indep _ [] ((fun i => sort_u Rltb Reqb (col i keys)) 0%nat)) in Q by (rewrite map_length, seq_length; exact Hi).
        rewrite (map_nth (fun i => sort_u Rltb Reqb (col i keys))), seq_nth in Q by exact Hi. apply (proj1 (sort_in Rltb Reqb Reqb_true _ _)) in Q. unfold col in Q.
        apply in_map_iff in Q. destruct Q as (k2 & E & Q). apply (proj1 (keys_in (map fst rows) k2)) in Q. apply in_map_iff in Q. destruct Q as (r & <- & Q). now exists r. }
    assert (Ne : Forall (fun a => a <> []) levels).
    { apply Forall_forall. intros a Ia Q. unfold levels in Ia. apply in_map_iff in Ia. destruct Ia as (i & <- & _). destruct rows as [|r0 rows]; [congruence|].
      assert (I2 : In (nth i (fst r0) 0) (sort_u Rltb Reqb (col i keys))).
      { apply (sort_in Rltb Reqb Reqb_true); unfold col; apply in_map_iff; exists (fst r0). split; [reflexivity|]. apply keys_in. now left. } rewrite Q in I2. destruct I2. }
    assert (Ex : map (fun i => uniq Reqb (col i keys)) (seq 0 n) = levels).
    { transitivity (map (fun i => nth i levels []) (seq 0 n)); [|rewrite <- Ll; apply map_nth_seq]. apply map_ext_in. intros i Hi. apply in_seq in Hi. rewrite P. apply uniq_col; [|exact Ne|lia].
      eapply Forall_impl; [|exact Sl]. intros a. apply (srt_nodup Rltb rlt_irr). }
    rewrite Ex, Nat.eqb_refl. replace (length keys) with (size levels) by (rewrite <- grid_len, <- P; reflexivity). rewrite Nat.eqb_refl. cbn [andb]. eexists. reflexivity.
Qed.
Print Assumptions C155_n_full_grid.
(** ... its axes have the input values, ascending and without repetitions *)
Theorem C155_n_axes n rows d : rows <> [] -> (forall r, In r rows -> length (fst r) = n) -> load_n n rows = Some d ->
  length (axes d) = n /\ (forall i, (i < n)%nat -> ascending (nth i (axes d) []) /\ forall x, In x (nth i (axes d) []) <-> exists r, In r rows /\ nth i (fst r) 0 = x).
Proof.
  intros Hr Hl H. destruct (load_n_some n rows d Hr Hl H) as (_ & A & _ & _). destruct (loaded_axes n rows d Hr Hl H) as (L & As). split; [exact L|]. intros i Hi. split.
  - rewrite Forall_forall in As. apply As, nth_In. lia.
  - intros x. rewrite A. set (keys := sort_u llt leqb (map fst rows)).
    rewrite (nth_indep _ [] ((fun i => sort_u Rltb Reqb (col i keys)) 0%nat)) by (rewrite map_length, seq_length; exact Hi).
    rewrite (map_nth (fun i => sort_u Rltb Reqb (col i keys))), seq_nth by exact Hi. cbn [Nat.add]. rewrite (sort_in Rltb Reqb Reqb_true). unfold col. rewrite in_map_iff. split.
    + intros (k & <- & I). apply (proj1 (keys_in (map fst rows) k)) in I. apply in_map_iff in I. destruct I as (r & <- & I). now exists r.
    + intros (r & I & <-). exists (fst r). split; [reflexivity|]. apply keys_in. now apply in_map.
Qed.
Print Assumptions C155_n_axes.
(** ... at a row's inputs the result is the row's value, or the mean over all rows with these inputs *)
Theorem C155_n_nodes n rows d x v : (forall r, In r rows -> length (fst r) = n) -> load_n n rows = Some d -> Forall (fun a => (2 <= length a)%nat) (axes d) -> In (x, v) rows ->
  lookup_n d x = Some (mean_n rows x) /\ (NoDup (map fst rows) -> lookup_n d x = Some v).
Proof.
  intros Hl H L I. assert (Hr : rows <> []) by (intros ->; destruct I). destruct (loaded_axes n rows d Hr Hl H) as (_ & As).
  destruct (load_n_some n rows d Hr Hl H) as (_ & _ & P & _).
  assert (Ig : In x (grid (axes d))) by (rewrite <- P; apply keys_in; change x with (fst (x, v)); now apply in_map).
  destruct (multi_node (axes d) As L x Ig) as (ws & k & Ew & Hk & Ek & M).
  assert (E : lookup_n d x = Some (mean_n rows x)).
  { unfold lookup_n. rewrite Ew, M. f_equal. rewrite (proj1 (loaded_value n rows d k Hr Hl H Hk)). now rewrite Ek. }
  split; [exact E|]. intros N. rewrite E. f_equal. now apply mean_n_single.
Qed.
Print Assumptions C155_n_nodes.
(** ... in between it is within the range of the table's values *)
Theorem C155_n_within n rows d x a b : rows <> [] -> (forall r, In r rows -> length (fst r) = n) -> load_n n rows = Some d -> Forall (fun a => (2 <= length a)%nat) (axes d) ->
  Forall2 (fun y ax => nth 0 ax 0 <= y <= nth (length ax - 1) ax 0) x (axes d) -> (forall r, In r rows -> a <= snd r <= b) ->
  exists v, lookup_n d x = Some v /\ a <= v <= b.
Proof.
  intros Hr Hl H L Hx Hb. destruct (loaded_axes n rows d Hr Hl H) as (_ & As). destruct (multi_within (axes d) As L x Hx) as (ws & Ew & M).
  unfold lookup_n. rewrite Ew. eexists. split; [reflexivity|]. apply M. intros k Hk. destruct (loaded_value n rows d k Hr Hl H Hk) as (-> & I). now apply mean_n_bounds.
Qed.
Print Assumptions C155_n_within.
(** ... and if one of the inputs is outside there is an error *)
Theorem C155_n_outside d x i : length x = length (axes d) -> (i < length x)%nat ->
  let ax := nth i (axes d) [] in nth i x 0 < nth 0 ax 0 \/ nth (length ax - 1) ax 0 < nth i x 0 -> lookup_n d x = None.
Proof.
  intros L Hi ax H. unfold lookup_n. rewrite weights_outside; [reflexivity|]. apply Exists_exists. exists (nth i x 0, ax). split.
  - unfold ax. rewrite <- combine_nth by exact L. apply nth_In. rewrite combine_length. lia.
  - cbn [fst snd]. unfold inside. lra.
Qed.
Print Assumptions C155_n_outside.
(** ... if the output is an affine function of the inputs at all rows, the result is this function *)
Theorem C155_n_affine n rows d x c (cs : list R) : rows <> [] -> (forall r, In r rows -> length (fst r) = n) -> load_n n rows = Some d -> Forall (fun a => (2 <= length a)%nat) (axes d) ->
  length cs = n -> Forall2 (fun y ax => nth 0 ax 0 <= y <= nth (length ax - 1) ax 0) x (axes d) ->
  (forall r, In r rows -> snd r = c + rsum (map (fun p => fst p * snd p) (combine cs (fst r)))) -> lookup_n d x = Some (c + rsum (map (fun p => fst p * snd p) (combine cs x))).
Proof.
  intros Hr Hl H L Lc Hx Hv. destruct (loaded_axes n rows d Hr Hl H) as (La & As). destruct (multi_affine (axes d) As L x Hx) as (ws & Ew & M).
  unfold lookup_n. rewrite Ew. f_equal. apply M; [lia|]. intros k Hk. destruct (loaded_value n rows d k Hr Hl H Hk) as (-> & I). now apply mean_n_affine.
Qed.
Print Assumptions C155_n_affine.
(** ... the order of the rows does not matter *)
Theorem C155_n_row_order n rows rows' : Permutation rows rows' -> load_n n rows = load_n n rows'.
Proof.
  intros H. unfold load_n.
  assert (E : sort_u llt leqb (map fst rows) = sort_u llt leqb (map fst rows')).
  { apply (srt_eq llt llt_irr llt_tr); try apply keys_srt. intros x. rewrite !keys_in. split; intros I; eapply Permutation_in; try exact I; [|apply Permutation_sym]; now apply Permutation_map. }
  rewrite E. destruct (levshape _); [|reflexivity]. destruct (andb _ _); [|reflexivity]. f_equal. f_equal. apply map_ext. intros k. now apply mean_n_perm.
Qed.
Print Assumptions C155_n_row_order.
(** ... but a table with one input variable cannot be loaded *)
Theorem C155_n_one_input_refuted rows : load_n 1 rows = None.
Proof. reflexivity. Qed.
Print Assumptions C155_n_one_input_refuted.
(** a table with three inputs *)
Definition ex_rows : list rown := map (fun k => (k, 1 + (2 * nth 0 k 0 + (3 * nth 1 k 0 + (4 * nth 2 k 0 + 0)))))
  [[1; 0; 0]; [0; 0; 0]; [0; 0; 1]; [0; 1; 0]; [0; 1; 1]; [1; 1; 1]; [1; 1; 0]; [1; 0; 1]].
Example C155_n_nonvacuous : exists d, load_n 3 ex_rows = Some d /\ Forall (fun a => (2 <= length a)%nat) (axes d) /\ lookup_n d [1/2; 1; 1/4] = Some 6 /\ lookup_n d [1/2; 2; 1/4] = None.
Proof.
  assert (Hr : ex_rows <> []) by discriminate.
  assert (Hl : forall r, In r ex_rows -> length (fst r) = 3%nat). { intros r Ir. apply in_map_iff in Ir. destruct Ir as (k & <- & I). cbn [fst]. cbn in I. repeat destruct I as [<-|I]; try reflexivity. destruct I. }
  assert (V : forall r, In r ex_rows -> snd r = 1 + rsum (map (fun p => fst p * snd p) (combine [2; 3; 4] (fst r)))).
  { intros r Ir. apply in_map_iff in Ir. destruct Ir as (k & <- & I). cbn in I. repeat destruct I as [<-|I]; try (cbn; lra). }
  destruct (proj2 (C155_n_full_grid 3 ex_rows ltac:(lia) Hr Hl)) as (d & H).
  { intros k Lk Hk. destruct k as [|x [|y [|z [|? ?]]]]; try discriminate.
    assert (B : forall i, (i < 3)%nat -> nth i [x; y; z] 0 = 0 \/ nth i [x; y; z] 0 = 1).
    { intros i Hi. destruct (Hk i Hi) as (r & Ir & <-). apply in_map_iff in Ir. destruct Ir as (k & <- & Ik). cbn [fst]. cbn in Ik.
      destruct i as [|[|[|i]]]; [| | |lia]; repeat destruct Ik as [<-|Ik]; try (cbn; lra). }
    pose proof (B 0%nat ltac:(lia)) as B0. pose proof (B 1%nat ltac:(lia)) as B1. pose proof (B 2%nat ltac:(lia)) as B2. cbn [nth] in B0, B1, B2.
    destruct B0 as [->| ->], B1 as [->| ->], B2 as [->| ->]; eexists; unfold ex_rows; apply in_map_iff;
      (eexists; split; [reflexivity|cbn; tauto]). }
  exists d. split; [exact H|]. destruct (C155_n_axes 3 ex_rows d Hr Hl H) as (La & Ax).
  assert (M : forall i, (i < 3)%nat -> In 0 (nth i (axes d) []) /\ In 1 (nth i (axes d) []) /\ forall x, In x (nth i (axes d) []) -> x = 0 \/ x = 1).
  { intros i Hi. destruct (Ax i Hi) as (_ & A). repeat split.
    - apply A. exists ([0; 0; 0], 1 + (2 * 0 + (3 * 0 + (4 * 0 + 0)))). split; [unfold ex_rows; cbn; tauto|]. destruct i as [|[|[|i]]]; [| | |lia]; reflexivity.
    - apply A. exists ([1; 1; 1], 1 + (2 * 1 + (3 * 1 + (4 * 1 + 0)))). split; [unfold ex_rows; cbn; tauto|]. destruct i as [|[|[|i]]]; [| | |lia]; reflexivity.
    - intros x Ix. apply A in Ix. destruct Ix as (r & Ir & <-). apply in_map_iff in Ir. destruct Ir as (k & <- & Ik). cbn [fst]. cbn in Ik.
      destruct i as [|[|[|i]]]; [| | |lia]; repeat destruct Ik as [<-|Ik]; try (cbn; lra). }
  assert (L2 : forall i, (i < 3)%nat -> nth i (axes d) [] = [0; 1]).
  { intros i Hi. destruct (M i Hi) as (I0 & I1 & I2). destruct (Ax i Hi) as (As & _). set (a := nth i (axes d) []) in *.
    destruct a as [|p [|q [|s a]]]; [destruct I0| | |].
    - destruct I0 as [Q|[]], I1 as [P|[]]. lra.
    - specialize (As 0%nat 1%nat ltac:(cbn; lia)). cbn in As. destruct (I2 p (or_introl eq_refl)), (I2 q (or_intror (or_introl eq_refl))); try lra. subst. reflexivity.
    - pose proof (As 0%nat 1%nat ltac:(cbn; lia)) as Q1. pose proof (As 1%nat 2%nat ltac:(cbn; lia)) as Q2. cbn in Q1, Q2.
      destruct (I2 p (or_introl eq_refl)), (I2 q (or_intror (or_introl eq_refl))), (I2 s (or_intror (or_intror (or_introl eq_refl)))); lra. }
  assert (E : axes d = [[0; 1]; [0; 1]; [0; 1]]).
  { destruct (axes d) as [|a [|b [|c [|? ?]]]]; try discriminate.
    pose proof (L2 0%nat ltac:(lia)) as Q0. pose proof (L2 1%nat ltac:(lia)) as Q1. pose proof (L2 2%nat ltac:(lia)) as Q2. cbn [nth] in *. congruence. }
  assert (Fl : Forall (fun a => (2 <= length a)%nat) (axes d)) by (rewrite E; repeat constructor).
  split; [exact Fl|]. split.
  - rewrite (C155_n_affine 3 ex_rows d [1/2; 1; 1/4] 1 [2; 3; 4] Hr Hl H Fl eq_refl); [f_equal; cbn; lra| |exact V].
    rewrite E. repeat constructor; cbn; lra.
  - apply (C155_n_outside d [1/2; 2; 1/4] 1); [rewrite E; reflexivity|cbn; lia|]. rewrite E. cbn. lra.
Qed.
