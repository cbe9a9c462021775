(** Proofs about the reduction of broadcast variables. *)
From Coq Require Import Permutation.
From Verif Require Import Base EngineRun_Model EngineRun_Spec EngineRun_Proofs Combine_Model.

Section C.
  Context {X Y Z : Type}.
  Variable d : Z.
  Variable f : X -> Z.
  Definition bcast (xs : list X) (ps : list (list Y)) : list (list Z) := map (fun x => [f x]) xs.
  Definition cols (n : nat) (xs : list X) : list (list Z) := map (fun x => repeat (f x) n) xs.

  Lemma happ_cols a b xs : happ (cols a xs) (cols b xs) = Ok (cols (a + b) xs).
  Proof. unfold cols. induction xs as [|x xs IH]; cbn; [reflexivity|]. rewrite IH. cbn. now rewrite repeat_app. Qed.
  Lemma hconcat_cols xs n k : hconcat (map (fun _ => cols 1 xs) (seq k (S n))) = Ok (cols (S n) xs).
  Proof.
    revert k. induction n as [|n IH]; intros k; [reflexivity|].
    specialize (IH (S k)). change (seq k (S (S n))) with (k :: seq (S k) (S n)). cbn [map].
    change (map (fun _ : nat => cols 1 xs) (seq (S k) (S n))) with (cols 1 xs :: map (fun _ : nat => cols 1 xs) (seq (S (S k)) n)) in *.
    change (hconcat (cols 1 xs :: cols 1 xs :: map (fun _ : nat => cols 1 xs) (seq (S (S k)) n))) with
      (do t <- hconcat (cols 1 xs :: map (fun _ : nat => cols 1 xs) (seq (S (S k)) n)); happ (cols 1 xs) t).
    rewrite IH. cbn [bind]. apply happ_cols.
  Qed.
  Lemma run_bcast xs (ps : list (list Y)) ls lt sched : nsum ls = length xs -> 1 <= length lt -> Permutation sched (submit ls lt) ->
    run_pool bcast xs ps ls lt sched = Ok (cols (length lt) xs).
  Proof.
    intros Hls Hlen Hperm. unfold run_pool.
    assert (ND : NoDup (map fst (execute bcast xs ps sched))).
    { unfold execute. rewrite map_map. cbn. eapply Permutation_NoDup; [apply Permutation_map, Permutation_sym; exact Hperm|].
      apply submit_keys_nodup_aux. }
    assert (Hres : forall ci cj, ci < length ls -> cj < length lt ->
      lookup (ci, cj) (execute bcast xs ps sched) = Ok (cols 1 (slice (nsum (firstn ci ls)) (nsum (firstn (S ci) ls)) xs))).
    { intros ci cj Hci Hcj. apply lookup_in; [exact ND|]. unfold execute. apply in_map_iff.
      exists (mkjob (ci, cj) (nsum (firstn ci ls)) (nsum (firstn (S ci) ls)) (nsum (firstn cj lt)) (nsum (firstn (S cj) lt))).
      split; [reflexivity|]. eapply Permutation_in; [apply Permutation_sym; exact Hperm|]. exact (state_jobs_in 0 0 ls lt ci cj Hci Hcj). }
    assert (G : forall n a, n = length ls - a -> a <= length ls ->
      combine_rows (execute bcast xs ps sched) a n (length lt) = Ok (cols (length lt) (slice (nsum (firstn a ls)) (nsum ls) xs))).
    { induction n as [|n IH]; intros a Hn Ha.
      - assert (a = length ls) by lia. subst a. rewrite nsum_firstn_all, slice_nil. reflexivity.
      - cbn [combine_rows].
        assert (E : (if length lt =? 1 then lookup (a, 0) (execute bcast xs ps sched)
                 else do ms <- row_results (execute bcast xs ps sched) a 0 (length lt); hconcat ms) =
                 Ok (cols (length lt) (slice (nsum (firstn a ls)) (nsum (firstn (S a) ls)) xs))).
        { destruct (Nat.eqb_spec (length lt) 1) as [E|E].
          - rewrite Hres by lia. now rewrite E.
          - erewrite row_results_ok by (intros k Hk; apply Hres; lia). cbn [bind].
            replace (length lt) with (S (length lt - 1)) by lia. apply hconcat_cols. }
        rewrite E. cbn [bind]. rewrite IH by lia. cbn [bind]. f_equal.
        unfold cols. rewrite <- map_app, slice_app; [reflexivity|]. split; [apply nsum_firstn_le|].
        rewrite <- (nsum_firstn_all ls). clear. generalize (S a) as k.
        induction ls as [|c l IH]; intros k; [destruct k; cbn; lia|].
        destruct k; unfold nsum in *; cbn [firstn fold_right length]; [cbn; lia|]. specialize (IH k). lia. }
    rewrite (G (length ls) 0) by lia. cbn [firstn]. change (nsum []) with 0. rewrite slice_all_le by lia. reflexivity.
  Qed.
  Lemma read_cols xs n s t dX : s < length xs -> t < n -> nth t (nth s (cols n xs) []) d = f (nth s xs dX).
  Proof.
    intros Hs Ht. unfold cols. rewrite (nth_indep _ [] (repeat (f dX) n)) by (now rewrite map_length).
    rewrite (map_nth (fun x => repeat (f x) n)). rewrite (nth_indep _ d (f (nth s xs dX))) by (now rewrite repeat_length). apply nth_repeat.
  Qed.
  Lemma width_cols n xs : xs <> [] -> width (cols n xs) = n.
  Proof. destruct xs as [|x xs]; [contradiction|]. intros _. unfold width, cols. cbn [map hd]. apply repeat_length. Qed.
  Lemma nth0_cols xs n s dX : s < length xs -> 1 <= n -> nth s (map (fun r => nth 0 r d) (cols n xs)) d = f (nth s xs dX).
  Proof.
    intros Hs Hn. unfold cols. rewrite map_map. rewrite (nth_indep _ d (nth 0 (repeat (f dX) n) d)) by (now rewrite map_length).
    rewrite (map_nth (fun x => nth 0 (repeat (f x) n) d)). destruct n; [lia|]. reflexivity.
  Qed.
End C.

Lemma full_targets {Z} (d : Z) n_targets nct m : m <> [] -> Forall (fun r => length r = n_targets) m -> reduce_targets d n_targets nct m = Full m.
Proof.
  intros Hm H. unfold reduce_targets. destruct m as [|r m]; [contradiction|]. inversion H; subst. unfold width. cbn [hd].
  destruct (Nat.ltb_spec nct (length r)); cbn [andb]; [|reflexivity]. destruct (Nat.eqb_spec (length r) nct); [lia|reflexivity].
Qed.
Lemma full_turbines {Z} (d : Z) n m : m <> [] -> Forall (fun r => length r = n) m -> reduce_turbines d n m = Full m.
Proof.
  intros Hm H. unfold reduce_turbines. destruct m as [|r m]; [contradiction|]. inversion H; subst. unfold width. cbn [hd].
  destruct (Nat.eqb_spec (length r) 1); cbn [andb]; [|reflexivity]. destruct (Nat.ltb_spec 1 (length r)); [lia|reflexivity].
Qed.
Lemma bcast_targets {X Y Z} (d : Z) (f : X -> Z) xs (ps : list (list Y)) ls lt sched n_targets s t dX :
  nsum ls = length xs -> lt <> [] -> length lt <= n_targets -> Permutation sched (submit ls lt) -> s < length xs -> t < n_targets ->
  exists m, run_pool (fun xs _ => map (fun x => [f x]) xs) xs ps ls lt sched = Ok m /\ read d (reduce_targets d n_targets (length lt) m) s t = f (nth s xs dX).
Proof.
  intros H1 H2 H3 H4 Hs Ht. assert (L : 1 <= length lt) by (destruct lt; [contradiction|cbn; lia]).
  exists (cols f (length lt) xs). split; [exact (run_bcast f xs ps ls lt sched H1 L H4)|].
  assert (Hx : xs <> []) by (intros ->; cbn in Hs; lia).
  unfold reduce_targets. rewrite (width_cols f (length lt) xs Hx), Nat.eqb_refl, andb_true_r.
  destruct (Nat.ltb_spec (length lt) n_targets); cbn [read].
  - now apply nth0_cols.
  - apply read_cols; [exact Hs|lia].
Qed.
Lemma bcast_turbines {X Z} (d : Z) (f : X -> Z) xs n s t dX : s < length xs -> t < n ->
  read d (reduce_turbines d n (map (fun x => [f x]) xs)) s t = f (nth s xs dX).
Proof.
  intros Hs Ht. change (map (fun x => [f x]) xs) with (cols f 1 xs). assert (Hx : xs <> []) by (intros ->; cbn in Hs; lia).
  unfold reduce_turbines. rewrite (width_cols f 1 xs Hx). cbn [Nat.eqb andb]. destruct (Nat.ltb_spec 1 n); cbn [read].
  - now apply nth0_cols.
  - apply read_cols; [exact Hs|lia].
Qed.
