From Verif Require Import Base EngineRun_Model EngineRun_Spec Chunk_Model Chunk_Spec Chunk_Proofs.
From Coq Require Import Permutation.

Lemma firstn_add {A} n m (l : list A) : firstn (n + m) l = firstn n l ++ firstn m (skipn n l).
Proof.
  revert l; induction n; intros l; [reflexivity|].
  destruct l; cbn; [now rewrite firstn_nil|]. now rewrite IHn.
Qed.
Lemma skipn_add {A} n m (l : list A) : skipn n (skipn m l) = skipn (m + n) l.
Proof. revert l; induction m; intros l; [reflexivity|]. destruct l; cbn; [now rewrite skipn_nil|]. apply IHm. Qed.

Lemma slice_app {A} a b c (l : list A) : a <= b <= c -> slice a b l ++ slice b c l = slice a c l.
Proof.
  intros H. unfold slice. replace (c - a) with ((b - a) + (c - b)) by lia.
  rewrite firstn_add, skipn_add. now replace (a + (b - a)) with b by lia.
Qed.
Lemma slice_all {A} (l : list A) : slice 0 (length l) l = l.
Proof. unfold slice. cbn. rewrite Nat.sub_0_r. apply firstn_all. Qed.
Lemma slice_all_le {A} n (l : list A) : length l <= n -> slice 0 n l = l.
Proof. unfold slice. cbn. rewrite Nat.sub_0_r. apply firstn_all2. Qed.
Lemma slice_length {A} a b (l : list A) : b <= length l -> length (slice a b l) = b - a.
Proof. intros H. unfold slice. rewrite firstn_length, skipn_length. lia. Qed.
Lemma slice_nil {A} a (l : list A) : slice a a l = [].
Proof. unfold slice. now rewrite Nat.sub_diag. Qed.

Lemma key_eqb_spec a b : reflect (a = b) (key_eqb a b).
Proof.
  destruct a as [a1 a2], b as [b1 b2]. unfold key_eqb. cbn.
  destruct (Nat.eqb_spec a1 b1), (Nat.eqb_spec a2 b2); cbn; constructor; congruence.
Qed.

Lemma lookup_in {V} k (v : V) m : NoDup (map fst m) -> In (k, v) m -> lookup k m = Ok v.
Proof.
  induction m as [|[k' v'] m IH]; cbn; intros ND Hin; [contradiction|].
  inversion ND as [|? ? Hni ND']; subst.
  destruct (key_eqb_spec k k') as [->|Hne].
  - destruct Hin as [[= ->]|Hin]; [reflexivity|]. exfalso. apply Hni.
    change k' with (fst (k', v)). now apply in_map.
  - destruct Hin as [[= -> ->]|Hin]; [congruence|]. auto.
Qed.

(** ** the submitted jobs *)
Lemma target_jobs_keys ci cj i0 i1 t0 lt :
  map jkey (target_jobs ci cj i0 i1 t0 lt) = map (fun c => (ci, c)) (seq cj (length lt)).
Proof. revert cj t0; induction lt; intros; cbn; [reflexivity|]. now rewrite IHlt. Qed.

Lemma state_jobs_keys_ge ci i0 ls lt j : In j (state_jobs ci i0 ls lt) -> ci <= fst (jkey j).
Proof.
  revert ci i0; induction ls as [|c ls IH]; cbn; intros ci i0 H; [contradiction|].
  apply in_app_or in H. destruct H as [H|H].
  - apply (in_map jkey) in H. rewrite target_jobs_keys in H. apply in_map_iff in H.
    destruct H as (x & <- & _). cbn. lia.
  - apply IH in H. lia.
Qed.

Lemma NoDup_app_intro {A} (l1 l2 : list A) : NoDup l1 -> NoDup l2 -> (forall x, In x l1 -> ~ In x l2) -> NoDup (l1 ++ l2).
Proof.
  induction l1; cbn; intros H1 H2 Hd; [exact H2|]. inversion H1; subst. constructor.
  - rewrite in_app_iff. intros [H|H]; [auto|]. apply (Hd a); auto.
  - apply IHl1; auto.
Qed.

Lemma submit_keys_nodup_aux ci i0 ls lt : NoDup (map jkey (state_jobs ci i0 ls lt)).
Proof.
  revert ci i0; induction ls as [|c ls IH]; cbn; intros ci i0; [constructor|].
  rewrite map_app. apply NoDup_app_intro.
  - rewrite target_jobs_keys. apply FinFun.Injective_map_NoDup; [|apply seq_NoDup].
    intros x y [= ->]; reflexivity.
  - apply IH.
  - intros k Hk Hk2. rewrite target_jobs_keys in Hk. apply in_map_iff in Hk.
    destruct Hk as (x & <- & _). apply in_map_iff in Hk2. destruct Hk2 as (j & Ej & Hj).
    apply state_jobs_keys_ge in Hj. rewrite Ej in Hj. cbn in Hj. lia.
Qed.

Lemma target_jobs_in ci cj i0 i1 t0 lt k :
  k < length lt ->
  In (mkjob (ci, cj + k) i0 i1 (t0 + nsum (firstn k lt)) (t0 + nsum (firstn (S k) lt)))
     (target_jobs ci cj i0 i1 t0 lt).
Proof.
  revert cj t0 k; induction lt as [|c lt IH]; intros cj t0 k Hk; cbn in Hk; [lia|].
  destruct k as [|k].
  - left. cbn. rewrite !Nat.add_0_r. reflexivity.
  - right. specialize (IH (S cj) (t0 + c) k ltac:(lia)).
    replace (cj + S k) with (S cj + k) by lia.
    cbn [firstn nsum fold_right] in *. unfold nsum in *. cbn [fold_right].
    rewrite !Nat.add_assoc in *. exact IH.
Qed.

Lemma state_jobs_in ci i0 ls lt a k :
  a < length ls -> k < length lt ->
  In (mkjob (ci + a, k) (i0 + nsum (firstn a ls)) (i0 + nsum (firstn (S a) ls))
       (nsum (firstn k lt)) (nsum (firstn (S k) lt)))
     (state_jobs ci i0 ls lt).
Proof.
  revert ci i0 a; induction ls as [|c ls IH]; intros ci i0 a Ha Hk; cbn in Ha; [lia|].
  cbn [state_jobs]. apply in_or_app. destruct a as [|a].
  - left. pose proof (target_jobs_in ci 0 i0 (i0 + c) 0 lt k Hk) as H. cbn [Nat.add] in H.
    cbn. rewrite !Nat.add_0_r. exact H.
  - right. specialize (IH (S ci) (i0 + c) a ltac:(lia) Hk).
    replace (ci + S a) with (S ci + a) by lia.
    cbn [firstn]. unfold nsum in *. cbn [fold_right firstn] in *. rewrite !Nat.add_assoc in *. exact IH.
Qed.

Lemma nsum_firstn_S k l : k < length l -> nsum (firstn (S k) l) = nsum (firstn k l) + nth k l 0.
Proof.
  revert k; induction l as [|c l IH]; intros k Hk; cbn in Hk; [lia|].
  destruct k as [|k]; [cbn; lia|].
  cbn [firstn nth]. unfold nsum in *. cbn [fold_right]. specialize (IH k ltac:(lia)).
  cbn [firstn] in IH. rewrite IH. lia.
Qed.
Lemma nsum_firstn_le k l : nsum (firstn k l) <= nsum (firstn (S k) l).
Proof.
  revert k; induction l as [|c l IH]; intros [|k]; unfold nsum in *; cbn; try lia.
  specialize (IH k). cbn in IH. lia.
Qed.
Lemma nsum_firstn_all l : nsum (firstn (length l) l) = nsum l.
Proof. now rewrite firstn_all. Qed.

(** ** combination *)
Section Comb.
  Context {X Y Z : Type}.
  Variable calc : list X -> list (list Y) -> list (list Z).
  Variable g : X -> Y -> Z.
  Hypothesis Hg : forall xs ps, calc xs ps = map (fun xr => map (g (fst xr)) (snd xr)) (combine xs ps).

  (** block of rows [zs], target range [t0,t1) *)
  Definition block (zs : list (X * list Y)) (t0 t1 : nat) : list (list Z) :=
    map (fun xr => map (g (fst xr)) (slice t0 t1 (snd xr))) zs.

  Lemma combine_map_r {A B C} (f : B -> C) (l : list A) (m : list B) :
    combine l (map f m) = map (fun p => (fst p, f (snd p))) (combine l m).
  Proof. revert m; induction l; intros [|b m]; cbn; auto. now rewrite IHl. Qed.

  Lemma run_job_block xs ps k i0 i1 t0 t1 :
    run_job calc xs ps (mkjob k i0 i1 t0 t1) = block (combine (slice i0 i1 xs) (slice i0 i1 ps)) t0 t1.
  Proof.
    unfold run_job. cbn. rewrite Hg, combine_map_r, map_map. reflexivity.
  Qed.

  Lemma combine_slice {A B} i0 i1 (l : list A) (m : list B) :
    combine (slice i0 i1 l) (slice i0 i1 m) = slice i0 i1 (combine l m).
  Proof.
    unfold slice. generalize (i1 - i0) as n. revert l m; induction i0 as [|i IH]; intros l m n.
    - cbn [skipn]. revert l m; induction n; intros [|a l] [|b m]; cbn; auto. now rewrite IHn.
    - destruct l as [|a l], m as [|b m]; cbn [skipn combine]; rewrite ?firstn_nil; try reflexivity.
      + now destruct (firstn n (skipn i l)).
      + apply IH.
  Qed.

  Lemma happ_block zs t0 t1 t2 : t0 <= t1 <= t2 -> happ (block zs t0 t1) (block zs t1 t2) = Ok (block zs t0 t2).
  Proof.
    intros H. unfold block. induction zs as [|[x r] zs IH]; cbn; [reflexivity|].
    rewrite IH. cbn. rewrite <- map_app, slice_app by lia. reflexivity.
  Qed.

  Lemma hconcat_blocks zs lt k : k < length lt ->
    hconcat (map (fun cj => block zs (nsum (firstn cj lt)) (nsum (firstn (S cj) lt))) (seq k (length lt - k)))
    = Ok (block zs (nsum (firstn k lt)) (nsum lt)).
  Proof.
    intros Hk. remember (length lt - k - 1) as d eqn:Hd. revert k Hk Hd.
    induction d as [|d IH]; intros k Hk Hd.
    - replace (length lt - k) with 1 by lia. cbn [seq map hconcat].
      replace (S k) with (length lt) by lia. now rewrite nsum_firstn_all.
    - replace (length lt - k) with (S (S d)) by lia. cbn [seq map].
      specialize (IH (S k) ltac:(lia) ltac:(lia)).
      replace (length lt - S k) with (S d) in IH by lia. cbn [seq map] in IH.
      change (hconcat (?a :: ?b :: ?c)) with (do t <- hconcat (b :: c); happ a t).
      rewrite IH. cbn [bind]. apply happ_block. split; [apply nsum_firstn_le|].
      rewrite <- (nsum_firstn_all lt). clear. revert k; induction lt as [|c lt IH]; intros k; [destruct k; cbn; lia|].
      destruct k; unfold nsum in *; cbn [firstn fold_right length]; [cbn; lia|].
      specialize (IH k). cbn [firstn] in IH. lia.
  Qed.

  Lemma row_results_ok {V} (res : list (key * V)) (f : nat -> V) ci cj n :
    (forall k, cj <= k < cj + n -> lookup (ci, k) res = Ok (f k)) ->
    row_results res ci cj n = Ok (map f (seq cj n)).
  Proof.
    revert cj; induction n as [|n IH]; intros cj H; [reflexivity|].
    cbn. rewrite (H cj) by lia. cbn. rewrite IH by (intros; apply H; lia). reflexivity.
  Qed.

  Lemma combine_rows_ok (res : list (key * list (list Z))) (zs : list (X * list Y)) ls lt a :
    a <= length ls -> 1 <= length lt ->
    (forall ci cj, ci < length ls -> cj < length lt ->
       lookup (ci, cj) res = Ok (block (slice (nsum (firstn ci ls)) (nsum (firstn (S ci) ls)) zs)
                                   (nsum (firstn cj lt)) (nsum (firstn (S cj) lt)))) ->
    combine_rows res a (length ls - a) (length lt)
    = Ok (block (slice (nsum (firstn a ls)) (nsum ls) zs) 0 (nsum lt)).
  Proof.
    intros Ha Hlt Hres. remember (length ls - a) as n eqn:Hn. revert a Ha Hn.
    induction n as [|n IH]; intros a Ha Hn.
    - assert (a = length ls) by lia. subst a. rewrite nsum_firstn_all, slice_nil. reflexivity.
    - cbn [combine_rows].
      assert (E : (if length lt =? 1 then lookup (a, 0) res
               else do ms <- row_results res a 0 (length lt); hconcat ms) =
               Ok (block (slice (nsum (firstn a ls)) (nsum (firstn (S a) ls)) zs) 0 (nsum lt))).
      { destruct (Nat.eqb_spec (length lt) 1) as [E|E].
        - rewrite (Hres a 0) by lia. rewrite <- E, nsum_firstn_all. reflexivity.
        - erewrite row_results_ok by (intros k Hk; apply Hres; lia).
          cbn [bind].
          pose proof (hconcat_blocks (slice (nsum (firstn a ls)) (nsum (firstn (S a) ls)) zs) lt 0 ltac:(lia)) as Hc.
          rewrite Nat.sub_0_r in Hc. exact Hc. }
      rewrite E. cbn [bind]. rewrite IH by lia. cbn [bind]. f_equal.
      unfold block. rewrite <- map_app, slice_app; [reflexivity|].
      split; [apply nsum_firstn_le|].
      rewrite <- (nsum_firstn_all ls). clear. generalize (S a) as k.
      induction ls as [|c l IH]; intros k; [destruct k; cbn; lia|].
      destruct k; unfold nsum in *; cbn [firstn fold_right length]; [cbn; lia|].
      specialize (IH k). lia.
  Qed.

  Lemma run_pool_ok xs ps ls lt sched ns nt :
    length xs = ns -> shape ps ns nt -> nsum ls = ns -> nsum lt = nt -> 1 <= length lt ->
    Permutation sched (submit ls lt) ->
    run_pool calc xs ps ls lt sched = Ok (calc xs ps).
  Proof.
    intros Hx (Hp1 & Hp2) Hls Hlt Hlen Hperm.
    unfold run_pool.
    assert (ND : NoDup (map fst (execute calc xs ps sched))).
    { unfold execute. rewrite map_map. cbn.
      eapply Permutation_NoDup; [apply Permutation_map, Permutation_sym; exact Hperm|].
      apply submit_keys_nodup_aux. }
    pose proof (combine_rows_ok (execute calc xs ps sched) (combine xs ps) ls lt 0 ltac:(lia) Hlen) as H.
    rewrite Nat.sub_0_r in H. rewrite H.
    - f_equal. rewrite Hg. cbn [firstn]. unfold block.
      assert (length (combine xs ps) = ns) by (rewrite combine_length; lia).
      rewrite slice_all_le by (unfold nsum in *; cbn; lia).
      apply map_ext_in. intros [x r] Hin. cbn.
      apply in_combine_r in Hin. rewrite Forall_forall in Hp2. specialize (Hp2 r Hin).
      rewrite slice_all_le by lia. reflexivity.
    - intros ci cj Hci Hcj. apply lookup_in; [exact ND|].
      unfold execute. apply in_map_iff.
      exists (mkjob (ci, cj) (nsum (firstn ci ls)) (nsum (firstn (S ci) ls)) (nsum (firstn cj lt)) (nsum (firstn (S cj) lt))).
      split.
      + rewrite run_job_block, combine_slice. reflexivity.
      + eapply Permutation_in; [apply Permutation_sym; exact Hperm|].
        pose proof (state_jobs_in 0 0 ls lt ci cj Hci Hcj) as Hi. exact Hi.
  Qed.

  Lemma run_single_ok xs ps ns nt : length xs = ns -> shape ps ns nt -> 1 <= ns ->
    run_single calc xs ps = Ok (calc xs ps).
  Proof.
    intros Hx (Hp1 & Hp2) Hns. unfold run_single. cbn. rewrite app_nil_r. f_equal.
    rewrite slice_all. rewrite (slice_all_le (length xs) ps) by lia.
    f_equal. transitivity (map (fun r => r) ps); [|apply map_id]. apply map_ext_in. intros r Hr.
    apply slice_all_le. rewrite Forall_forall in Hp2. rewrite (Hp2 r Hr).
    destruct ps as [|r0 ps]; [contradiction|]. cbn. rewrite (Hp2 r0); [lia|now left].
  Qed.
End Comb.

Section Farm.
  Context {X Z : Type}.
  Variable calc : list X -> list Z.
  Variable g : X -> Z.
  Hypothesis Hg : forall xs, calc xs = map g xs.
  Lemma combine_farm_ok (res : list (key * list Z)) xs ls a :
    a <= length ls ->
    (forall ci, ci < length ls -> lookup (ci, 0) res = Ok (map g (slice (nsum (firstn ci ls)) (nsum (firstn (S ci) ls)) xs))) ->
    combine_farm res a (length ls - a) = Ok (map g (slice (nsum (firstn a ls)) (nsum ls) xs)).
  Proof.
    intros Ha Hres. remember (length ls - a) as n eqn:Hn. revert a Ha Hn.
    induction n as [|n IH]; intros a Ha Hn.
    - assert (a = length ls) by lia. subst a. rewrite nsum_firstn_all, slice_nil. reflexivity.
    - cbn [combine_farm]. rewrite Hres by lia. cbn [bind]. rewrite IH by lia. cbn [bind]. f_equal.
      rewrite <- map_app, slice_app; [reflexivity|].
      split; [apply nsum_firstn_le|].
      rewrite <- (nsum_firstn_all ls). clear. generalize (S a) as k.
      induction ls as [|c l IH]; intros k; [destruct k; cbn; lia|].
      destruct k; unfold nsum in *; cbn [firstn fold_right length]; [cbn; lia|].
      specialize (IH k). lia.
  Qed.
  Lemma run_pool_farm_ok xs ls sched :
    nsum ls = length xs -> Permutation sched (submit ls [0]) ->
    run_pool_farm calc xs ls sched = Ok (calc xs).
  Proof.
    intros Hls Hperm. unfold run_pool_farm.
    set (res := map _ sched).
    assert (ND : NoDup (map fst res)).
    { unfold res. rewrite map_map. cbn.
      eapply Permutation_NoDup; [apply Permutation_map, Permutation_sym; exact Hperm|].
      apply submit_keys_nodup_aux. }
    pose proof (combine_farm_ok res xs ls 0 ltac:(lia)) as H. rewrite Nat.sub_0_r in H. rewrite H.
    - rewrite Hg. cbn [firstn]. rewrite slice_all_le by lia. reflexivity.
    - intros ci Hci. apply lookup_in; [exact ND|]. unfold res. apply in_map_iff.
      exists (mkjob (ci, 0) (nsum (firstn ci ls)) (nsum (firstn (S ci) ls)) 0 0). split.
      + unfold run_farm_job. cbn [ji0 ji1 jkey]. rewrite Hg. reflexivity.
      + eapply Permutation_in; [apply Permutation_sym; exact Hperm|].
        exact (state_jobs_in 0 0 ls [0] ci 0 Hci ltac:(cbn; lia)).
  Qed.
End Farm.

(** ** map *)
Lemma array_split_aux_concat {A} (l : list A) q r n :
  r <= n -> length l = n * q + r -> concat (array_split_aux l q r n) = l.
Proof.
  revert l r; induction n as [|n IH]; intros l r Hr Hl.
  - cbn in *. destruct l; [reflexivity|cbn in Hl; lia].
  - cbn [array_split_aux concat]. set (c := if r =? 0 then q else S q).
    rewrite IH.
    + apply firstn_skipn.
    + lia.
    + rewrite skipn_length. unfold c. destruct (Nat.eqb_spec r 0); nia.
Qed.
Lemma array_split_aux_length {A} (l : list A) q r n : length (array_split_aux l q r n) = n.
Proof. revert l r; induction n; intros; cbn; auto. Qed.
Lemma array_split_concat {A} (l : list A) n : 1 <= n -> concat (array_split l n) = l.
Proof.
  intros Hn. unfold array_split. apply array_split_aux_concat.
  - pose proof (Nat.mod_upper_bound (length l) n). lia.
  - rewrite (Nat.div_mod (length l) n) at 1 by lia. lia.
Qed.

Lemma nlookup_in {V} k (v : V) m : NoDup (map fst m) -> In (k, v) m -> nlookup k m = Ok v.
Proof.
  induction m as [|[k' v'] m IH]; cbn; intros ND Hin; [contradiction|].
  inversion ND as [|? ? Hni ND']; subst.
  destruct (Nat.eqb_spec k k') as [->|Hne].
  - destruct Hin as [[= ->]|Hin]; [reflexivity|]. exfalso. apply Hni.
    change k' with (fst (k', v)). now apply in_map.
  - destruct Hin as [[= -> ->]|Hin]; [congruence|]. auto.
Qed.

Lemma map_fst_combine {A B} (l : list A) (m : list B) : length l = length m -> map fst (combine l m) = l.
Proof. revert m; induction l; intros [|b m] H; cbn in *; try lia; [reflexivity|]. now rewrite IHl by lia. Qed.

Lemma collect_ok {B} (done : list (nat * list B)) (parts : list (list B)) i :
  (forall k, k < length parts -> nlookup (i + k) done = Ok (nth k parts [])) ->
  collect done i (length parts) = Ok (concat parts).
Proof.
  revert i; induction parts as [|p parts IH]; intros i H; [reflexivity|].
  cbn [collect length]. pose proof (H 0 ltac:(cbn; lia)) as H0. rewrite Nat.add_0_r in H0. rewrite H0. cbn [bind nth].
  rewrite IH; [reflexivity|]. intros k Hk. specialize (H (S k) ltac:(cbn; lia)).
  replace (S i + k) with (i + S k) by lia. exact H.
Qed.

Lemma pool_map_ok {A B} (f : A -> B) np inputs sched :
  1 <= np -> Permutation sched (submit_map np inputs) ->
  pool_map f np inputs sched = Ok (map f inputs).
Proof.
  intros Hnp Hperm. unfold pool_map. destruct inputs as [|x [|y inputs]]; try reflexivity.
  set (l := x :: y :: inputs) in *. set (parts := array_split l (Nat.min np (length l))) in *.
  assert (Hl : length parts = length (map (map f) parts)) by now rewrite map_length.
  rewrite Hl.
  rewrite (collect_ok _ (map (map f) parts)).
  - f_equal. rewrite <- concat_map. unfold parts. rewrite array_split_concat; [reflexivity|].
    unfold l. cbn [length]. lia.
  - intros k Hk. rewrite map_length in Hk. cbn [Nat.add]. apply nlookup_in.
    + rewrite map_map. cbn. eapply Permutation_NoDup.
      { apply Permutation_map, Permutation_sym. exact Hperm. }
      unfold submit_map. fold parts. rewrite map_fst_combine by apply seq_length. apply seq_NoDup.
    + apply in_map_iff. exists (k, nth k parts []). split.
      * cbn. change (@nil B) with (map f []). now rewrite map_nth.
      * eapply Permutation_in; [apply Permutation_sym; exact Hperm|].
        unfold submit_map. fold parts.
        replace (k, nth k parts []) with (nth k (combine (seq 0 (length parts)) parts) (0, [])).
        -- apply nth_In. rewrite combine_length, seq_length. lia.
        -- rewrite combine_nth by apply seq_length. now rewrite seq_nth by lia.
Qed.

(** ** composition with the chunk size computation *)
Lemma nsum_zsum l : Forall (fun c => (0 <= c)%Z) l -> Z.of_nat (nsum (map Z.to_nat l)) = fold_right Z.add 0%Z l.
Proof. induction 1; cbn; [reflexivity|]. unfold nsum in *. cbn. lia. Qed.

Lemma engine_points_lemma :
  forall (X Y V : Type) (calc : list X -> list (list Y) -> list (list V)),
    per_pair calc ->
    forall np css csp xs ps nt ls lt fuel sched,
      valid_setting np css csp ->
      1 <= length xs -> 1 <= nt -> shape ps (length xs) nt ->
      length xs <= fuel ->
      calc_chunk_sizes fuel np css csp (Z.of_nat (length xs)) (Z.of_nat nt) = Ok (ls, lt) ->
      Permutation sched (submit (map Z.to_nat ls) (map Z.to_nat lt)) ->
      run_pool calc xs ps (map Z.to_nat ls) (map Z.to_nat lt) sched = run_single calc xs ps.
Proof.
  intros X Y V calc (g & Hg) np css csp xs ps nt ls lt fuel sched Hv Hx Hnt Hsh Hf E Hperm.
  destruct (calc_chunk_sizes_ok fuel np css csp (Z.of_nat (length xs)) (Z.of_nat nt) Hv ltac:(lia) ltac:(lia) ltac:(lia))
    as (ls' & lt' & E' & (P1 & P2) & _ & P3 & _).
  rewrite E in E'. injection E' as <- <-. destruct (P3 ltac:(lia)) as (P4 & P5).
  rewrite (run_single_ok calc g Hg xs ps (length xs) nt eq_refl Hsh Hx).
  eapply run_pool_ok with (g := g) (ns := length xs) (nt := nt); auto.
  - pose proof (nsum_zsum ls) as H. rewrite P2 in H. apply Nat2Z.inj, H.
    eapply Forall_impl; [|exact P1]. cbn; intros; lia.
  - pose proof (nsum_zsum lt) as H. rewrite P5 in H. apply Nat2Z.inj, H.
    eapply Forall_impl; [|exact P4]. cbn; intros; lia.
  - rewrite map_length. destruct lt; [cbn in P5; lia|cbn; lia].
Qed.

Lemma engine_farm_lemma :
  forall (X V : Type) (calc : list X -> list V),
    per_state calc ->
    forall np css csp xs ls lt fuel sched,
      valid_setting np css csp -> 1 <= length xs -> length xs <= fuel ->
      calc_chunk_sizes fuel np css csp (Z.of_nat (length xs)) 0 = Ok (ls, lt) ->
      Permutation sched (submit (map Z.to_nat ls) (map Z.to_nat lt)) ->
      run_pool_farm calc xs (map Z.to_nat ls) sched = Ok (calc xs).
Proof.
  intros X V calc (g & Hg) np css csp xs ls lt fuel sched Hv Hx Hf E Hperm.
  destruct (calc_chunk_sizes_ok fuel np css csp (Z.of_nat (length xs)) 0 Hv ltac:(lia) ltac:(lia) ltac:(lia))
    as (ls' & lt' & E' & (P1 & P2) & _ & _ & _ & P3 & _).
  rewrite E in E'. injection E' as <- <-. rewrite (P3 eq_refl) in Hperm. cbn in Hperm.
  eapply run_pool_farm_ok with (g := g); auto.
  pose proof (nsum_zsum ls) as H. rewrite P2 in H. apply Nat2Z.inj, H.
  eapply Forall_impl; [|exact P1]. cbn; intros; lia.
Qed.

Lemma any_chunks_lemma :
  forall (X Y V : Type) (calc : list X -> list (list Y) -> list (list V)),
    per_pair calc ->
    forall xs ps nt ls lt sched,
      shape ps (length xs) nt -> nsum ls = length xs -> nsum lt = nt -> lt <> [] ->
      Permutation sched (submit ls lt) ->
      run_pool calc xs ps ls lt sched = Ok (calc xs ps).
Proof.
  intros X Y V calc (g & Hg) xs ps nt ls lt sched Hs H1 H2 H3 Hp.
  eapply run_pool_ok with (g := g) (ns := length xs) (nt := nt); auto.
  destruct lt; [congruence|cbn; lia].
Qed.
