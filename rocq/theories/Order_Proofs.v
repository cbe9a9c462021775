From Verif Require Import Base Order_Model Order_Spec.
From Coq Require Import Permutation Sorted.

Lemma set_nth_length {A} i (x : A) l : length (set_nth i x l) = length l.
Proof.
  unfold set_nth. rewrite !app_length, firstn_length, skipn_length.
  destruct (i <? length l) eqn:E; cbn; [apply Nat.ltb_lt in E|apply Nat.ltb_ge in E]; lia.
Qed.
Lemma nth_set_nth {A} (d : A) i j x l : i < length l -> nth j (set_nth i x l) d = if j =? i then x else nth j l d.
Proof.
  intros Hi. unfold set_nth. apply Nat.ltb_lt in Hi as Hi'. rewrite Hi'.
  destruct (Nat.eqb_spec j i) as [->|Hne].
  - rewrite app_nth2; rewrite firstn_length, Nat.min_l by lia; [|lia]. now rewrite Nat.sub_diag.
  - destruct (Nat.lt_ge_cases j i).
    + rewrite app_nth1 by (rewrite firstn_length; lia).
      rewrite <- (firstn_skipn i l) at 2. rewrite app_nth1 by (rewrite firstn_length; lia). reflexivity.
    + rewrite app_nth2; rewrite firstn_length, Nat.min_l by lia; [|lia].
      rewrite app_nth2 by (cbn; lia). cbn [length].
      rewrite <- (firstn_skipn (S i) l) at 2. rewrite app_nth2; rewrite firstn_length, Nat.min_l by lia; [|lia].
      f_equal. lia.
Qed.

Lemma perm_length n o : isperm n o -> length o = n.
Proof. intros H. now rewrite (Permutation_length H), seq_length. Qed.
Lemma perm_in n o k : isperm n o -> In k o <-> k < n.
Proof.
  intros H. split; intros Hk.
  - apply (Permutation_in _ H) in Hk. apply in_seq in Hk. lia.
  - apply (Permutation_in _ (Permutation_sym H)). apply in_seq. lia.
Qed.
Lemma perm_nodup n o : isperm n o -> NoDup o.
Proof. intros H. apply (Permutation_NoDup (Permutation_sym H)). apply seq_NoDup. Qed.
Lemma perm_nth_lt n o k : isperm n o -> k < n -> nth k o 0 < n.
Proof. intros H Hk. apply (perm_in n o); [exact H|]. apply nth_In. now rewrite (perm_length n o H). Qed.

(** fold of assignments inv[o_k] = k *)
Lemma fold_inv_length (l : list (nat * nat)) inv :
  length (fold_left (fun inv ko => set_nth (snd ko) (fst ko) inv) l inv) = length inv.
Proof. revert inv; induction l as [|p l IH]; intros inv; cbn [fold_left]; [reflexivity|]. now rewrite IH, set_nth_length. Qed.
Lemma fold_inv_other (l : list (nat * nat)) inv j :
  ~ In j (map snd l) -> (forall p, In p l -> snd p < length inv) ->
  nth j (fold_left (fun inv ko => set_nth (snd ko) (fst ko) inv) l inv) 0 = nth j inv 0.
Proof.
  revert inv; induction l as [|[k o] l IH]; intros inv Hj Hl; cbn [fold_left]; [reflexivity|].
  cbn in Hj. rewrite IH.
  - rewrite nth_set_nth by (apply (Hl (k, o)); now left). cbn.
    destruct (Nat.eqb_spec j o); [subst; tauto|reflexivity].
  - tauto.
  - intros p Hp. rewrite set_nth_length. apply Hl. now right.
Qed.
Lemma fold_inv_hit (l : list (nat * nat)) inv k o :
  NoDup (map snd l) -> In (k, o) l -> (forall p, In p l -> snd p < length inv) ->
  nth o (fold_left (fun inv ko => set_nth (snd ko) (fst ko) inv) l inv) 0 = k.
Proof.
  revert inv; induction l as [|[k' o'] l IH]; intros inv Hnd Hin Hl; [contradiction|].
  cbn [map snd] in Hnd. inversion Hnd as [|? ? N1 N2]; subst. cbn [fold_left fst snd].
  destruct Hin as [E|Hin].
  - inversion E; subst. rewrite fold_inv_other.
    + rewrite nth_set_nth by (apply (Hl (k, o)); now left). now rewrite Nat.eqb_refl.
    + exact N1.
    + intros p Hp. rewrite set_nth_length. apply Hl. now right.
  - apply IH; auto. intros p Hp. rewrite set_nth_length. apply Hl. now right.
Qed.

Lemma invert_length o : length (invert o) = length o.
Proof. unfold invert. now rewrite fold_inv_length, repeat_length. Qed.
Lemma map_snd_combine_seq (o : list nat) s : map snd (combine (seq s (length o)) o) = o.
Proof. revert s; induction o as [|x o IH]; intros s; cbn; [reflexivity|]. now rewrite IH. Qed.
Lemma in_combine_seq (o : list nat) s k : k < length o -> In (s + k, nth k o 0) (combine (seq s (length o)) o).
Proof.
  revert s k; induction o as [|x o IH]; intros s k Hk; [cbn in Hk; lia|]. cbn [length seq combine nth].
  destruct k as [|k]; [left; f_equal; lia|right]. replace (s + S k) with (S s + k) by lia. apply IH. cbn in Hk; lia.
Qed.
(** inv[order[k]] = k *)
Lemma invert_order n o k : isperm n o -> k < n -> nth (nth k o 0) (invert o) 0 = k.
Proof.
  intros H Hk. pose proof (perm_length n o H) as Hl. unfold invert. apply fold_inv_hit.
  - rewrite map_snd_combine_seq. eapply perm_nodup; eauto.
  - pose proof (in_combine_seq o 0 k ltac:(lia)) as X. exact X.
  - intros p Hp. rewrite repeat_length. apply in_combine_r in Hp || (destruct p; apply in_combine_r in Hp).
    cbn. rewrite Hl. apply (perm_in n o _ H). exact Hp.
Qed.
(** order[inv[i]] = i *)
Lemma order_invert n o i : isperm n o -> i < n -> nth i (invert o) 0 < n /\ nth (nth i (invert o) 0) o 0 = i.
Proof.
  intros H Hi. assert (Hin : In i o) by (apply (perm_in n o _ H); exact Hi).
  apply (In_nth o i 0) in Hin. destruct Hin as (k & Hk & Ek). rewrite (perm_length n o H) in Hk.
  subst i. rewrite (invert_order n o k H Hk). split; [exact Hk|reflexivity].
Qed.
Lemma list_eq_nth {A} (d : A) (l l' : list A) : length l = length l' -> (forall i, i < length l -> nth i l d = nth i l' d) -> l = l'.
Proof.
  revert l'; induction l as [|x l IH]; intros [|y l'] H1 H2; cbn in H1; try lia; [reflexivity|].
  f_equal; [apply (H2 0); cbn; lia|]. apply IH; [lia|]. intros i Hi. apply (H2 (S i)). cbn; lia.
Qed.
Lemma invert_perm n o : isperm n o -> isperm n (invert o).
Proof.
  intros H. unfold isperm. apply NoDup_Permutation.
  - apply (NoDup_nth _ 0). intros i j Hi Hj E. rewrite invert_length, (perm_length n o H) in Hi, Hj.
    destruct (order_invert n o i H Hi) as [_ A], (order_invert n o j H Hj) as [_ B]. rewrite E in A. congruence.
  - apply seq_NoDup.
  - intros x. rewrite in_seq. split.
    + intros Hx. apply (In_nth _ _ 0) in Hx. destruct Hx as (i & Hi & <-).
      rewrite invert_length, (perm_length n o H) in Hi. destruct (order_invert n o i H Hi). lia.
    + intros Hx. rewrite <- (invert_order n o x H ltac:(lia)). apply nth_In. rewrite invert_length, (perm_length n o H).
      apply (perm_nth_lt n); [exact H|lia].
Qed.

Section G.
  Context {A : Type}.
  Variable d : A.
  Variable neq : A -> A -> bool.
  Hypothesis Hneq : forall a b, neq a b = false -> a = b.

  Lemma gather_length row o : length (gather d row o) = length o.
  Proof. apply map_length. Qed.
  Lemma nth_gather row o k : k < length o -> nth k (gather d row o) d = nth (nth k o 0) row d.
  Proof.
    intros Hk. unfold gather. rewrite (nth_indep _ d (nth 0 row d)) by (now rewrite map_length).
    now rewrite (map_nth (fun k => nth k row d)).
  Qed.
  Lemma gather_inv n row o : isperm n o -> length row = n -> gather d (gather d row o) (invert o) = row.
  Proof.
    intros H Hr. pose proof (perm_length n o H) as Hl. apply (list_eq_nth d).
    - rewrite gather_length, invert_length. lia.
    - intros i Hi. rewrite gather_length, invert_length in Hi.
      rewrite nth_gather by (rewrite invert_length; lia).
      destruct (order_invert n o i H ltac:(lia)) as [B E].
      rewrite nth_gather by lia. now rewrite E.
  Qed.

  Lemma uniform_all m : nonuniform d neq m = false -> forall r, In r m -> forall y, In y r -> y = first_elem d m.
  Proof.
    intros H r Hr y Hy. apply Hneq. unfold nonuniform in H.
    destruct (neq y (first_elem d m)) eqn:E; [|reflexivity].
    assert (existsb (existsb (fun x => neq x (first_elem d m))) m = true); [|congruence].
    apply existsb_exists. exists r. split; [exact Hr|]. apply existsb_exists. exists y. auto.
  Qed.
  Lemma uniform_gather m r o n : nonuniform d neq m = false -> In r m -> length r = n -> isperm n o -> gather d r o = r.
  Proof.
    intros H Hr Hn Ho. pose proof (perm_length n o Ho) as Hl. apply (list_eq_nth d); [rewrite gather_length; lia|].
    intros i Hi. rewrite gather_length in Hi. rewrite nth_gather by lia.
    rewrite (uniform_all m H r Hr (nth (nth i o 0) r d)).
    - symmetry. apply (uniform_all m H r Hr). apply nth_In. lia.
    - apply nth_In. rewrite Hn. apply (perm_nth_lt n o i Ho). lia.
  Qed.
  Lemma uniform_take_rows m os n : nonuniform d neq m = false -> Forall (fun r => length r = n) m ->
    Forall (isperm n) os -> length m = length os -> take_rows d m os = m.
  Proof.
    intros H Hm Ho Hl.
    assert (G : forall m' os', (forall r, In r m' -> In r m) -> Forall (fun r => length r = n) m' ->
       Forall (isperm n) os' -> length m' = length os' -> take_rows d m' os' = m').
    { induction m' as [|r m' IH]; intros [|o os'] Hin Hm' Ho' Hl'; cbn in Hl'; try lia; [reflexivity|].
      inversion Hm'; inversion Ho'; subst. cbn [take_rows]. f_equal.
      - eapply uniform_gather; eauto. apply Hin; now left.
      - apply IH; auto. intros; apply Hin; now right. }
    apply G; auto.
  Qed.
  (** skipping the permutation for uniform arrays changes nothing *)
  Lemma apply_order_is_take m os n : Forall (fun r => length r = n) m -> Forall (isperm n) os -> length m = length os ->
    apply_order d neq m os = take_rows d m os.
  Proof.
    intros Hm Ho Hl. unfold apply_order. destruct (nonuniform d neq m) eqn:E; [reflexivity|].
    symmetry. eapply uniform_take_rows; eauto.
  Qed.
  Lemma perm1 o : isperm 1 o -> o = [0].
  Proof. intros H. apply Permutation_sym in H. apply Permutation_length_1_inv in H. exact H. Qed.
  Lemma reorder_is_take m os n : Forall (fun r => length r = n) m -> Forall (isperm n) os -> length m = length os ->
    reorder d neq m os = take_rows d m os.
  Proof.
    intros Hm Ho Hl. unfold reorder. destruct (1 <? length (nth 0 m [])) eqn:E1; cbn [andb].
    - destruct (nonuniform d neq m) eqn:E; [reflexivity|]. symmetry. eapply uniform_take_rows; eauto.
    - apply Nat.ltb_ge in E1. destruct m as [|r0 m0]; [reflexivity|]. cbn in E1. set (m := r0 :: m0) in *.
      assert (Hn : n <= 1). { inversion Hm; subst. lia. }
      symmetry. clear E1. revert os Ho Hl. clearbody m. clear r0 m0.
      induction m as [|r m IH]; intros [|o os] Ho Hl; cbn in Hl; try lia; [reflexivity|].
      inversion Hm; inversion Ho; subst. cbn [take_rows]. f_equal; [|apply IH; auto].
      destruct r as [|x [|y r]]; cbn in Hn; try lia.
      + match goal with H : isperm _ o |- _ => apply perm_length in H end. now destruct o.
      + match goal with H : isperm _ o |- _ => apply perm1 in H end. subst o. reflexivity.
  Qed.
  Lemma take_inv m os n : Forall (fun r => length r = n) m -> Forall (isperm n) os -> length m = length os ->
    take_rows d (take_rows d m os) (map invert os) = m.
  Proof.
    revert os. induction m as [|r m IH]; intros [|o os] Hm Ho Hl; cbn in Hl; try lia; [reflexivity|].
    inversion Hm; inversion Ho; subst. cbn [take_rows map]. f_equal; [|apply IH; auto].
    eapply gather_inv; eauto.
  Qed.
  Lemma take_rows_shape m os n : Forall (isperm n) os -> length m = length os ->
    Forall (fun r => length r = n) (take_rows d m os) /\ length (take_rows d m os) = length os.
  Proof.
    revert os. induction m as [|r m IH]; intros [|o os] Ho Hl; cbn in Hl; try lia; [split; constructor|].
    inversion Ho; subst. destruct (IH os) as [A1 A2]; auto. cbn. split; [|lia].
    constructor; [|exact A1]. rewrite gather_length. now apply perm_length.
  Qed.
  Lemma invert_perms n os : Forall (isperm n) os -> Forall (isperm n) (map invert os).
  Proof. intros H. apply Forall_map. eapply Forall_impl; [|exact H]. intros o. apply invert_perm. Qed.

  Lemma order_reorder m os n : Forall (fun r => length r = n) m -> Forall (isperm n) os -> length m = length os ->
    reorder d neq (apply_order d neq m os) (map invert os) = m.
  Proof.
    intros Hm Ho Hl. rewrite (apply_order_is_take m os n) by auto.
    destruct (take_rows_shape m os n Ho Hl) as [S1 S2].
    rewrite (reorder_is_take _ _ n); [now apply take_inv with n|exact S1|now apply invert_perms|now rewrite S2, map_length].
  Qed.

  (** values computed position by position for the turbine processed there *)
  Lemma map_gather (g : nat -> A) n o : isperm n o -> gather d (map g o) (invert o) = map g (seq 0 n).
  Proof.
    intros H. pose proof (perm_length n o H) as Hl. apply (list_eq_nth d).
    - rewrite gather_length, invert_length, map_length, seq_length. lia.
    - intros i Hi. rewrite gather_length, invert_length in Hi. rewrite nth_gather by (rewrite invert_length; lia).
      destruct (order_invert n o i H ltac:(lia)) as [B E].
      rewrite (nth_indep _ d (g 0)) by (rewrite map_length; lia). rewrite map_nth, E.
      rewrite (nth_indep _ d (g 0)) by (rewrite map_length, seq_length; lia). rewrite map_nth, seq_nth by lia. reflexivity.
  Qed.
  Lemma processed_reorder g os n s0 : Forall (isperm n) os ->
    reorder d neq (processed g s0 os) (map invert os) = farm_view g s0 (length os) n.
  Proof.
    intros Ho. rewrite (reorder_is_take _ _ n).
    - revert s0. induction os as [|o os IH]; intros s0; [reflexivity|]. inversion Ho; subst.
      cbn [length]. unfold processed, farm_view in *. cbn [seq combine map take_rows fst snd length]. f_equal.
      + now apply map_gather.
      + apply IH; auto.
    - unfold processed. apply Forall_map. apply Forall_forall. intros [s o] Hin. cbn.
      apply in_combine_r in Hin. rewrite map_length. rewrite Forall_forall in Ho. now apply perm_length, Ho.
    - now apply invert_perms.
    - unfold processed. rewrite !map_length, combine_length, seq_length. lia.
  Qed.
End G.

(** ** reported order arrays *)
Lemma reported_inv_row n os : Forall (isperm n) os ->
  reported_order_inv os = map (fun o => gather 0 (invert o) (invert o)) os.
Proof.
  intros Ho. unfold reported_order_inv.
  rewrite (reorder_is_take 0 nat_neq) with (n := n).
  - induction os as [|o os IH]; [reflexivity|]. inversion Ho; subst. cbn. f_equal. auto.
  - intros a b H. unfold nat_neq in H. apply negb_false_iff in H. now apply Nat.eqb_eq.
  - apply Forall_map. eapply Forall_impl; [|exact Ho]. intros o H. rewrite invert_length. now apply perm_length.
  - now apply invert_perms.
  - reflexivity.
Qed.
Lemma reported_inv_iff n os : Forall (isperm n) os ->
  ((forall s k, s < length os -> k < n ->
     nth (nth k (nth s (reported_order os) []) 0) (nth s (reported_order_inv os) []) 0 = k)
   <-> (forall o, In o os -> o = seq 0 n)).
Proof.
  intros Ho. rewrite (reported_inv_row n os Ho). unfold reported_order. rewrite Forall_forall in Ho. split.
  - intros H o Hin. apply (In_nth _ _ []) in Hin. destruct Hin as (s & Hs & E).
    assert (Hp : isperm n o). { apply Ho. rewrite <- E. now apply nth_In. }
    pose proof (perm_length n o Hp) as Hl.
    apply (list_eq_nth 0); [rewrite seq_length; exact Hl|]. intros k Hk. rewrite Hl in Hk. rewrite seq_nth by lia.
    specialize (H s k Hs Hk). rewrite E in H.
    rewrite (nth_indep _ [] (gather 0 (invert []) (invert []))) in H by (now rewrite map_length).
    rewrite (map_nth (fun o => gather 0 (invert o) (invert o))), E in H.
    pose proof (perm_nth_lt n o k Hp Hk) as Hok.
    rewrite nth_gather in H by (rewrite invert_length; lia).
    rewrite (invert_order n o k Hp Hk) in H.
    (* inv[k] = k *)
    rewrite <- H at 1. destruct (order_invert n o k Hp Hk) as [_ E2]. exact E2.
  - intros H s k Hs Hk. set (o := nth s os []).
    assert (Hin : In o os) by (now apply nth_In). assert (Hp : isperm n o) by auto.
    rewrite (nth_indep _ [] (gather 0 (invert []) (invert []))) by (now rewrite map_length).
    rewrite (map_nth (fun o => gather 0 (invert o) (invert o))). fold o.
    pose proof (perm_length n o Hp) as Hl. pose proof (perm_nth_lt n o k Hp Hk) as Hok.
    rewrite nth_gather by (rewrite invert_length; lia).
    rewrite (invert_order n o k Hp Hk).
    pose proof (invert_order n o k Hp Hk) as E. rewrite (H o Hin) in E at 1. rewrite seq_nth in E by lia. exact E.
Qed.

(** ** argsort *)
Section S.
  Context {K : Type}.
  Variable leb : K -> K -> bool.
  Hypothesis leb_total : forall a b, leb a b = true \/ leb b a = true.
  Hypothesis leb_trans : forall a b c, leb a b = true -> leb b c = true -> leb a c = true.
  Let le (p q : K * nat) : Prop := leb (fst p) (fst q) = true.

  Lemma insert_perm p l : Permutation (insert leb p l) (p :: l).
  Proof.
    induction l as [|q l IH]; cbn; [reflexivity|]. destruct (leb (fst p) (fst q)); [reflexivity|].
    rewrite IH. apply perm_swap.
  Qed.
  Lemma isort_perm l : Permutation (isort leb l) l.
  Proof. induction l as [|p l IH]; cbn; [reflexivity|]. rewrite insert_perm. now apply perm_skip. Qed.
  Lemma insert_sorted p l : StronglySorted le l -> StronglySorted le (insert leb p l).
  Proof.
    intros H. induction H as [|q l Hs IH Hf]; cbn; [repeat constructor|].
    destruct (leb (fst p) (fst q)) eqn:E.
    - constructor; [constructor; auto|]. constructor; [exact E|].
      eapply Forall_impl; [|exact Hf]. intros r Hr. unfold le in *. eauto.
    - constructor; [exact IH|]. eapply Permutation_Forall; [symmetry; apply insert_perm|].
      constructor; [|exact Hf]. unfold le. destruct (leb_total (fst p) (fst q)); congruence.
  Qed.
  Lemma isort_sorted l : StronglySorted le (isort leb l).
  Proof. induction l as [|p l IH]; cbn; [constructor|]. now apply insert_sorted. Qed.

  Lemma argsort_perm keys : isperm (length keys) (argsort leb keys).
  Proof.
    unfold argsort, isperm. rewrite isort_perm.
    assert (E : forall s, map snd (combine keys (seq s (length keys))) = seq s (length keys)).
    { induction keys as [|k keys IH]; intros s; cbn; [reflexivity|]. now rewrite IH. }
    now rewrite E.
  Qed.
  Lemma isort_in keys p dk : In p (isort leb (combine keys (seq 0 (length keys)))) -> nth (snd p) keys dk = fst p.
  Proof.
    intros H. apply (Permutation_in _ (isort_perm _)) in H.
    assert (G : forall ks s q, In q (combine ks (seq s (length ks))) -> nth (snd q - s) ks dk = fst q /\ s <= snd q).
    { clear. induction ks as [|k ks IH]; intros s q Hq; cbn in Hq; [contradiction|].
      destruct Hq as [<-|Hq]; [cbn; rewrite Nat.sub_diag; auto|].
      destruct (IH (S s) q Hq) as [A B]. split; [|lia]. replace (snd q - s) with (S (snd q - S s)) by lia. exact A. }
    destruct (G keys 0 p H) as [A _]. now rewrite Nat.sub_0_r in A.
  Qed.
  Lemma argsort_sorted keys dk i j : i < j -> j < length keys ->
    leb (nth (nth i (argsort leb keys) 0) keys dk) (nth (nth j (argsort leb keys) 0) keys dk) = true.
  Proof.
    intros Hij Hj. unfold argsort. set (l := isort leb (combine keys (seq 0 (length keys)))).
    assert (Hl : length l = length keys).
    { unfold l. rewrite (Permutation_length (isort_perm _)), combine_length, seq_length. lia. }
    assert (Hs : StronglySorted le l) by apply isort_sorted.
    assert (N : forall k, k < length keys -> nth (nth k (map snd l) 0) keys dk = fst (nth k l (dk, 0))).
    { intros k Hk. change 0 with (snd (dk, 0)) at 1. rewrite map_nth. apply isort_in. fold l. apply nth_In. lia. }
    rewrite !N by lia.
    clear N. revert i j Hij Hj. rewrite <- Hl. clear Hl. induction Hs as [|p l' Hs IH Hf]; intros i j Hij Hj; [cbn in Hj; lia|].
    destruct j as [|j]; [lia|]. destruct i as [|i]; cbn [nth].
    - rewrite Forall_forall in Hf. apply Hf. apply nth_In. cbn in Hj. lia.
    - apply IH; cbn in Hj; lia.
  Qed.
End S.

(** ** per-turbine settings *)
Section PT.
  Context {V : Type}.
  Variable veqb : V -> V -> bool.
  Hypothesis Hveqb : forall a b, veqb a b = true -> a = b.
  Lemma oneq_ok : forall a b, oneq veqb a b = false -> a = b.
  Proof. intros [a|] [b|]; cbn; try discriminate. intros H. apply negb_false_iff in H. f_equal. auto. Qed.

  Lemma masked_set_all base data sel : Forall (fun x => x <> None) data -> Forall (fun b => b = true) sel ->
    length base = length data -> length sel = length data -> @masked_set V base data sel = data.
  Proof.
    revert data sel; induction base as [|b base IH]; intros [|x data] [|s sel] H1 H2 L1 L2; cbn in *; try lia; [reflexivity|].
    inversion H1; inversion H2; subst. destruct x; [|congruence]. f_equal. apply IH; auto; lia.
  Qed.
  Lemma masked_rows_all n bases datas sels :
    Forall (fun r => length r = n /\ Forall (fun x => x <> None) r) datas ->
    Forall (fun r => length r = n) bases -> Forall (fun r => length r = n /\ Forall (fun b => b = true) r) sels ->
    length bases = length datas -> length sels = length datas -> @masked_rows V bases datas sels = datas.
  Proof.
    revert datas sels; induction bases as [|b bases IH]; intros [|x datas] [|s sels] H1 H2 H3 L1 L2; cbn in *; try lia; [reflexivity|].
    inversion H1 as [|? ? [] ?]; inversion H2; inversion H3 as [|? ? [] ?]; subst. f_equal; [|apply IH; auto; lia].
    apply masked_set_all; auto; congruence.
  Qed.
  Lemma gather_forall (Q : option V -> Prop) n row o : isperm n o -> length row = n -> Forall Q row -> Forall Q (gather None row o).
  Proof.
    intros Ho Hr HQ. apply Forall_map. apply Forall_forall. intros k Hk. apply (perm_in n o k Ho) in Hk.
    rewrite Forall_forall in HQ. apply HQ. apply nth_In. lia.
  Qed.
  Lemma take_forall (Q : option V -> Prop) n : forall m os, Forall (isperm n) os -> length m = length os ->
    Forall (fun r => length r = n /\ Forall Q r) m -> Forall (fun r => length r = n /\ Forall Q r) (take_rows None m os).
  Proof.
    induction m as [|r m IH]; intros [|o os] Ho Hl Hm; cbn in Hl; try lia; [constructor|].
    inversion Ho; inversion Hm as [|? ? [] ?]; subst. cbn. constructor; [|apply IH; auto].
    split; [rewrite gather_length; now apply perm_length|]. eapply gather_forall; eauto.
  Qed.
  Lemma take_rows_nth : forall (m : list (list (option V))) os s, s < length os -> length m = length os ->
    nth s (take_rows None m os) [] = gather None (nth s m []) (nth s os []).
  Proof.
    induction m as [|r m IH]; intros [|o os] s Hs Hl; cbn in *; try lia. destruct s; [reflexivity|]. apply IH; lia.
  Qed.

  Lemma settings_len n (m : list (list (option V))) : settings n m -> Forall (fun r => length r = n) m.
  Proof. intros H. eapply Forall_impl; [|exact H]. intros r [E _]; exact E. Qed.

  Lemma set_post_reported n bases mdata os sels s i :
    Forall (isperm n) os -> settings n mdata -> Forall (fun r => length r = n) bases -> full n sels ->
    length mdata = length os -> length bases = length os -> length sels = length os ->
    s < length os -> i < n ->
    nth i (nth s (reorder None (oneq veqb) (set_farm_vars_post veqb bases mdata os sels) (map invert os)) []) None
    = nth (nth i (nth s os []) 0) (nth s mdata []) None.
  Proof.
    intros Ho Hm Hb Hs L1 L2 L3 Hs' Hi.
    assert (Hos : isperm n (nth s os [])). { rewrite Forall_forall in Ho. apply Ho, nth_In, Hs'. }
    unfold set_farm_vars_post.
    rewrite (apply_order_is_take None (oneq veqb) oneq_ok mdata os n) by (auto using settings_len).
    pose proof (take_forall _ n mdata os Ho L1 Hm) as T1.
    assert (L4 : length (take_rows None mdata os) = length os) by (apply (take_rows_shape None mdata os n); auto).
    pose proof (take_forall _ n _ os Ho L4 T1) as T2.
    assert (L5 : length (take_rows None (take_rows None mdata os) os) = length os) by (apply (take_rows_shape None _ os n); auto).
    rewrite (masked_rows_all n) by (auto; congruence).
    rewrite (reorder_is_take None (oneq veqb) oneq_ok _ _ n); [|now apply settings_len|now apply invert_perms|now rewrite map_length].
    rewrite take_rows_nth by (rewrite ?map_length; lia).
    rewrite (nth_indep (map invert os) [] (invert [])) by (rewrite map_length; lia). rewrite map_nth.
    rewrite nth_gather by (rewrite invert_length, (perm_length n _ Hos); lia).
    rewrite !take_rows_nth by lia.
    destruct (order_invert n _ i Hos Hi) as [B E].
    rewrite nth_gather by (rewrite (perm_length n _ Hos); lia). rewrite E.
    rewrite nth_gather by (rewrite (perm_length n _ Hos); lia). reflexivity.
  Qed.
  Lemma set_pre_reported n bases mdata os sels s i :
    Forall (isperm n) os -> settings n mdata -> Forall (fun r => length r = n) bases -> full n sels ->
    length mdata = length os -> length bases = length os -> length sels = length os ->
    s < length os -> i < n ->
    nth i (nth s (reorder None (oneq veqb) (set_farm_vars_pre bases mdata sels) (map invert os)) []) None
    = nth (nth i (invert (nth s os [])) 0) (nth s mdata []) None.
  Proof.
    intros Ho Hm Hb Hs L1 L2 L3 Hs' Hi.
    assert (Hos : isperm n (nth s os [])). { rewrite Forall_forall in Ho. apply Ho, nth_In, Hs'. }
    unfold set_farm_vars_pre. rewrite (masked_rows_all n) by (auto; congruence).
    rewrite (reorder_is_take None (oneq veqb) oneq_ok _ _ n); [|now apply settings_len|now apply invert_perms|now rewrite map_length].
    rewrite take_rows_nth by (rewrite ?map_length; lia).
    rewrite (nth_indep (map invert os) [] (invert [])) by (rewrite map_length; lia). rewrite map_nth.
    rewrite nth_gather by (rewrite invert_length, (perm_length n _ Hos); lia). reflexivity.
  Qed.

  (** sector management *)
  Lemma sector_nth {B} (d : B) t cond x rdata (tvar : list (list (option V))) s :
    length rdata = length tvar -> s < length tvar ->
    nth s (sector_rule d t cond x rdata tvar) [] =
    if cond (nth t (nth s rdata []) d) then set_nth t (Some x) (nth s tvar []) else nth s tvar [].
  Proof.
    unfold sector_rule. revert tvar s; induction rdata as [|r rdata IH]; intros [|v tvar] s Hl Hs; cbn in *; try lia.
    destruct s; [reflexivity|]. apply IH; lia.
  Qed.
  Lemma sector_shape {B} (d : B) t cond x n rdata (tvar : list (list (option V))) :
    length rdata = length tvar -> Forall (fun r => length r = n) tvar ->
    Forall (fun r => length r = n) (sector_rule d t cond x rdata tvar) /\ length (sector_rule d t cond x rdata tvar) = length tvar.
  Proof.
    intros Hl Hf. unfold sector_rule. split; [|rewrite map_length, combine_length; lia].
    apply Forall_map. apply Forall_forall. intros [r v] Hin. cbn. apply in_combine_r in Hin.
    rewrite Forall_forall in Hf. destruct (cond _); [rewrite set_nth_length|]; auto.
  Qed.
  (** farm-ordered view: [rf], [tf] give the farm-ordered range variable and target variable *)
  Lemma sector_reported {B} (d : B) n t cond x (rf : list (list B)) (tf : list (list (option V))) os s i :
    Forall (isperm n) os -> Forall (fun r => length r = n) rf -> Forall (fun r => length r = n) tf ->
    length rf = length os -> length tf = length os -> t < n -> s < length os -> i < n ->
    nth i (nth s (reorder None (oneq veqb) (sector_rule d t cond x (take_rows d rf os) (take_rows None tf os)) (map invert os)) []) None
    = if (i =? nth t (nth s os []) 0) && cond (nth (nth t (nth s os []) 0) (nth s rf []) d)
      then Some x else nth i (nth s tf []) None.
  Proof.
    intros Ho Hr Ht L1 L2 Ht' Hs Hi.
    assert (Hos : isperm n (nth s os [])). { rewrite Forall_forall in Ho. apply Ho, nth_In, Hs. }
    destruct (take_rows_shape None tf os n Ho L2) as [S1 S2].
    destruct (take_rows_shape d rf os n Ho L1) as [S3 S4].
    destruct (sector_shape d t cond x n (take_rows d rf os) (take_rows None tf os)) as [S5 S6]; [congruence|exact S1|].
    rewrite (reorder_is_take None (oneq veqb) oneq_ok _ _ n); [|exact S5|now apply invert_perms|now rewrite map_length; congruence].
    rewrite take_rows_nth by (rewrite ?map_length; lia).
    rewrite (nth_indep (map invert os) [] (invert [])) by (rewrite map_length; lia). rewrite map_nth.
    rewrite nth_gather by (rewrite invert_length, (perm_length n _ Hos); lia).
    rewrite sector_nth by lia.
    assert (TB : forall s', s' < length os -> nth s' (take_rows d rf os) [] = gather d (nth s' rf []) (nth s' os [])).
    { clear -L1. revert os L1. induction rf as [|r rf IH]; intros [|o os] Hl s' Hs'; cbn in *; try lia.
      destruct s'; [reflexivity|]. apply IH; lia. }
    rewrite TB by lia. rewrite take_rows_nth by lia.
    rewrite (nth_gather d) by (rewrite (perm_length n _ Hos); lia).
    destruct (order_invert n _ i Hos Hi) as [Bi Ei].
    destruct (cond _) eqn:Ec; [|rewrite andb_false_r; rewrite nth_gather by (rewrite (perm_length n _ Hos); lia); now rewrite Ei].
    rewrite andb_true_r. rewrite nth_set_nth by (rewrite gather_length, (perm_length n _ Hos); lia).
    destruct (Nat.eqb_spec (nth i (invert (nth s os [])) 0) t) as [E|E].
    - rewrite <- E, Ei, Nat.eqb_refl. reflexivity.
    - destruct (Nat.eqb_spec i (nth t (nth s os []) 0)) as [E2|E2].
      + exfalso. apply E. rewrite E2. now apply (invert_order n).
      + rewrite nth_gather by (rewrite (perm_length n _ Hos); lia). now rewrite Ei.
  Qed.
End PT.

Lemma power_mask_nth p_lim P M R k : k < length P -> k < length M -> k < length R ->
  nth k (power_mask_sel p_lim P M R) false =
  match nth k M None with
  | None => false
  | Some m => ((m <? nth k R 0) && (m <? nth k P 0) || (nth k R 0 <? m) && (nth k R 0 - p_lim <? nth k P 0))%Z
  end.
Proof.
  revert M R k; induction P as [|p P IH]; intros [|m M] [|r R] k H1 H2 H3; cbn in *; try lia.
  destruct k; [reflexivity|]. apply IH; lia.
Qed.
(** decision for farm turbine [i], processed at position inv[i]: the rated power of index inv[i] is used *)
Lemma power_mask_turbine n p_lim o Pf Mf R i : isperm n o -> length Pf = n -> length Mf = n -> length R = n -> i < n ->
  nth (nth i (invert o) 0) (power_mask_sel p_lim (gather 0%Z Pf o) (gather None Mf o) R) false =
  match nth i Mf None with
  | None => false
  | Some m => let pr := nth (nth i (invert o) 0) R 0%Z in
     ((m <? pr) && (m <? nth i Pf 0) || (pr <? m) && (pr - p_lim <? nth i Pf 0))%Z
  end.
Proof.
  intros Ho H1 H2 H3 Hi. destruct (order_invert n o i Ho Hi) as [B E]. pose proof (perm_length n o Ho) as Hl.
  rewrite power_mask_nth by (rewrite ?gather_length; lia).
  rewrite !nth_gather by lia. now rewrite E.
Qed.

Lemma apply_order_nth : forall (A : Type) (d : A) (neq : A -> A -> bool),
  (forall a b, neq a b = false -> a = b) ->
  forall (m : list (list A)) (os : list (list nat)) (n s k : nat),
  Forall (fun r => length r = n) m -> Forall (isperm n) os -> length m = length os ->
  s < length os -> k < n ->
  nth k (nth s (apply_order d neq m os) []) d = nth (nth k (nth s os []) 0) (nth s m []) d.
Proof.
  intros A d neq Hn m os n s k Hm Ho Hl Hs Hk. rewrite (apply_order_is_take d neq Hn m os n) by auto.
  revert os s Ho Hl Hs. induction m as [|r m IH]; intros [|o os] s Ho Hl Hs; cbn in Hl, Hs; try lia.
  inversion Hm; inversion Ho; subst. destruct s; cbn [take_rows nth].
  - apply nth_gather. erewrite perm_length; eauto.
  - apply IH; auto; lia.
Qed.
Lemma argsort_spec : forall (K : Type) (leb : K -> K -> bool),
  (forall a b, leb a b = true \/ leb b a = true) ->
  (forall a b c, leb a b = true -> leb b c = true -> leb a c = true) ->
  forall (keys : list K) (dk : K),
  Permutation (argsort leb keys) (seq 0 (length keys)) /\
  forall i j, i < j -> j < length keys ->
    leb (nth (nth i (argsort leb keys) 0) keys dk) (nth (nth j (argsort leb keys) 0) keys dk) = true.
Proof. intros K leb H1 H2 keys dk. split; [apply argsort_perm|]. intros i j. now apply argsort_sorted. Qed.
Lemma swap2 : isperm 2 [1; 0].
Proof. unfold isperm. cbn. apply perm_swap. Qed.
Lemma reported_inverse_refuted : exists n os, Forall (isperm n) os /\
  exists s k, s < length os /\ k < n /\
    nth (nth k (nth s (reported_order os) []) 0) (nth s (reported_order_inv os) []) 0 <> k.
Proof.
  exists 2, [[1; 0]]. split; [repeat constructor; apply swap2|]. exists 0, 0. cbn. repeat split; try lia. 
Qed.
Lemma user_values_refuted : exists n bases mdata os sels s i,
  Forall (isperm n) os /\ @settings nat n mdata /\ Forall (fun r => length r = n) bases /\ full n sels /\
  length mdata = length os /\ length bases = length os /\ length sels = length os /\ s < length os /\ i < n /\
  nth i (nth s (reorder None (oneq Nat.eqb) (set_farm_vars_post Nat.eqb bases mdata os sels) (map invert os)) []) None
    <> nth i (nth s mdata []) None /\
  nth i (nth s (reorder None (oneq Nat.eqb) (set_farm_vars_pre bases mdata sels) (map invert os)) []) None
    <> nth i (nth s mdata []) None.
Proof.
  exists 2, [[None; None]], [[Some 10; Some 20]], [[1; 0]], [[true; true]], 0, 0.
  split; [repeat constructor; apply swap2|].
  split; [repeat constructor; discriminate|]. split; [repeat constructor|]. split; [repeat constructor|].
  repeat (split; [cbn; auto; lia|]). split; vm_compute; discriminate.
Qed.
Lemma named_turbine_refuted :
  (exists (os : list (list nat)) (rf : list (list nat)) (tf : list (list (option nat))),
     Forall (isperm 2) os /\ length os = 1 /\ rf = [[5; 5]] /\ tf = [[Some 1; Some 2]] /\
     reorder None (oneq Nat.eqb) (sector_rule 0 0 (fun r => r =? 5) 9 (take_rows 0 rf os) (take_rows None tf os)) (map invert os)
       = [[Some 1; Some 9]]) /\
  (exists o Pf Mf R, isperm 2 o /\ length Pf = 2 /\ length Mf = 2 /\ length R = 2 /\
     nth 0 (power_mask_sel 100 Pf Mf R) false = false /\
     nth (nth 0 (invert o) 0) (power_mask_sel 100 (gather 0%Z Pf o) (gather None Mf o) R) false = true).
Proof.
  split.
  - exists [[1; 0]], [[5; 5]], [[Some 1; Some 2]]. split; [repeat constructor; apply swap2|]. repeat split.
  - exists [1; 0], [2000; 2000]%Z, [Some 1500; Some 1500]%Z, [1500; 3000]%Z. split; [apply swap2|]. repeat split.
Qed.
