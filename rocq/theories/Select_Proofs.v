(** Proofs about turbine model selections, two dimensional tables, sectors. *)
From Verif Require Import Select_Model.
Local Open Scope R_scope.

Lemma in_cells ns nt c : In c (cells ns nt) <-> (fst c < ns /\ snd c < nt)%nat.
Proof.
  destruct c as [s t]. unfold cells. rewrite in_prod_iff, !in_seq. cbn. lia.
Qed.
Lemma tmall_true n nt applies : tmall n nt applies = true <-> forall s t, (s < n)%nat -> (t < nt)%nat -> applies s t = true.
Proof.
  unfold tmall. rewrite forallb_forall. split.
  - intros H s t Hs Ht. apply (H (s, t)). apply in_cells. now split.
  - intros H c Hc. apply in_cells in Hc. now apply H.
Qed.
Lemma get_sel_hits all sels doi s p : hits (get_sel all sels doi) s p = true <->
  (all = true \/ sels s p = true) /\ match doi with None => True | Some oi => p = oi end.
Proof.
  unfold get_sel. destruct all, doi as [oi|]; cbn [hits].
  - rewrite Nat.eqb_eq. intuition congruence.
  - intuition congruence.
  - rewrite andb_true_iff, Nat.eqb_eq. split; intros [A B]; split; subst; auto. destruct A; [discriminate|assumption].
  - split; intros H; [auto|destruct H as [[H|H] _]; [discriminate|exact H]].
Qed.
Lemma model_sel_hits n nt applies i0 order doi s p :
  (i0 + s < n)%nat -> (match order with None => p | Some o => o s p end < nt)%nat ->
  (hits (model_sel n nt applies i0 order doi) s p = true <->
   applies (i0 + s)%nat (match order with None => p | Some o => o s p end) = true /\ match doi with None => True | Some oi => p = oi end).
Proof.
  intros Hs Hp. unfold model_sel. rewrite get_sel_hits. unfold chunk_sels at 1. rewrite tmall_true.
  split; intros [A B]; (split; [|exact B]).
  - destruct A as [A|A]; [now apply A|exact A].
  - right. exact A.
Qed.

(** tuples are no masks *)
Lemma curve2d_tuple ns nt s lo hi wsel wval aux fy fr tab old : (forall m, s <> SMask m) -> exists e, curve2d ns nt s lo hi wsel wval aux fy fr tab old = Err e.
Proof.
  intros H. unfold curve2d. destruct s; cbn [and_mask]; try (eexists; reflexivity). exfalso. now apply (H m).
Qed.
Lemma calc2d_tuple t ns nt s d oP oC : (forall m, s <> SMask m) -> exists e, calc2d t ns nt s d oP oC = Err e.
Proof.
  intros H. unfold calc2d. edestruct curve2d_tuple as [e E]; [exact H|]. rewrite E. now exists e.
Qed.
Lemma factors_tuple tab ns nt s row col old : (forall m, s <> SMask m) -> exists e, table_factors tab ns nt s row col old = Err e.
Proof.
  intros H. unfold table_factors. destruct s; cbn [np_sum]; try (eexists; reflexivity). exfalso. now apply (H m).
Qed.
Lemma sel_tuple_all n nt applies i0 order doi : (forall s t, (s < n)%nat -> (t < nt)%nat -> applies s t = true) ->
  forall m, model_sel n nt applies i0 order doi <> SMask m.
Proof.
  intros H m. unfold model_sel. rewrite (proj2 (tmall_true n nt applies) H). destruct doi; discriminate.
Qed.
Lemma sel_tuple_index n nt applies i0 order oi : forall m, model_sel n nt applies i0 order (Some oi) <> SMask m.
Proof. intros m. unfold model_sel, get_sel. destruct (tmall n nt applies); discriminate. Qed.
Lemma sel_mask n nt applies i0 order s t : (s < n)%nat -> (t < nt)%nat -> applies s t = false ->
  model_sel n nt applies i0 order None = SMask (chunk_sels applies i0 order).
Proof.
  intros Hs Ht H. unfold model_sel. destruct (tmall n nt applies) eqn:E; [|reflexivity].
  rewrite tmall_true in E. rewrite E in H by assumption. discriminate.
Qed.

(** exact values for masks *)
Lemma filter_le {A} (f g : A -> bool) l : (forall x, f x = true -> g x = true) -> (length (filter f l) <= length (filter g l))%nat.
Proof.
  intros H. induction l as [|a l IH]; [auto|]. cbn. destruct (f a) eqn:E; [rewrite (H a E); cbn; lia|destruct (g a); cbn; lia].
Qed.
Lemma filter_eq_len {A} (f g : A -> bool) l : (forall x, f x = true -> g x = true) ->
  (length (filter f l) = length (filter g l) <-> forall x, In x l -> g x = true -> f x = true).
Proof.
  intros H. induction l as [|a l IH]; [cbn; intuition|]. pose proof (filter_le f g l H) as L. split.
  - intros E x [<-|Hx] Hg.
    + destruct (f a) eqn:F; [reflexivity|]. cbn in E. rewrite F, Hg in E. cbn in E. lia.
    + apply (proj1 IH); auto. cbn in E. destruct (f a) eqn:F.
      * rewrite (H a F) in E. cbn in E. lia.
      * destruct (g a) eqn:G; cbn in E; lia.
  - intros E. cbn. destruct (f a) eqn:F.
    + rewrite (H a F). cbn. f_equal. apply IH. intros x Hx. apply E. now right.
    + destruct (g a) eqn:G; [rewrite (E a (or_introl eq_refl) G) in F; discriminate|]. apply IH. intros x Hx. apply E. now right.
Qed.

Section Mask.
Context (ns nt : nat) (m : nat -> nat -> bool) (lo hi : R) (wsel wval aux fy : arr) (fr : option arr) (tab : R -> R -> option R) (old : arr).
Let q si ti := wval si ti * match fr with None => 1 | Some f => f si ti end * fy si ti.
Let inrg si ti := m si ti && (Rleb lo (wsel si ti) && Rleb (wsel si ti) hi).
Lemma inrg_true si ti : inrg si ti = true <-> m si ti = true /\ lo <= wsel si ti <= hi.
Proof using m lo hi wsel. unfold inrg. rewrite !andb_true_iff, !Rleb_true. clear. intuition. Qed.
Definition table_covers := forall si ti, (si < ns)%nat -> (ti < nt)%nat -> m si ti = true -> lo <= wsel si ti <= hi -> exists v, tab (q si ti) (aux si ti) = Some v.
Definition density_ok := match fr with None => True | Some _ =>
  (forall si ti, (si < ns)%nat -> (ti < nt)%nat -> m si ti = true -> lo <= wsel si ti <= hi) \/
  (forall si ti, (si < ns)%nat -> (ti < nt)%nat -> m si ti = true -> ~ lo <= wsel si ti <= hi) end.

Definition result2d (P : arr) := forall si ti, (si < ns)%nat -> (ti < nt)%nat ->
  (m si ti = true -> lo <= wsel si ti <= hi -> tab (q si ti) (aux si ti) = Some (P si ti)) /\
  (m si ti = true -> ~ lo <= wsel si ti <= hi -> P si ti = 0) /\ (m si ti = false -> P si ti = old si ti).

Lemma cs_nil : filter (fun c => inrg (fst c) (snd c)) (cells ns nt) = [] <-> forall si ti, (si < ns)%nat -> (ti < nt)%nat -> m si ti = true -> ~ lo <= wsel si ti <= hi.
Proof using m lo hi wsel ns nt.
  split.
  - intros E si ti Hs Ht Hm Hr. assert (In (si, ti) (filter (fun c => inrg (fst c) (snd c)) (cells ns nt))).
    { apply filter_In. split; [now apply in_cells|]. apply inrg_true. now split. }
    rewrite E in H. exact H.
  - intros H. destruct (filter _ _) as [|c l] eqn:E; [reflexivity|exfalso].
    assert (I : In c (c :: l)) by now left. rewrite <- E in I. apply filter_In in I. destruct I as [I J]. apply in_cells in I. apply inrg_true in J.
    exact (H _ _ (proj1 I) (proj2 I) (proj1 J) (proj2 J)).
Qed.
Lemma density_iff : density_ok <-> filter (fun c => inrg (fst c) (snd c)) (cells ns nt) = [] \/
  match fr with None => false | Some _ => negb (length (filter (fun c => inrg (fst c) (snd c)) (cells ns nt)) =? length (filter (fun c => m (fst c) (snd c)) (cells ns nt)))%nat end = false.
Proof.
  unfold density_ok. destruct fr as [f|]; [|split; auto]. rewrite cs_nil, negb_false_iff, Nat.eqb_eq.
  rewrite (filter_eq_len (fun c => inrg (fst c) (snd c)) (fun c => m (fst c) (snd c))).
  - split; intros [A|A]; auto.
    + right. intros c Hc Hm. apply in_cells in Hc. apply inrg_true. split; [exact Hm|]. now apply A.
    + left. intros si ti Hs Ht Hm. specialize (A (si, ti)). cbn in A. apply inrg_true. apply A; [now apply in_cells|exact Hm].
  - intros c Hc. apply inrg_true in Hc. tauto.
Qed.
Lemma curve2d_unfold : curve2d ns nt (SMask m) lo hi wsel wval aux fy fr tab old =
  match filter (fun c => inrg (fst c) (snd c)) (cells ns nt) with
  | [] => Ok (fun si ti => if inrg si ti then match tab (q si ti) (aux si ti) with Some v => v | None => 0 end else if m si ti then 0 else old si ti)
  | _ => if match fr with None => false | Some _ => negb (length (filter (fun c => inrg (fst c) (snd c)) (cells ns nt)) =? length (filter (fun c => m (fst c) (snd c)) (cells ns nt)))%nat end then Err ValueError
         else if forallb (fun c => match tab (q (fst c) (snd c)) (aux (fst c) (snd c)) with Some _ => true | None => false end) (filter (fun c => inrg (fst c) (snd c)) (cells ns nt)) then
           Ok (fun si ti => if inrg si ti then match tab (q si ti) (aux si ti) with Some v => v | None => 0 end else if m si ti then 0 else old si ti)
         else Err ValueError
  end.
Proof. reflexivity. Qed.
Lemma curve2d_ok : density_ok -> table_covers -> exists P, curve2d ns nt (SMask m) lo hi wsel wval aux fy fr tab old = Ok P /\ result2d P.
Proof.
  intros Hd Ht. rewrite curve2d_unfold.
  set (out := fun si ti => if inrg si ti then match tab (q si ti) (aux si ti) with Some v => v | None => 0 end else if m si ti then 0 else old si ti).
  assert (Ro : result2d out).
  { intros si ti Hs Hti. unfold out. split; [|split].
    - intros Hm Hr. rewrite (proj2 (inrg_true si ti) (conj Hm Hr)). destruct (Ht si ti Hs Hti Hm Hr) as [v E]. now rewrite E.
    - intros Hm Hr. destruct (inrg si ti) eqn:E; [apply inrg_true in E; tauto|]. now rewrite Hm.
    - intros Hm. destruct (inrg si ti) eqn:E; [apply inrg_true in E; rewrite Hm in E; destruct E; discriminate|]. now rewrite Hm. }
  exists out. split; [|exact Ro].
  apply density_iff in Hd.
  assert (FA : forallb (fun c => match tab (q (fst c) (snd c)) (aux (fst c) (snd c)) with Some _ => true | None => false end) (filter (fun c => inrg (fst c) (snd c)) (cells ns nt)) = true).
  { apply forallb_forall. intros c Hc. apply filter_In in Hc. destruct Hc as [Hc I]. apply in_cells in Hc. apply inrg_true in I.
    destruct (Ht _ _ (proj1 Hc) (proj2 Hc) (proj1 I) (proj2 I)) as [v E]. now rewrite E. }
  destruct (filter (fun c => inrg (fst c) (snd c)) (cells ns nt)) eqn:E; [reflexivity|].
  destruct Hd as [Hd|Hd]; [discriminate|]. rewrite Hd, FA. reflexivity.
Qed.
Lemma curve2d_err : ~ density_ok -> exists e, curve2d ns nt (SMask m) lo hi wsel wval aux fy fr tab old = Err e.
Proof.
  intros Hd. rewrite curve2d_unfold. rewrite density_iff in Hd.
  destruct (filter (fun c => inrg (fst c) (snd c)) (cells ns nt)) eqn:E; [exfalso; apply Hd; now left|].
  destruct (match fr with None => false | Some _ => _ end) eqn:F; [now exists ValueError|]. exfalso. apply Hd. now right.
Qed.
End Mask.

(** factors *)
Lemma factors_mask tab ns nt m row col old :
  (forall s t, (s < ns)%nat -> (t < nt)%nat -> m s t = true -> exists f, tab (row s t) (col s t) = Some f) ->
  exists x, table_factors tab ns nt (SMask m) row col old = Ok x /\ forall s t, (s < ns)%nat -> (t < nt)%nat ->
    (forall f, m s t = true -> tab (row s t) (col s t) = Some f -> x s t = old s t * f) /\ (m s t = false -> x s t = old s t).
Proof.
  intros H. unfold table_factors. cbn [np_sum hits].
  rewrite (proj2 (forallb_forall _ _)).
  - eexists. split; [reflexivity|]. intros s t Hs Ht. cbn. split.
    + intros f Hm E. now rewrite Hm, E.
    + intros Hm. now rewrite Hm.
  - intros c Hc. apply filter_In in Hc. destruct Hc as [Hc Hm]. apply in_cells in Hc. destruct (H _ _ (proj1 Hc) (proj2 Hc) Hm) as [f E]. now rewrite E.
Qed.

(** sectors *)
Lemma rmod_eq_k x p : exists k : Z, x = rmod x p + p * IZR k.
Proof. exists (rfloor (x / p)). unfold rmod. ring. Qed.
Lemma rmod_between p x y : 0 < p -> x <= y < x + p -> rmod y p = (if Rleb (rmod x p + (y - x)) p then if Reqb (rmod x p + (y - x)) p then 0 else rmod x p + (y - x) else rmod x p + (y - x) - p).
Proof.
  intros Hp H. pose proof (rmod_range x p Hp) as Rx. destruct (rmod_eq_k x p) as [k E].
  apply rmod_unique; [exact Hp| |].
  - destruct (Rleb _ p) eqn:L; [apply Rleb_true in L|apply Rleb_false in L; lra].
    destruct (Reqb _ p) eqn:Q; [lra|apply Reqb_false in Q; lra].
  - destruct (Rleb _ p) eqn:L; [apply Rleb_true in L|].
    + destruct (Reqb _ p) eqn:Q; [apply Reqb_true in Q|].
      * exists (- (k + 1))%Z. rewrite opp_IZR, plus_IZR. nra.
      * exists (- k)%Z. rewrite opp_IZR. nra.
    + exists (- (k + 1))%Z. rewrite opp_IZR, plus_IZR. nra.
Qed.
(** a representative of d in [mi, mi + p) *)
Lemma repr_exists p mi d : 0 < p -> exists k : Z, mi <= d + p * IZR k < mi + p.
Proof.
  intros Hp. exists (rfloor ((mi - d) / p) + (if Reqb (IZR (rfloor ((mi - d) / p))) ((mi - d) / p) then 0 else 1))%Z.
  pose proof (rfloor_spec ((mi - d) / p)) as F. set (f := IZR (rfloor ((mi - d) / p))) in *.
  assert (E : mi - d = p * ((mi - d) / p)) by (field; lra). set (z := (mi - d) / p) in *.
  rewrite plus_IZR. fold f. destruct (Reqb f z) eqn:Q; [apply Reqb_true in Q|apply Reqb_false in Q]; nra.
Qed.
Lemma sector_base p mi w u : 0 < p -> 0 < w < p -> 0 <= u < p ->
  (in_range (Some p) mi (mi + w) (mi + u) = true <-> u < w).
Proof.
  intros Hp Hw Hu. pose proof (rmod_range mi p Hp) as Rm.
  unfold in_range. cbn zeta. rewrite (rmod_between p mi (mi + u) Hp), (rmod_between p mi (mi + w) Hp) by lra.
  set (a := rmod mi p) in *. replace (mi + w - mi) with w by ring. replace (mi + u - mi) with u by ring.
  destruct (Rleb (a + w) p) eqn:L1; [apply Rleb_true in L1|apply Rleb_false in L1];
  destruct (Rleb (a + u) p) eqn:L2; [apply Rleb_true in L2|apply Rleb_false in L2|apply Rleb_true in L2|apply Rleb_false in L2];
  try (destruct (Reqb (a + w) p) eqn:Q1; [apply Reqb_true in Q1|apply Reqb_false in Q1]);
  try (destruct (Reqb (a + u) p) eqn:Q2; [apply Reqb_true in Q2|apply Reqb_false in Q2]);
  match goal with |- context [if Rltb ?x ?y then _ else _] => destruct (Rltb x y) eqn:L3; [apply Rltb_true in L3|apply Rltb_false in L3] end;
  rewrite ?andb_true_iff, ?orb_true_iff, ?Rleb_true, ?Rltb_true; split; intros; try lra;
  try (destruct H; lra); try (split; lra);
  try (destruct (Rle_lt_dec a (a + u)); [left; lra|right; lra]); try (left; lra); try (right; lra).
Qed.
Lemma in_range_shift p mi ma d i j k : 0 < p -> in_range (Some p) (mi + p * IZR i) (ma + p * IZR j) (d + p * IZR k) = in_range (Some p) mi ma d.
Proof. intros Hp. unfold in_range. cbn zeta. now rewrite !rmod_shift by exact Hp. Qed.
Lemma sector_iff p mi ma d j : 0 < p -> mi < ma + p * IZR j < mi + p ->
  (in_range (Some p) mi ma d = true <-> exists k : Z, mi <= d + p * IZR k < ma + p * IZR j).
Proof.
  intros Hp Hj. destruct (repr_exists p mi d Hp) as [k0 Hk].
  rewrite <- (in_range_shift p mi ma d 0 j k0 Hp). rewrite Rmult_0_r, Rplus_0_r.
  set (w := ma + p * IZR j - mi). set (u := d + p * IZR k0 - mi).
  replace (ma + p * IZR j) with (mi + w) by (unfold w; ring). replace (d + p * IZR k0) with (mi + u) by (unfold u; ring).
  rewrite sector_base by (unfold w, u; lra). split.
  - intros H. exists k0. unfold u, w in *. lra.
  - intros [k [K1 K2]]. assert (Ek : k = k0).
    { assert (A : (k - k0 < 1)%Z). { apply lt_IZR. rewrite minus_IZR. unfold w in K2. nra. }
      assert (B : (k0 - k < 1)%Z). { apply lt_IZR. rewrite minus_IZR. nra. }
      lia. }
    subst k. unfold u, w in *. lra.
Qed.
Lemma sector_full p mi d j : 0 < p -> in_range (Some p) mi (mi + p * IZR j) d = false.
Proof.
  intros Hp. unfold in_range. cbn zeta. rewrite rmod_shift by exact Hp. rewrite (proj2 (Rltb_false _ _)) by lra.
  destruct (Rleb (rmod mi p) (rmod d p)) eqn:A; [apply Rleb_true in A|reflexivity]. cbn [andb]. apply Rltb_false. exact A.
Qed.
Lemma sector_plain mi ma d : in_range None mi ma d = true <-> mi <= d < ma.
Proof. unfold in_range. rewrite andb_true_iff, Rleb_true, Rltb_true. tauto. Qed.
Lemma rule_iff ranges vals : length vals = length ranges ->
  (rule_matches ranges vals = true <-> forall i, (i < length ranges)%nat ->
    let r := nth i ranges (None, 0, 0) in in_range (fst (fst r)) (snd (fst r)) (snd r) (nth i vals 0) = true).
Proof.
  intros HL. unfold rule_matches. rewrite forallb_forall. cbn zeta. split.
  - intros H i Hi. apply (H (nth i ranges (None, 0, 0), nth i vals 0)).
    rewrite <- combine_nth by (now rewrite HL). apply nth_In. rewrite combine_length, HL. lia.
  - intros H x Hx. apply (In_nth _ _ ((None, 0, 0), 0)) in Hx. destruct Hx as (i & Hi & E).
    rewrite combine_length, HL, Nat.min_id in Hi. rewrite combine_nth in E by (now rewrite HL). subst x. cbn. exact (H i Hi).
Qed.
