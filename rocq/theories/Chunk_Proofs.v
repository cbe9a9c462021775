From Verif Require Import Base Chunk_Model Chunk_Spec.
Require Import ZifyBool ZifyNat.
Local Open Scope Z_scope.

Lemma zsum_app l1 l2 : zsum (l1 ++ l2) = zsum l1 + zsum l2.
Proof. unfold zsum. induction l1; cbn; lia. Qed.
Lemma zsum_repeat v n : zsum (repeat v n) = Z.of_nat n * v.
Proof. unfold zsum. induction n; [reflexivity|]. cbn [repeat fold_right]. rewrite IHn. lia. Qed.
Lemma firstn_repeat {A} (v : A) k n : firstn k (repeat v n) = repeat v (Nat.min k n).
Proof. revert k; induction n; intros [|k]; cbn; try reflexivity. now rewrite IHn. Qed.
Lemma skipn_repeat {A} (v : A) k n : skipn k (repeat v n) = repeat v (n - k).
Proof. revert k; induction n; intros [|k]; cbn; try reflexivity. apply IHn. Qed.
Lemma map_repeat {A B} (f : A -> B) v n : map f (repeat v n) = repeat (f v) n.
Proof. induction n; cbn; congruence. Qed.

Lemma add_one_last_full extra n v : 0 <= extra <= n ->
  add_one_last extra (np_full n v) = repeat v (Z.to_nat (n - extra)) ++ repeat (v + 1) (Z.to_nat extra).
Proof.
  intros H. unfold add_one_last, np_full. rewrite repeat_length, firstn_repeat, skipn_repeat, map_repeat.
  f_equal; f_equal; lia.
Qed.

(** explicit form of the filled list *)
Lemma fill_chunks_ok total n size :
  0 <= n -> 0 <= total - n * size <= n ->
  fill_chunks total n size =
    Ok (repeat size (Z.to_nat (n - (total - n * size))) ++ repeat (size + 1) (Z.to_nat (total - n * size))).
Proof.
  intros Hn He. unfold fill_chunks.
  set (e := total - n * size) in *.
  assert (Hl : (if e >? 0 then add_one_last e (np_full n size) else np_full n size) =
     repeat size (Z.to_nat (n - e)) ++ repeat (size + 1) (Z.to_nat e)).
  { destruct (e >? 0) eqn:E.
    - apply add_one_last_full; lia.
    - assert (e = 0) by lia. replace (n - e) with n by lia. unfold np_full. rewrite H.
      cbn. now rewrite app_nil_r. }
  rewrite Hl. rewrite zsum_app, !zsum_repeat.
  rewrite !Z2Nat.id by lia.
  replace ((n - e) * size + e * (size + 1) =? total) with true; [reflexivity|].
  symmetry. apply Z.eqb_eq. unfold e. ring.
Qed.

(** the invariant on (number of chunks, base size) *)
Definition good (total n size : Z) : Prop := 1 <= n /\ 1 <= size /\ 0 <= total - n * size < n.

Lemma good_fill total n size : good total n size ->
  exists l, fill_chunks total n size = Ok l /\ partitions l total /\ balanced l
    /\ (forall c, In c l -> size <= c <= size + 1)
    /\ (total - n * size = 0 -> forall c, In c l -> c = size).
Proof.
  intros (Hn & Hs & He). rewrite fill_chunks_ok by lia. eexists; split; [reflexivity|].
  assert (Hin : forall c, In c (repeat size (Z.to_nat (n - (total - n * size))) ++ repeat (size + 1) (Z.to_nat (total - n * size))) ->
     c = size \/ (c = size + 1 /\ total - n * size <> 0)).
  { intros c Hc. apply in_app_or in Hc. destruct Hc as [Hc|Hc].
    - apply repeat_spec in Hc. lia.
    - assert (total - n * size <> 0). { intros E. rewrite E in Hc. cbn in Hc. contradiction. }
      apply repeat_spec in Hc. lia. }
  split; [split|split; [|split]].
  - apply Forall_forall. intros c Hc. apply Hin in Hc. lia.
  - change (zsum (repeat size (Z.to_nat (n - (total - n * size))) ++ repeat (size + 1) (Z.to_nat (total - n * size))) = total).
    rewrite zsum_app, !zsum_repeat, !Z2Nat.id by lia. ring.
  - intros a b Ha Hb. apply Hin in Ha. apply Hin in Hb. lia.
  - intros c Hc. apply Hin in Hc. lia.
  - intros E c Hc. apply Hin in Hc. lia.
Qed.

Lemma good_div total n : 1 <= n <= total -> good total n (total / n).
Proof.
  intros H. unfold good. pose proof (Z.div_mod total n ltac:(lia)) as D.
  pose proof (Z.mod_pos_bound total n ltac:(lia)) as M.
  pose proof (Z.div_le_lower_bound total n 1 ltac:(lia) ltac:(lia)).
  nia.
Qed.

Lemma py_intdiv_ok a b : b <> 0 -> py_intdiv a b = Ok (a / b).
Proof. intros H. unfold py_intdiv. destruct (Z.eqb_spec b 0); [lia|reflexivity]. Qed.

(** shared arithmetic of the given-chunk-size branches (states and targets) *)
Lemma given_size_good total c : 1 <= total -> 1 <= c ->
  let cs := Z.min total c in
  let n := Z.max (total / cs) 1 in
  1 <= cs /\ 1 <= n <= total /\
  (if total / n >? cs then good total (n + 1) (total / (n + 1)) /\ total / (n+1) + 1 <= c /\ n + 1 <> 0
   else good total n cs /\ cs <= c).
Proof.
  intros Ht Hc cs n.
  assert (Hcs : 1 <= cs <= total) by (unfold cs; lia).
  assert (Hq : 1 <= total / cs) by (apply Z.div_le_lower_bound; lia).
  assert (Hn : n = total / cs) by (unfold n; lia).
  pose proof (Z.div_mod total cs ltac:(lia)) as D1.
  pose proof (Z.mod_pos_bound total cs ltac:(lia)) as M1.
  assert (Hn1 : 1 <= n) by lia. rewrite <- Hn in D1.
  assert (Hnt : n <= total) by nia.
  split; [lia|]. split; [lia|].
  pose proof (Z.div_mod total n ltac:(lia)) as D2.
  pose proof (Z.mod_pos_bound total n ltac:(lia)) as M2.
  assert (Hge : cs <= total / n) by (apply Z.div_le_lower_bound; nia).
  destruct (total / n >? cs) eqn:E.
  - assert (Hlt : n + 1 <= total) by nia.
    split; [apply good_div; lia|]. split; [|lia].
    assert (total / (n + 1) < cs) by (apply Z.div_lt_upper_bound; nia).
    unfold cs in *; lia.
  - assert (total / n = cs) by lia. split; [|unfold cs; lia].
    unfold good. nia.
Qed.

Lemma states_chunking_good np css ns : 1 <= np -> (forall c, css = Some c -> 1 <= c) -> 1 <= ns ->
  exists n s, states_chunking np css ns = Ok (n, s) /\ good ns n s /\
    (forall c, css = Some c -> s <= c /\ (ns - n * s <> 0 -> s + 1 <= c + 1)) /\
    (css = None -> n <= np).
Proof.
  intros Hp Hc Hs. unfold states_chunking. destruct css as [c|].
  - specialize (Hc c eq_refl).
    pose proof (given_size_good ns c Hs Hc) as G. cbn zeta in G.
    destruct G as (G1 & G2 & G3).
    rewrite py_intdiv_ok by lia. cbn [bind]. rewrite py_intdiv_ok by lia. cbn [bind].
    destruct (_ >? _).
    + rewrite py_intdiv_ok by lia. cbn [bind]. do 2 eexists; split; [reflexivity|].
      split; [apply G3|]. split; [|discriminate]. intros c' [= <-]. lia.
    + do 2 eexists; split; [reflexivity|]. split; [apply G3|]. split; [|discriminate].
      intros c' [= <-]. lia.
  - rewrite py_intdiv_ok by lia. cbn [bind]. do 2 eexists; split; [reflexivity|].
    split; [|split; [discriminate|intros _; lia]].
    destruct (Z.le_gt_cases np ns) as [H|H].
    + rewrite Z.min_l by lia. rewrite Z.max_l by (apply Z.div_le_lower_bound; lia).
      apply good_div; lia.
    + rewrite Z.min_r by lia. rewrite Z.div_small by lia. unfold good. cbn. lia.
Qed.

Lemma shrink_ok fuel ns nt ct n s :
  1 <= ct <= nt -> good ns n s -> ns <= n + Z.of_nat fuel ->
  exists n' s', shrink fuel ns nt ct n s = Ok (n', s') /\ good ns n' s' /\ s' * ct <= nt.
Proof.
  revert n s. induction fuel as [|f IH]; intros n s Hct Hg Hf.
  - cbn. destruct Hg as (G1 & G2 & G3).
    assert (s = 1) by nia. subst s.
    destruct (_ >? _) eqn:E; [lia|]. do 2 eexists; split; [reflexivity|]. unfold good; lia.
  - cbn [shrink]. destruct (s * ct >? nt) eqn:E.
    + rewrite py_intdiv_ok by (destruct Hg; lia). cbn [bind].
      destruct Hg as (G1 & G2 & G3).
      assert (2 <= s) by nia.
      apply IH; [exact Hct| |lia]. apply good_div. nia.
    + do 2 eexists; split; [reflexivity|]. split; [exact Hg|lia].
Qed.

Lemma targets_chunking_good fuel np css csp ns nt n s :
  1 <= np -> (forall c, csp = Some c -> 1 <= c) -> 1 <= ns -> 1 < nt ->
  good ns n s -> ns <= Z.of_nat fuel ->
  exists nct ct n' s', targets_chunking fuel np css csp ns nt n s = Ok ((nct, ct), (n', s'))
    /\ good nt nct ct /\ good ns n' s'
    /\ (forall c, csp = Some c -> ct <= c)
    /\ (css <> None -> n' = n /\ s' = s).
Proof.
  intros Hp Hc Hs Ht Hg Hf. unfold targets_chunking. destruct csp as [c|].
  - specialize (Hc c eq_refl).
    pose proof (given_size_good nt c ltac:(lia) Hc) as G. cbn zeta in G.
    destruct G as (G1 & G2 & G3).
    rewrite py_intdiv_ok by lia. cbn [bind]. rewrite py_intdiv_ok by lia. cbn [bind].
    destruct (_ >? _).
    + rewrite py_intdiv_ok by lia. cbn [bind]. do 4 eexists; split; [reflexivity|].
      repeat split; try apply G3; try apply Hg. intros c' [= <-]; lia.
    + do 4 eexists; split; [reflexivity|].
      repeat split; try apply G3; try apply Hg. intros c' [= <-]; lia.
  - destruct (nt <? Z.max ns 1000).
    + cbn [bind]. rewrite py_intdiv_ok by lia. cbn [bind]. rewrite Z.div_1_r.
      destruct (nt >? nt) eqn:E; [lia|].
      do 4 eexists; split; [reflexivity|]. split; [unfold good; lia|]. split; [exact Hg|].
      split; [discriminate|auto].
    + rewrite py_intdiv_ok by lia. cbn [bind].
      assert (Gt : good nt (Z.min np nt) (Z.max (nt / np) 1)).
      { destruct (Z.le_gt_cases np nt) as [H|H].
        + rewrite Z.min_l by lia. rewrite Z.max_l by (apply Z.div_le_lower_bound; lia).
          apply good_div; lia.
        + rewrite Z.min_r by lia. rewrite Z.div_small by lia. unfold good. cbn. lia. }
      set (ct := Z.max (nt / np) 1) in *. set (nct := Z.min np nt) in *.
      assert (Hlast : nt / nct >? ct = false).
      { destruct Gt as (A & B & C). assert (nt / nct < ct + 1) by (apply Z.div_lt_upper_bound; nia). lia. }
      assert (Hmid : exists n' s', (match css with
           | None => if n >? 1 then do s0 <- shrink fuel ns nt ct n s; Ok (nct, ct, s0) else Ok (nct, ct, (n, s))
           | Some _ => Ok (nct, ct, (n, s)) end) = Ok (nct, ct, (n', s')) /\ good ns n' s' /\ (css <> None -> n' = n /\ s' = s)).
      { destruct css as [cs|].
        - do 2 eexists; split; [reflexivity|]. auto.
        - destruct (n >? 1).
          + destruct (shrink_ok fuel ns nt ct n s) as (n' & s' & H1 & H2 & _).
            * destruct Gt as (A & B & C). nia.
            * exact Hg.
            * destruct Hg; lia.
            * rewrite H1; cbn [bind]; do 2 eexists; split; [reflexivity|]; split; [exact H2|congruence].
          + do 2 eexists; split; [reflexivity|]. split; [exact Hg|congruence]. }
      destruct Hmid as (n' & s' & E1 & E2 & E3). rewrite E1. cbn [bind].
      rewrite py_intdiv_ok by (destruct Gt; lia). cbn [bind]. rewrite Hlast.
      do 4 eexists; split; [reflexivity|]. split; [exact Gt|]. split; [exact E2|]. split; [discriminate|exact E3].
Qed.

Lemma calc_chunk_sizes_ok fuel np css csp ns nt :
  valid_setting np css csp -> 1 <= ns -> 0 <= nt -> ns <= Z.of_nat fuel ->
  exists ls lt, calc_chunk_sizes fuel np css csp ns nt = Ok (ls, lt)
    /\ partitions ls ns /\ balanced ls
    /\ (1 <= nt -> partitions lt nt) /\ balanced lt /\ (nt = 0 -> lt = [0])
    /\ (forall c, css = Some c -> Forall (fun x => x <= c + 1) ls)
    /\ (forall c, csp = Some c -> Forall (fun x => x <= c + 1) lt).
Proof.
  intros (Hp & Hcs & Hcp) Hs Ht Hf. unfold calc_chunk_sizes.
  destruct (states_chunking_good np css ns Hp Hcs Hs) as (n & s & E & G & Hb & _).
  rewrite E. cbn [bind].
  destruct (nt >? 1) eqn:E1.
  - destruct (targets_chunking_good fuel np css csp ns nt n s Hp Hcp Hs ltac:(lia) G Hf)
      as (nct & ct & n' & s' & ET & Gt & Gs & Hbt & Hkeep).
    rewrite ET. cbn [bind].
    destruct (good_fill nt nct ct Gt) as (lt & EL & P1 & P2 & P3 & _). rewrite EL. cbn [bind].
    destruct (good_fill ns n' s' Gs) as (ls & EL2 & Q1 & Q2 & Q3 & _). rewrite EL2. cbn [bind].
    do 2 eexists; split; [reflexivity|]. split; [exact Q1|]. split; [exact Q2|].
    split; [intros _; exact P1|]. split; [exact P2|]. split; [lia|]. split.
    + intros c Hc. destruct Hkeep as (-> & ->); [congruence|].
      apply Forall_forall. intros x Hx. apply Q3 in Hx. destruct (Hb c Hc). lia.
    + intros c Hc. apply Forall_forall. intros x Hx. apply P3 in Hx. specialize (Hbt c Hc). lia.
  - destruct (good_fill ns n s G) as (ls & EL2 & Q1 & Q2 & Q3 & _). rewrite EL2. cbn [bind].
    do 2 eexists; split; [reflexivity|]. split; [exact Q1|]. split; [exact Q2|].
    split; [intros H; assert (nt = 1) by lia; subst; split; [repeat constructor; lia|reflexivity]|].
    split; [intros a b [<-|[]] [<-|[]]; lia|]. split; [intros ->; reflexivity|]. split.
    + intros c Hc. apply Forall_forall. intros x Hx. apply Q3 in Hx. destruct (Hb c Hc). lia.
    + intros c Hc. specialize (Hcp c Hc). repeat constructor. lia.
Qed.

Lemma chunk_bound_refuted :
  exists np css ns ls lt, calc_chunk_sizes 100 np (Some css) None ns 0 = Ok (ls, lt) /\
    1 <= np /\ 1 <= css /\ Exists (fun x => css < x) ls.
Proof. exists 1, 4, 9. do 2 eexists. split; [vm_compute; reflexivity|]. repeat split; try lia.
  apply Exists_exists. exists 5. split; [right; left; reflexivity|lia]. Qed.

Lemma C01_lemma : forall np css csp ns nt fuel,
    valid_setting np css csp -> 1 <= ns -> 0 <= nt -> ns <= Z.of_nat fuel ->
    exists ls lt, calc_chunk_sizes fuel np css csp ns nt = Ok (ls, lt)
      /\ partitions ls ns
      /\ (1 <= nt -> partitions lt nt) /\ (nt = 0 -> lt = [0]).
Proof.
  intros np css csp ns nt fuel Hv Hs Ht Hf.
  destruct (calc_chunk_sizes_ok fuel np css csp ns nt Hv Hs Ht Hf) as (ls & lt & E & A & _ & B & _ & C & _).
  eauto 10.
Qed.
Lemma C02_lemma : forall np css csp ns nt fuel ls lt,
    valid_setting np css csp -> 1 <= ns -> 0 <= nt -> ns <= Z.of_nat fuel ->
    calc_chunk_sizes fuel np css csp ns nt = Ok (ls, lt) ->
    balanced ls /\ balanced lt
    /\ (forall c, css = Some c -> Forall (fun x => x <= c + 1) ls)
    /\ (forall c, csp = Some c -> Forall (fun x => x <= c + 1) lt).
Proof.
  intros np css csp ns nt fuel ls lt Hv Hs Ht Hf E0.
  destruct (calc_chunk_sizes_ok fuel np css csp ns nt Hv Hs Ht Hf) as (ls' & lt' & E & A & B & C & D & F & G & H).
  rewrite E in E0. injection E0 as <- <-. auto.
Qed.
Lemma loop_dims_states css csp : In DState (loop_dims css csp) <-> css <> None.
Proof. destruct css, csp; cbn; intuition congruence. Qed.
Lemma loop_dims_targets_missed csp : csp <> None -> ~ In DTarget (loop_dims None csp).
Proof. destruct csp; cbn; intuition congruence. Qed.
Lemma loop_dims_targets css csp : css <> None -> (In DTarget (loop_dims css csp) <-> csp <> None).
Proof. destruct css, csp; cbn; intuition congruence. Qed.
