(** Proofs about one-point flow states. *)
From Verif Require Import RBase OnePoint_Model.
Local Open Scope R_scope.

Lemma eval_trace_range h h0 q w : eval_trace h h0 q = Some w -> -1 <= w <= 1.
Proof.
  unfold eval_trace. destruct (Reqb _ 0); [discriminate|]. cbn zeta. set (lx := dot2 h h0 / _). set (px := dot2 q h0 / _).
  destruct ((Rltb lx 0 && Rleb lx px && Rleb px 0) || (Rltb 0 lx && Rleb 0 px && Rleb px lx)) eqn:E; [|discriminate].
  intros H. injection H as <-. apply orb_true_iff in E. rewrite !andb_true_iff, !Rltb_true, !Rleb_true in E.
  assert (A : 0 < Rabs lx) by (apply Rabs_pos_lt; lra).
  assert (B : - Rabs lx <= px <= Rabs lx) by (unfold Rabs in *; destruct (Rcase_abs lx); lra).
  split.
  - apply Rmult_le_reg_r with (Rabs lx); [exact A|]. replace (px / Rabs lx * Rabs lx) with px by (field; lra). lra.
  - apply Rmult_le_reg_r with (Rabs lx); [exact A|]. replace (px / Rabs lx * Rabs lx) with px by (field; lra). lra.
Qed.
Lemma back_range dxy h0 s : forall q s' w, back dxy h0 s q = Some (s', w) -> (s' <= s)%nat /\ -1 <= w <= 1.
Proof.
  induction s as [|s IH]; intros q s' w; cbn [back].
  - destruct (eval_trace _ _ _) eqn:E; [|discriminate]. intros H. injection H as <- <-. split; [lia|]. now apply eval_trace_range in E.
  - destruct (eval_trace _ _ _) eqn:E.
    + intros H. injection H as <- <-. split; [lia|]. now apply eval_trace_range in E.
    + intros H. apply IH in H. split; [lia|tauto].
Qed.
Lemma forth_range dxy h0 k : forall s q, match forth dxy h0 k s q with At s' w => (s <= s' < s + k)%nat /\ -1 <= w <= 1 | Before => False | After => True end.
Proof.
  induction k as [|k IH]; intros s q; cbn [forth]; [exact I|].
  destruct (eval_trace _ _ _) eqn:E.
  - split; [lia|]. now apply eval_trace_range in E.
  - specialize (IH (S s) (add2 q (dxy s))). destruct (forth _ _ _ _ _); [exact IH| |exact I]. split; [lia|tauto].
Qed.
Lemma find_state_range n dxy s p : (s < n)%nat -> match find_state n dxy s p with At s' w => (s' < n)%nat /\ -1 <= w <= 1 | Before => False | After => True end.
Proof.
  intros Hs. unfold find_state. destruct (eval_local _ _); [split; [exact Hs|lra]|].
  destruct (back _ _ _ _) as [[s' w]|] eqn:E.
  - apply back_range in E. split; [lia|tauto].
  - pose proof (forth_range dxy (dxy s) (n - S s) (S s) p) as F. destruct (forth _ _ _ _ _); [exact F| |exact I]. split; [lia|tauto].
Qed.
Lemma prev_lt n s : (0 < n)%nat -> (s < n)%nat -> (prev n s < n)%nat.
Proof. destruct s; cbn; lia. Qed.
Lemma flow_bounds n dxy data s p a b : (s < n)%nat -> (forall i, (i < n)%nat -> a <= data i <= b) -> a <= flow_value n dxy data s p <= b.
Proof.
  intros Hs Hd. unfold flow_value. pose proof (find_state_range n dxy s p Hs) as F. destruct (find_state n dxy s p) as [|s' w|]; cbn [interp_time].
  - destruct F.
  - destruct F as [F1 F2]. pose proof (Hd s' F1) as D1. pose proof (Hd _ (prev_lt n s' ltac:(lia) F1)) as D2.
    destruct (Rleb w 0) eqn:E; [apply Rleb_true in E|apply Rleb_false in E]; cbn zeta; split; nra.
  - apply Hd. lia.
Qed.

(** constant displacements *)
Section Const.
Context (v : R * R) (HL : 0 < norm2 v).
Let L := norm2 v.
Definition px (q : R * R) := dot2 q v / norm2 v.
Lemma px_add q : px (add2 q v) = px q + L.
Proof using HL.
  unfold px, L. assert (E : norm2 v * norm2 v = dot2 v v). { unfold norm2. apply sqrt_sqrt. unfold dot2. nra. }
  replace (dot2 (add2 q v) v) with (dot2 q v + dot2 v v) by (unfold dot2, add2; cbn; ring). rewrite <- E. field. lra.
Qed.
Lemma px_sub q : px (add2 q (neg2 v)) = px q - L.
Proof using HL.
  unfold px, L. assert (E : norm2 v * norm2 v = dot2 v v). { unfold norm2. apply sqrt_sqrt. unfold dot2. nra. }
  replace (dot2 (add2 q (neg2 v)) v) with (dot2 q v - dot2 v v) by (unfold dot2, add2, neg2; cbn; ring). rewrite <- E. field. lra.
Qed.
Lemma lx_v : dot2 v v / norm2 v = L.
Proof using HL. unfold L. assert (E : norm2 v * norm2 v = dot2 v v). { unfold norm2. apply sqrt_sqrt. unfold dot2. nra. } rewrite <- E. field. lra. Qed.
Lemma lx_nv : dot2 (neg2 v) v / norm2 v = - L.
Proof using HL. replace (dot2 (neg2 v) v) with (- dot2 v v) by (unfold dot2, neg2; cbn; ring). rewrite <- lx_v. field. lra. Qed.
Lemma eval_back q : eval_trace (neg2 v) v q = if Rleb (- L) (px q) && Rleb (px q) 0 then Some (px q / L) else None.
Proof using HL.
  unfold eval_trace. rewrite (proj2 (Reqb_false _ _)) by lra. cbn zeta. rewrite lx_nv. fold (px q).
  rewrite (proj2 (Rltb_true _ _)) by (unfold L; lra). rewrite (proj2 (Rltb_false 0 _)) by (unfold L; lra). cbn [andb]. rewrite orb_false_r.
  rewrite Rabs_Ropp, Rabs_right by (unfold L; lra). reflexivity.
Qed.
Lemma eval_forth q : eval_trace v v q = if Rleb 0 (px q) && Rleb (px q) L then Some (px q / L) else None.
Proof using HL.
  unfold eval_trace. rewrite (proj2 (Reqb_false _ _)) by lra. cbn zeta. rewrite lx_v. fold (px q).
  rewrite (proj2 (Rltb_false L 0)) by (unfold L; lra). rewrite (proj2 (Rltb_true 0 L)) by (unfold L; lra). cbn [andb orb].
  rewrite Rabs_right by (unfold L; lra). reflexivity.
Qed.
Lemma back_found j : forall s q, (j <= s)%nat -> (INR j * L < px q \/ j = O /\ 0 <= px q) -> px q <= (INR j + 1) * L ->
  back (fun _ => v) v s q = Some ((s - j)%nat, px q / L - INR j - 1).
Proof using HL.
  assert (L0 : 0 < L) by exact HL.
  induction j as [|j IH]; intros s q Hj Hlo Hhi.
  - destruct s as [|s]; cbn [back]; rewrite eval_back, px_sub;
    (rewrite (proj2 (Rleb_true _ _)), (proj2 (Rleb_true _ _)) by (cbn in *; lra)); cbn [andb]; (replace ((px q - L) / L) with (px q / L - INR 0 - 1) by (cbn [INR]; field; lra)); rewrite ?Nat.sub_0_r; reflexivity.
  - destruct s as [|s]; [lia|]. cbn [back]. rewrite eval_back, px_sub. rewrite S_INR in *. destruct Hlo as [Hlo|[Hlo _]]; [|discriminate].
    pose proof (pos_INR j) as Pj.
    assert (F : Rleb (px q - L) 0 = false) by (apply Rleb_false; nra).
    rewrite F, andb_false_r. rewrite (IH s (add2 q (neg2 v))); [| lia | left; rewrite px_sub; lra | rewrite px_sub; lra ].
    rewrite px_sub. replace (S s - S j)%nat with (s - j)%nat by lia. replace ((px q - L) / L - INR j - 1) with (px q / L - (INR j + 1) - 1) by (field; lra). reflexivity.
Qed.
Lemma back_none s : forall q, px q < 0 \/ (INR s + 1) * L < px q -> back (fun _ => v) v s q = None.
Proof using HL.
  assert (L0 : 0 < L) by exact HL.
  induction s as [|s IH]; intros q Hq; cbn [back]; rewrite eval_back, px_sub.
  - destruct Hq as [Hq|Hq].
    + now rewrite (proj2 (Rleb_false (- L) _)) by lra.
    + rewrite (proj2 (Rleb_false (px q - L) 0)) by (cbn in Hq; lra). now rewrite andb_false_r.
  - pose proof (pos_INR s) as Ps. rewrite S_INR in Hq. destruct Hq as [Hq|Hq].
    + rewrite (proj2 (Rleb_false (- L) _)) by lra. cbn [andb]. apply IH. left. rewrite px_sub. lra.
    + rewrite (proj2 (Rleb_false (px q - L) 0)) by nra. rewrite andb_false_r. apply IH. right. rewrite px_sub. lra.
Qed.
Lemma forth_found j : forall k s q, (j < k)%nat -> px q < - (INR j * L) \/ j = O /\ px q <= 0 -> - ((INR j + 1) * L) <= px q ->
  forth (fun _ => v) v k s q = At (s + j) (px q / L + INR j + 1).
Proof using HL.
  assert (L0 : 0 < L) by exact HL.
  induction j as [|j IH]; intros k s q Hk Hhi Hlo; (destruct k as [|k]; [lia|]); cbn [forth]; rewrite eval_forth, px_add.
  - rewrite (proj2 (Rleb_true _ _)), (proj2 (Rleb_true _ _)) by (cbn in *; lra). cbn [andb]. f_equal; [lia|]. cbn. field. lra.
  - rewrite S_INR in *. destruct Hhi as [Hhi|[Hhi _]]; [|discriminate]. pose proof (pos_INR j) as Pj.
    rewrite (proj2 (Rleb_false 0 _)) by nra. cbn [andb].
    rewrite (IH k (S s) (add2 q v)); [|lia|left; rewrite px_add; lra|rewrite px_add; lra]. rewrite px_add. f_equal; [lia|]. field. lra.
Qed.
Lemma forth_after k : forall s q, 0 < px q \/ px q < - (INR k * L) -> forth (fun _ => v) v k s q = After.
Proof using HL.
  assert (L0 : 0 < L) by exact HL.
  induction k as [|k IH]; intros s q Hq; cbn [forth]; [reflexivity|]. rewrite eval_forth, px_add. rewrite S_INR in Hq. pose proof (pos_INR k) as Pk.
  destruct Hq as [Hq|Hq].
  - rewrite (proj2 (Rleb_false (px q + L) L)) by lra. rewrite andb_false_r. apply IH. left. rewrite px_add. lra.
  - rewrite (proj2 (Rleb_false 0 _)) by nra. cbn [andb]. apply IH. right. rewrite px_add. lra.
Qed.
Lemma not_local q : px q <> 1e-10 -> eval_local v q = false.
Proof using HL. intros H. unfold eval_local. fold (px q). rewrite (proj2 (Reqb_false _ _) H). apply andb_false_r. Qed.

(** downstream *)
Lemma flow_down n data s q j : (s < n)%nat -> (j <= s)%nat -> px q <> 1e-10 -> (INR j * L < px q \/ j = O /\ 0 <= px q) -> px q <= (INR j + 1) * L ->
  flow_value n (fun _ => v) data s q = (INR j + 1 - px q / L) * data (s - j)%nat + (px q / L - INR j) * data (prev n (s - j)).
Proof using HL.
  assert (L0 : 0 < L) by exact HL.
  intros Hs Hj He Hlo Hhi. unfold flow_value, find_state. rewrite (not_local q He). rewrite (back_found j s q Hj Hlo Hhi). cbn [interp_time].
  assert (W : px q / L - INR j - 1 <= 0).
  { assert (px q / L <= INR j + 1); [|lra]. apply Rmult_le_reg_r with L; [exact L0|]. replace (px q / L * L) with (px q) by (field; lra). lra. }
  rewrite (proj2 (Rleb_true _ _) W). cbn zeta. ring.
Qed.
Lemma flow_up n data s q j : (S (s + j) < n)%nat -> px q < - (INR j * L) -> - ((INR j + 1) * L) < px q ->
  flow_value n (fun _ => v) data s q = (px q / L + INR j + 1) * data (s + j)%nat + (- (px q / L) - INR j) * data (S (s + j)).
Proof using HL.
  assert (L0 : 0 < L) by exact HL.
  intros Hs Hhi Hlo. pose proof (pos_INR j) as Pj. assert (N : px q < 0) by nra. unfold flow_value, find_state. rewrite not_local by lra.
  rewrite back_none by (now left). rewrite (forth_found j) by (try lia; try lra; now left). cbn [interp_time].
  assert (W : 0 < px q / L + INR j + 1).
  { assert (- (INR j + 1) < px q / L); [|lra]. apply Rmult_lt_reg_r with L; [exact L0|]. replace (px q / L * L) with (px q) by (field; lra). lra. }
  rewrite (proj2 (Rleb_false _ _) W). cbn [prev Nat.add]. ring.
Qed.
Lemma flow_up_exact n data s q j : (S (s + j) < n)%nat -> px q = - ((INR j + 1) * L) -> flow_value n (fun _ => v) data s q = data (s + j)%nat.
Proof using HL.
  assert (L0 : 0 < L) by exact HL.
  intros Hs Hq. pose proof (pos_INR j) as Pj. assert (N : px q < 0) by nra. unfold flow_value, find_state. rewrite not_local by lra.
  rewrite back_none by (now left). rewrite (forth_found j); [|lia| |lra].
  - cbn [interp_time]. assert (W : px q / L + INR j + 1 = 0) by (rewrite Hq; field; lra). rewrite W.
    rewrite (proj2 (Rleb_true _ _)) by lra. cbn [prev Nat.add]. cbn zeta. ring.
  - left. nra.
Qed.
Lemma flow_far_up n data s q : (s < n)%nat -> px q < - (INR (n - S s) * L) -> flow_value n (fun _ => v) data s q = data (n - 1)%nat.
Proof using HL.
  assert (L0 : 0 < L) by exact HL.
  intros Hs Hq. pose proof (pos_INR (n - S s)) as Pn. assert (N : px q < 0) by nra. unfold flow_value, find_state. rewrite not_local by lra.
  rewrite back_none by (now left). rewrite forth_after by (now right). reflexivity.
Qed.
Lemma flow_far_down n data s q : (s < n)%nat -> px q <> 1e-10 -> (INR s + 1) * L < px q -> flow_value n (fun _ => v) data s q = data (n - 1)%nat.
Proof using HL.
  assert (L0 : 0 < L) by exact HL.
  intros Hs He Hq. pose proof (pos_INR s) as Pn. unfold flow_value, find_state. rewrite not_local by exact He.
  rewrite back_none by (now right). rewrite forth_after by (left; nra). reflexivity.
Qed.

(** transport: at distance x the value of the time index k + f with x = (s - (k + f)) L *)
Lemma transport n data s q k f : (s < n)%nat -> (S k < n)%nat -> 0 <= f <= 1 -> px q = (INR s - (INR k + f)) * L -> px q <> 1e-10 ->
  INR k + f <= INR s \/ 0 < f < 1 ->
  flow_value n (fun _ => v) data s q = (1 - f) * data k + f * data (S k).
Proof using HL.
  assert (L0 : 0 < L) by exact HL.
  intros Hs Hk Hf Hq He Hc.
  assert (Q : px q / L = INR s - (INR k + f)) by (rewrite Hq; field; lra).
  destruct (Rle_lt_dec (INR k + f) (INR s)) as [D|U].
  - (* downstream *)
    destruct (Req_dec f 1) as [F1|F1].
    + (* the node k + 1 *)
      subst f. replace (INR k + 1) with (INR (S k)) in * by (rewrite S_INR; ring). apply INR_le in D.
      destruct (Nat.eq_dec s (S k)) as [->|Ne].
      * rewrite (flow_down n data (S k) q 0) by (try lia; try exact He; rewrite Hq; cbn [INR]; try (right; split; [reflexivity|]); lra).
        rewrite Q. replace (S k - 0)%nat with (S k) by lia. cbn [INR]. ring.
      * assert (J : INR (s - S k - 1) = INR s - INR (S k) - 1) by (rewrite !minus_INR by lia; reflexivity).
        rewrite (flow_down n data s q (s - S k - 1)); [|lia|lia|exact He|left; rewrite J, Hq; nra|rewrite J, Hq; nra].
        rewrite Q, J. replace (s - (s - S k - 1))%nat with (S (S k)) by lia. cbn [prev]. ring.
    + assert (Dk : INR k < INR s \/ (INR k = INR s /\ f = 0)) by (destruct (Rlt_le_dec (INR k) (INR s)); [now left|right; lra]).
      destruct Dk as [Dk|[Dk F0]].
      * apply INR_lt in Dk. assert (J : INR (s - S k) = INR s - INR k - 1) by (rewrite minus_INR by lia; rewrite S_INR; ring).
        rewrite (flow_down n data s q (s - S k)); [|lia|lia|exact He|left; rewrite J, Hq; nra|rewrite J, Hq; nra].
        rewrite Q, J. replace (s - (s - S k))%nat with (S k) by lia. cbn [prev]. ring.
      * apply INR_eq in Dk. subst k f. rewrite (flow_down n data s q 0) by (try lia; try exact He; rewrite Hq; cbn [INR]; try (right; split; [reflexivity|]); lra).
        rewrite Q. replace (s - 0)%nat with s by lia. cbn [INR]. ring.
  - (* upstream *)
    destruct Hc as [Hc|Hc]; [lra|].
    assert (Sk : (s <= k)%nat). { assert (A : INR s < INR (S k)) by (rewrite S_INR; lra). apply INR_lt in A. lia. }
    assert (J : INR (k - s) = INR k - INR s) by (now rewrite minus_INR).
    rewrite (flow_up n data s q (k - s)); [|lia|rewrite J, Hq; nra|rewrite J, Hq; nra].
    rewrite Q, J. replace (s + (k - s))%nat with k by lia. ring.
Qed.
(** the first and the last state mix *)
Lemma wrap n data s q f : (s < n)%nat -> 0 < f <= 1 -> px q = (INR s + f) * L -> px q <> 1e-10 ->
  flow_value n (fun _ => v) data s q = (1 - f) * data 0%nat + f * data (n - 1)%nat.
Proof using HL.
  assert (L0 : 0 < L) by exact HL.
  intros Hs Hf Hq He. rewrite (flow_down n data s q s); [|exact Hs|lia|exact He|left; rewrite Hq; nra|rewrite Hq; nra].
  replace (s - s)%nat with 0%nat by lia. cbn [prev]. assert (Q : px q / L = INR s + f) by (rewrite Hq; field; lra). rewrite Q. ring.
Qed.
End Const.

(** the reference point, in any wind *)
Lemma at_reference n dxy data s : (s < n)%nat -> 0 < norm2 (dxy s) -> flow_value n dxy data s (0, 0) = data s.
Proof.
  intros Hs HL. unfold flow_value, find_state.
  assert (P0 : px (dxy s) (0, 0) = 0) by (unfold px, dot2; cbn; field; lra).
  rewrite (not_local (dxy s) HL) by (rewrite P0; lra).
  assert (B : back dxy (dxy s) s (0, 0) = Some (s, -1)).
  { destruct s; cbn [back]; rewrite eval_back by exact HL; rewrite px_sub by exact HL; rewrite P0;
    (rewrite (proj2 (Rleb_true _ _)), (proj2 (Rleb_true _ _)) by lra); cbn [andb]; (replace ((0 - norm2 (dxy _)) / norm2 (dxy _)) with (-1) by (field; lra)); reflexivity. }
  rewrite B. cbn [interp_time]. rewrite (proj2 (Rleb_true _ _)) by lra. cbn zeta. ring.
Qed.
