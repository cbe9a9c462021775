(** Theorems about the timelines wake frame. *)
From Verif Require Import RBase OnePoint_Model OnePoint_Proofs Timelines_Model Timelines_Spec Timelines_Proofs.
Local Open Scope R_scope.

(** C132: for every history of displacements, point and state: if coordinates are found, they belong to air that passed the rotor at an earlier or the present
    state, and are those of the point relative to that air's path; the point is less than a step ahead of or behind it *)
Theorem C132_wake_follows_the_air dxy maxlen s p x y s' : wake_coos dxy maxlen s p = Some (x, y, s') ->
  (s' <= s)%nat /\ on_path dxy s s' p x y /\ Rabs (x - path_len dxy s' (s - s')) < norm2 (dxy s').
Proof.
  intros H. apply wake_coos_good in H. destruct H as (H1 & H2 & H3 & H4 & H5). unfold on_path. cbn zeta in *. split; [exact H1|]. split.
  - split; [exact H2|]. split; [exact H4|]. rewrite H5. unfold dot2, perp2. cbn [fst snd]. f_equal. ring.
  - rewrite H4. apply Rabs_def1; lra.
Qed.
Print Assumptions C132_wake_follows_the_air.
(** states after s play no role, and the split of the states into chunks none either *)
Theorem C132_causal dxy dxy' maxlen s p : (forall k, (k <= s)%nat -> dxy k = dxy' k) -> wake_coos dxy maxlen s p = wake_coos dxy' maxlen s p.
Proof. exact (wake_coos_causal dxy dxy' maxlen s p). Qed.
Print Assumptions C132_causal.
Theorem C132_chunks dxy maxlen i0 j i0' j' p : (i0 + j = i0' + j')%nat -> chunk_coos dxy maxlen i0 j p = chunk_coos dxy maxlen i0' j' p.
Proof. intros H. unfold chunk_coos. now rewrite H. Qed.
Print Assumptions C132_chunks.

(** C133: in steady wind (displacement v per step) found coordinates are the straight downwind and lateral distances ... *)
Theorem C133_straight v maxlen s p x y s' : 0 < norm2 v -> wake_coos (fun _ => v) maxlen s p = Some (x, y, s') ->
  x = (fst p * fst v + snd p * snd v) / norm2 v /\ y = (- fst p * snd v + snd p * fst v) / norm2 v.
Proof.
  intros HL H. pose proof (steady_res v HL maxlen s p) as K. rewrite H in K. destruct K as [-> ->]. unfold dot2, perp2. cbn [fst snd]. split; [reflexivity|f_equal; ring].
Qed.
Print Assumptions C133_straight.
(** ... and every point is found from less than a step upstream up to what the air has travelled since the start of the series plus one step, up to the maximal length *)
Theorem C133_found v maxlen s p : 0 < norm2 v -> let x := (fst p * fst v + snd p * snd v) / norm2 v in
  - norm2 v < x < (INR s + 1) * norm2 v -> x <= maxlen -> wake_coos (fun _ => v) maxlen s p <> None.
Proof. intros HL. exact (steady_found v HL maxlen s p). Qed.
Print Assumptions C133_found.
(** and none outside: a point a step or more upstream, or beyond what the air has travelled, has no wake (all coordinates 1e20) *)
Theorem C133_outside v maxlen s p : 0 < norm2 v -> let x := (fst p * fst v + snd p * snd v) / norm2 v in
  x <= - norm2 v \/ (INR s + 1) * norm2 v <= x -> wake_coos (fun _ => v) maxlen s p = None.
Proof. intros HL. exact (steady_none v HL maxlen s p). Qed.
Print Assumptions C133_outside.
(** 10 m/s, one minute steps, state 2: 900 m downwind and 50 m to the left *)
Lemma norm_600 : norm2 (600, 0) = 600.
Proof. unfold norm2, dot2. cbn. replace (600 * 600 + 0 * 0) with (600 * 600) by ring. apply sqrt_square. lra. Qed.
Example C133_nonvacuous : exists s', wake_coos (fun _ => (600, 0)) 20000 2 (900, 50) = Some (900, 50, s').
Proof.
  assert (HL : 0 < norm2 (600, 0)) by (rewrite norm_600; lra).
  assert (F : wake_coos (fun _ => (600, 0)) 20000 2 (900, 50) <> None) by (apply C133_found; [exact HL|rewrite norm_600; cbn; lra|rewrite norm_600; cbn; lra]).
  destruct (wake_coos _ _ _ _) as [[[x y] s']|] eqn:E; [|congruence]. exists s'. destruct (C133_straight _ _ _ _ _ _ _ HL E) as [-> ->]. rewrite norm_600. cbn. repeat f_equal; lra.
Qed.

(** C134: for steady wind and a distance z from the rotor, with m steps (of length L = |v|) the nearest whole number of steps, the centreline point returned is
    at the distance 2 m L - z, mirrored at the whole step ... *)
Theorem C134_centreline_point v n i0 j m z : 0 < norm2 v -> (j < n)%nat -> (m <= S j)%nat -> INR m * norm2 v - norm2 v / 2 < z <= INR m * norm2 v + norm2 v / 2 -> 0 < z ->
  centreline n (fun _ => v) i0 j z = Point ((2 * INR m - z / norm2 v) * fst v, (2 * INR m - z / norm2 v) * snd v).
Proof. intros HL. exact (cl_point v HL n i0 j m z). Qed.
Print Assumptions C134_centreline_point.
(** ... so it is at distance z for whole steps only; a quarter of a step behind the rotor the point is a quarter of a step in front of it *)
Theorem C134_sign_refuted n i0 j : (j < n)%nat -> centreline n (fun _ => (600, 0)) i0 j 150 = Point (-150, 0).
Proof.
  intros Hj. assert (HL : 0 < norm2 (600, 0)) by (rewrite norm_600; lra).
  rewrite (C134_centreline_point (600, 0) n i0 j 0 150 HL Hj) by (rewrite ?norm_600; cbn; try lia; lra). rewrite norm_600. cbn. repeat f_equal; lra.
Qed.
Print Assumptions C134_sign_refuted.
Theorem C134_whole_steps v n i0 j m : 0 < norm2 v -> (j < n)%nat -> (0 < m <= S j)%nat -> centreline n (fun _ => v) i0 j (INR m * norm2 v) = Point (INR m * fst v, INR m * snd v).
Proof.
  intros HL Hj Hm. assert (0 < INR m) by (apply lt_0_INR; lia). rewrite (C134_centreline_point v n i0 j m) by (try lia; try lra; nra).
  f_equal. f_equal; field; lra.
Qed.
Print Assumptions C134_whole_steps.
(** Two states, the wind turns between them: the displacement is 100 m northwards in state 0, eastwards in state 1. *)
Definition turning (k : nat) : R * R := match k with O => (0, 100) | _ => (100, 0) end.
Lemma norm_t k : norm2 (turning k) = 100.
Proof. destruct k; unfold norm2, dot2, turning; cbn; [replace (0 * 0 + 100 * 100) with (100 * 100) by ring|replace (100 * 100 + 0 * 0) with (100 * 100) by ring]; apply sqrt_square; lra. Qed.
Lemma cl_turn k dp : cl_loop turning (S k) 100 dp = (k, 0, add2 dp (turning k)).
Proof.
  cbn [cl_loop]. rewrite norm_t. rewrite (proj2 (Rltb_true _ _)) by lra. rewrite (proj2 (Rltb_true _ _)) by (rewrite Rabs_R0 || replace (100 - 100) with 0 by ring; rewrite ?Rabs_R0, Rabs_right; lra).
  replace (100 - 100) with 0 by ring. destruct k; cbn [cl_loop]; [reflexivity|]. now rewrite (proj2 (Rltb_false _ _)) by lra.
Qed.
Lemma cl_turning j i0 : (j < 2)%nat -> centreline 2 turning i0 j 100 = Point (turning j).
Proof.
  intros Hj. unfold centreline. rewrite cl_turn. rewrite (proj2 (Nat.leb_gt _ _)) by lia. cbn zeta. rewrite norm_t. rewrite Rabs_R0, (proj2 (Rltb_true _ _)) by lra.
  f_equal. unfold sub2, add2, turning. destruct j; cbn; f_equal; lra.
Qed.
(** the centreline point of state 1 at 100 m depends on whether state 1 is in the same chunk as state 0 *)
Theorem C134_chunks_refuted : centreline 2 turning 0 1 100 = Point (100, 0) /\ centreline 2 turning 1 0 100 = Point (0, 100).
Proof. split; [exact (cl_turning 1 0 ltac:(lia))|exact (cl_turning 0 1 ltac:(lia))]. Qed.
Print Assumptions C134_chunks_refuted.
(** and for a single chunk it is not where the coordinates say: (100, 0) has no wake at all, the wake is at (0, 100) with distance 100 *)
Theorem C134_not_the_wake_refuted maxlen : 0 < maxlen -> wake_coos turning maxlen 1 (100, 0) = None /\ wake_coos turning maxlen 1 (0, 100) = Some (100, 0, 0%nat).
Proof.
  intros Hm.
  assert (N1 : norm2 (100, 0) = 100) by (change (100, 0) with (turning 1); apply norm_t).
  assert (N0 : norm2 (0, 100) = 100) by (change (0, 100) with (turning 0); apply norm_t).
  split; unfold wake_coos; cbn [step_back update t_si t_p t_l t_d t_res turning]; rewrite ?N1, ?N0.
  - rewrite (proj2 (Rltb_false (dot2 (100, 0) (100, 0) / 100) 100)) by (unfold dot2; cbn; lra). rewrite andb_false_r.
    cbn [t_si t_p t_l t_d t_res]. rewrite (proj2 (Rltb_true 0 maxlen)) by lra. unfold update. cbn [t_si t_p t_l t_d t_res]. rewrite ?N0.
    rewrite (proj2 (Rleb_false _ _)); [reflexivity|]. unfold norm2, sub2, dot2. cbn.
    apply Rle_lt_trans with (sqrt (100 * 100)); [rewrite sqrt_square; lra|]. apply sqrt_lt_1; lra.
  - set (res := if _ && _ && _ then _ else _). cbn [t_si t_p t_l t_d t_res]. rewrite (proj2 (Rltb_true 0 maxlen)) by lra. unfold update. cbn [t_si t_p t_l t_d t_res]. rewrite ?N0.
    replace (sub2 (0, 100) (0, 100)) with (0, 0) by (unfold sub2; cbn; f_equal; ring).
    assert (Z : norm2 (0, 0) = 0) by (unfold norm2, dot2; cbn; replace (0 * 0 + 0 * 0) with 0 by ring; apply sqrt_0).
    rewrite Z, (proj2 (Rleb_true 0 100)) by lra. rewrite norm_t. cbn [turning]. rewrite (proj2 (Reqb_false 100 0)) by lra.
    replace (dot2 (0, 0) (0, 100) / 100) with 0 by (unfold dot2; cbn; field). rewrite (proj2 (Rltb_true (- (100)) 0)), (proj2 (Rltb_true 0 100)) by lra. cbn [negb andb].
    replace (dot2 (0, 0) (perp2 (0, 100)) / 100) with 0 by (unfold dot2, perp2; cbn; field). replace (0 + (0 + 100)) with 100 by ring. reflexivity.
Qed.
Print Assumptions C134_not_the_wake_refuted.
(** for the last state of the series, asking for the rotor position itself (distance zero) fails *)
Theorem C134_last_state_refuted n dxy : centreline (S n) dxy 0 n 0 = IndexError.
Proof. unfold centreline. cbn [cl_loop]. rewrite (proj2 (Rltb_false 0 0)) by lra. now rewrite Nat.leb_refl. Qed.
Print Assumptions C134_last_state_refuted.
