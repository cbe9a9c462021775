(** Proofs about the timelines wake frame. *)
From Verif Require Import RBase OnePoint_Model OnePoint_Proofs Timelines_Model Timelines_Spec.
Local Open Scope R_scope.

Lemma travelled_first dxy s' j : travelled dxy s' (S j) = add2 (dxy s') (travelled dxy (S s') j).
Proof.
  induction j as [|j IH].
  - cbn. now rewrite Nat.add_0_r.
  - change (add2 (dxy (s' + S j)%nat) (travelled dxy s' (S j)) = add2 (dxy s') (add2 (dxy (S s' + j)%nat) (travelled dxy (S s') j))).
    rewrite IH. replace (s' + S j)%nat with (S s' + j)%nat by lia. unfold add2. cbn [fst snd]. f_equal; ring.
Qed.
Lemma path_first dxy s' j : path_len dxy s' (S j) = norm2 (dxy s') + path_len dxy (S s') j.
Proof.
  induction j as [|j IH].
  - cbn. now rewrite Nat.add_0_r.
  - change (norm2 (dxy (s' + S j)%nat) + path_len dxy s' (S j) = norm2 (dxy s') + (norm2 (dxy (S s' + j)%nat) + path_len dxy (S s') j)).
    rewrite IH. replace (s' + S j)%nat with (S s' + j)%nat by lia. ring.
Qed.

Section Trace.
Context (dxy : nat -> R * R) (maxlen : R) (s : nat) (p : R * R).
(** what is true of a result *)
Definition good (r : R * R * nat) : Prop :=
  let '(x, y, s') := r in
  (s' <= s)%nat /\ let q := sub2 p (travelled dxy s' (s - s')) in let v := dxy s' in
    0 < norm2 v /\ - norm2 v < dot2 q v / norm2 v < norm2 v /\ x = path_len dxy s' (s - s') + dot2 q v / norm2 v /\ y = dot2 q (perp2 v) / norm2 v.
Definition inv (t : tstate) : Prop :=
  (t_si t <= s)%nat /\ t_p t = sub2 p (travelled dxy (t_si t) (s - t_si t)) /\ t_l t = path_len dxy (t_si t) (s - t_si t) /\
  match t_res t with None => True | Some r => good r end.
Lemma norm2_pos a : 0 <= norm2 a.
Proof using Type. apply sqrt_pos. Qed.
Lemma update_inv t : inv t -> inv (update dxy t).
Proof using Type.
  intros (H1 & H2 & H3 & H4). unfold update. cbn zeta. destruct (match t_d t with None => true | Some _ => _ end); [|now repeat split].
  split; [exact H1|]. split; [exact H2|]. split; [exact H3|]. cbn [t_res t_si t_p t_l].
  destruct (_ && _ && _) eqn:E; [|exact H4]. rewrite !andb_true_iff, !Rltb_true, negb_true_iff, Reqb_false in E. destruct E as [[E1 E2] E3].
  unfold good. split; [exact H1|]. cbn zeta. rewrite <- H2, <- H3. pose proof (norm2_pos (dxy (t_si t))). repeat split; lra.
Qed.
Lemma step_inv k : forall t, t_si t = k -> inv t -> inv (step_back dxy maxlen k t).
Proof using Type.
  induction k as [|k IH]; intros t Hk Ht; cbn [step_back]; [exact Ht|]. destruct (Rltb _ _); [|exact Ht]. apply IH.
  - unfold update. cbn zeta. destruct (match t_d _ with None => true | Some _ => _ end); reflexivity.
  - apply update_inv. destruct Ht as (H1 & H2 & H3 & H4). rewrite Hk in *. split; [cbn; lia|]. cbn [t_si t_p t_l t_res].
    replace (s - k)%nat with (S (s - S k)) by lia. split; [|split; [|exact H4]].
    + rewrite H2, travelled_first. unfold sub2, add2. cbn [fst snd]. f_equal; ring.
    + rewrite H3, path_first. ring.
Qed.
Lemma wake_coos_good r : wake_coos dxy maxlen s p = Some r -> good r.
Proof using Type.
  unfold wake_coos. intros H.
  assert (I : inv (step_back dxy maxlen s (update dxy {| t_si := s; t_p := p; t_l := 0; t_d := None; t_res := None |}))).
  { apply step_inv.
    - unfold update. reflexivity.
    - apply update_inv. split; [cbn; lia|]. cbn [t_si t_p t_l t_res]. rewrite Nat.sub_diag. cbn. split; [destruct p; unfold sub2; cbn; f_equal; ring|]. now split. }
  destruct I as (_ & _ & _ & I). now rewrite H in I.
Qed.
End Trace.

(** steady wind *)
Section Steady.
Context (v : R * R) (HL : 0 < norm2 v) (maxlen : R) (s : nat) (p : R * R).
Let L := norm2 v.
Let x := dot2 p v / norm2 v.
Let y := dot2 p (perp2 v) / norm2 v.
Lemma vv : norm2 v * norm2 v = dot2 v v.
Proof using Type. unfold norm2. apply sqrt_sqrt. unfold dot2. nra. Qed.
Lemma px_sub2 q : dot2 (sub2 q v) v / norm2 v = dot2 q v / norm2 v - norm2 v.
Proof using HL. replace (dot2 (sub2 q v) v) with (dot2 q v - dot2 v v) by (unfold dot2, sub2; cbn; ring). rewrite <- vv. field. lra. Qed.
Lemma py_sub2 q : dot2 (sub2 q v) (perp2 v) / norm2 v = dot2 q (perp2 v) / norm2 v.
Proof using Type. unfold dot2, sub2, perp2. cbn. f_equal. ring. Qed.
Lemma norm_xy q : norm2 q * norm2 q = (dot2 q v / norm2 v) * (dot2 q v / norm2 v) + (dot2 q (perp2 v) / norm2 v) * (dot2 q (perp2 v) / norm2 v).
Proof using HL.
  assert (E : norm2 q * norm2 q = dot2 q q) by (unfold norm2; apply sqrt_sqrt; unfold dot2; nra). rewrite E.
  pose proof vv as W. apply Rmult_eq_reg_r with (norm2 v * norm2 v); [|nra].
  replace ((dot2 q v / norm2 v * (dot2 q v / norm2 v) + dot2 q (perp2 v) / norm2 v * (dot2 q (perp2 v) / norm2 v)) * (norm2 v * norm2 v))
    with (dot2 q v * dot2 q v + dot2 q (perp2 v) * dot2 q (perp2 v)) by (field; lra).
  rewrite W. unfold dot2, perp2. cbn. ring.
Qed.

(** after j steps: position, path length; [t_d] is at most the distance at j - 1 ... *)
Definition at_step (j : nat) (t : tstate) : Prop :=
  t_si t = (s - j)%nat /\ (j <= s)%nat /\ dot2 (t_p t) v / norm2 v = x - INR j * L /\ dot2 (t_p t) (perp2 v) / norm2 v = y /\ t_l t = INR j * L.
(** results are always the straight coordinates *)
Definition res_ok (t : tstate) : Prop := match t_res t with None => True | Some (x', y', s') => x' = x /\ y' = y end.
Definition pre (j : nat) (t : tstate) : tstate := {| t_si := s - S j; t_p := sub2 (t_p t) v; t_l := t_l t + norm2 v; t_d := t_d t; t_res := t_res t |}.

Lemma update_res j t : at_step j t -> res_ok t -> res_ok (update (fun _ => v) t).
Proof using HL.
  intros (A1 & A2 & A3 & A4 & A5) Ro. unfold update. cbn zeta. destruct (match t_d t with None => true | Some _ => _ end); [|exact Ro].
  unfold res_ok. cbn [t_res]. destruct (_ && _ && _); [|exact Ro]. rewrite A3, A4, A5. split; [ring|reflexivity].
Qed.
Lemma update_step j t : at_step j t -> at_step j (update (fun _ => v) t).
Proof using Type. intros H. unfold update. cbn zeta. destruct (match t_d t with None => true | Some _ => _ end); exact H. Qed.
Lemma pre_step j t : (S j <= s)%nat -> at_step j t -> at_step (S j) (pre j t).
Proof using HL.
  intros Hj (A1 & A2 & A3 & A4 & A5). unfold pre. repeat split; cbn [t_si t_p t_l]; [exact Hj| | |].
  - rewrite px_sub2, A3, S_INR. unfold L. ring.
  - rewrite py_sub2. exact A4.
  - rewrite A5, S_INR. unfold L. ring.
Qed.
Lemma step_back_S j t : (S j <= s)%nat -> step_back (fun _ => v) maxlen (s - j) t =
  if Rltb (t_l t) maxlen then step_back (fun _ => v) maxlen (s - S j) (update (fun _ => v) (pre j t)) else t.
Proof using Type. intros Hj. replace (s - j)%nat with (S (s - S j)) by lia. reflexivity. Qed.
Lemma steps_res k : forall j t, (j + k = s)%nat -> at_step j t -> res_ok t -> res_ok (step_back (fun _ => v) maxlen k t).
Proof using HL.
  induction k as [|k IH]; intros j t Hjk Ha Ro; [exact Ro|].
  replace (S k) with (s - j)%nat by lia. rewrite step_back_S by lia. destruct (Rltb _ _); [|exact Ro].
  replace (s - S j)%nat with k by lia. apply (IH (S j)); [lia| |].
  - apply update_step, pre_step; [lia|exact Ha].
  - apply (update_res (S j)); [apply pre_step; [lia|exact Ha]|]. exact Ro.
Qed.
Lemma start_step : at_step 0 {| t_si := s; t_p := p; t_l := 0; t_d := None; t_res := None |}.
Proof using Type. repeat split; cbn; try lia; unfold x, y, L; ring. Qed.
Lemma steady_res : match wake_coos (fun _ => v) maxlen s p with None => True | Some (x', y', s') => x' = x /\ y' = y end.
Proof using HL.
  unfold wake_coos. change (res_ok (step_back (fun _ => v) maxlen s (update (fun _ => v) {| t_si := s; t_p := p; t_l := 0; t_d := None; t_res := None |}))).
  apply (steps_res s 0); [lia| |].
  - apply update_step, start_step.
  - apply (update_res 0); [apply start_step|exact I].
Qed.
(** once something is found it stays found *)
Lemma update_keeps t : t_res t <> None -> t_res (update (fun _ => v) t) <> None.
Proof using Type. intros H. unfold update. cbn zeta. destruct (match t_d t with None => true | Some _ => _ end); [|exact H]. cbn [t_res]. destruct (_ && _ && _); [discriminate|exact H]. Qed.
Lemma steps_keeps k : forall t, t_res t <> None -> t_res (step_back (fun _ => v) maxlen k t) <> None.
Proof using Type.
  induction k as [|k IH]; intros t H; cbn [step_back]; [exact H|]. destruct (Rltb _ _); [|exact H]. apply IH. now apply update_keeps.
Qed.
Lemma update_finds j t : at_step j t -> (match t_d t with None => True | Some d0 => norm2 (t_p t) <= d0 end) -> - L < x - INR j * L < L -> t_res (update (fun _ => v) t) <> None.
Proof using HL.
  intros (A1 & A2 & A3 & A4 & A5) Hd Hx. unfold update. cbn zeta.
  replace (match t_d t with None => true | Some d0 => Rleb (norm2 (t_p t)) d0 end) with true by (destruct (t_d t); [symmetry; now apply Rleb_true|reflexivity]).
  cbn [t_res]. rewrite A3. fold L. rewrite (proj2 (Reqb_false L 0)) by (unfold L; lra). rewrite (proj2 (Rltb_true _ _)), (proj2 (Rltb_true _ _)) by (unfold L in *; lra). discriminate.
Qed.
(** before that, distances decrease: [t_d] is the distance at the current step *)
Lemma update_d t : (match t_d t with None => True | Some d0 => norm2 (t_p t) <= d0 end) -> t_d (update (fun _ => v) t) = Some (norm2 (t_p t)) /\ t_p (update (fun _ => v) t) = t_p t.
Proof using Type.
  intros H. unfold update. cbn zeta. replace (match t_d t with None => true | Some d0 => Rleb (norm2 (t_p t)) d0 end) with true by (destruct (t_d t); [symmetry; now apply Rleb_true|reflexivity]).
  now split.
Qed.
Lemma norm2_le q q' : norm2 q * norm2 q <= norm2 q' * norm2 q' -> norm2 q <= norm2 q'.
Proof using Type. intros H. pose proof (norm2_pos q). pose proof (norm2_pos q'). nra. Qed.
Lemma steps_find k : forall j t, (j + k = s)%nat -> at_step j t -> t_d t = Some (norm2 (t_p t)) -> L <= x - INR j * L < (INR k + 1) * L -> x <= maxlen ->
  t_res (step_back (fun _ => v) maxlen k t) <> None.
Proof using HL.
  assert (L0 : 0 < L) by exact HL.
  induction k as [|k IH]; intros j t Hjk Ha Hd Hx Hm.
  - cbn in Hx. lra.
  - replace (S k) with (s - j)%nat by lia. rewrite step_back_S by lia. rewrite S_INR in Hx. assert (A := Ha). destruct A as (A1 & A2 & A3 & A4 & A5).
    rewrite (proj2 (Rltb_true _ _)) by (rewrite A5; lra). replace (s - S j)%nat with k by lia.
    assert (Ps : at_step (S j) (pre j t)) by (apply pre_step; [lia|exact Ha]).
    assert (D : match t_d (pre j t) with None => True | Some d0 => norm2 (t_p (pre j t)) <= d0 end).
    { unfold pre at 1. cbn [t_d]. rewrite Hd. apply norm2_le. rewrite !norm_xy. destruct Ps as (_ & _ & B3 & B4 & _). rewrite A3, A4, B3, B4, S_INR. nra. }
    destruct (Rlt_le_dec (x - INR (S j) * L) L) as [F|F].
    + apply steps_keeps. apply (update_finds (S j)); [exact Ps|exact D|]. rewrite S_INR in *. lra.
    + destruct (update_d _ D) as [U1 U2]. apply (IH (S j)); [lia|now apply update_step| |rewrite S_INR in *; lra|exact Hm]. now rewrite U1, U2.
Qed.
Lemma steady_found : - L < x < (INR s + 1) * L -> x <= maxlen -> wake_coos (fun _ => v) maxlen s p <> None.
Proof using HL.
  intros Hx Hm. unfold wake_coos. destruct (Rlt_le_dec x L) as [F|F].
  - apply steps_keeps. apply (update_finds 0); [apply start_step|exact I|]. cbn. lra.
  - apply (steps_find s 0); [lia|apply update_step, start_step| |cbn; lra|exact Hm].
    destruct (update_d {| t_si := s; t_p := p; t_l := 0; t_d := None; t_res := None |} I) as [U1 U2]. now rewrite U1, U2.
Qed.
(** outside nothing is found *)
Lemma update_none j t : at_step j t -> t_res t = None -> ~ - L < x - INR j * L < L -> t_res (update (fun _ => v) t) = None.
Proof using HL.
  intros (A1 & A2 & A3 & A4 & A5) Hr Hx. unfold update. cbn zeta. destruct (match t_d t with None => true | Some _ => _ end); [|exact Hr].
  cbn [t_res]. rewrite A3. fold L. destruct (negb (Reqb L 0) && Rltb (- L) (x - INR j * L) && Rltb (x - INR j * L) L) eqn:E; [|exact Hr].
  rewrite !andb_true_iff, !Rltb_true in E. tauto.
Qed.
Lemma steps_none k : forall j t, (j + k = s)%nat -> at_step j t -> t_res t = None -> x <= - L \/ (INR s + 1) * L <= x -> t_res (step_back (fun _ => v) maxlen k t) = None.
Proof using HL.
  assert (L0 : 0 < L) by exact HL.
  induction k as [|k IH]; intros j t Hjk Ha Hr Hx; [exact Hr|]. replace (S k) with (s - j)%nat by lia. rewrite step_back_S by lia.
  destruct (Rltb _ _); [|exact Hr]. replace (s - S j)%nat with k by lia. assert (Ps : at_step (S j) (pre j t)) by (apply pre_step; [lia|exact Ha]).
  apply (IH (S j)); [lia|now apply update_step| |exact Hx]. apply (update_none (S j)); [exact Ps|exact Hr|].
  assert (Q : INR (S j) <= INR s) by (apply le_INR; lia). pose proof (pos_INR (S j)). nra.
Qed.
Lemma steady_none : x <= - L \/ (INR s + 1) * L <= x -> wake_coos (fun _ => v) maxlen s p = None.
Proof using HL.
  assert (L0 : 0 < L) by exact HL.
  intros Hx. unfold wake_coos. apply (steps_none s 0); [lia|apply update_step, start_step| |exact Hx]. apply (update_none 0); [apply start_step|reflexivity|].
  pose proof (pos_INR s). cbn. nra.
Qed.
(** centreline points *)
Lemma cl_down k : forall l dp, l <= 0 -> cl_loop (fun _ => v) k l dp = (k, l, dp).
Proof using Type. intros l dp H. destruct k; cbn [cl_loop]; [reflexivity|]. now rewrite (proj2 (Rltb_false _ _)) by lra. Qed.
Lemma cl_stuck k : forall l dp, 0 < l <= L / 2 -> cl_loop (fun _ => v) k l dp = (O, l, dp).
Proof using HL.
  assert (L0 : 0 < L) by exact HL.
  induction k as [|k IH]; intros l dp H; cbn [cl_loop]; [reflexivity|]. rewrite (proj2 (Rltb_true _ _)) by lra. fold L.
  rewrite (proj2 (Rltb_false _ _)); [now apply IH|]. rewrite (Rabs_right l) by lra. rewrite Rabs_left1 by lra. lra.
Qed.
Lemma cl_step k l dp : L / 2 < l -> cl_loop (fun _ => v) (S k) l dp = cl_loop (fun _ => v) k (l - L) (add2 dp v).
Proof using HL.
  assert (L0 : 0 < L) by exact HL.
  intros H. cbn [cl_loop]. rewrite (proj2 (Rltb_true _ _)) by lra. fold L. rewrite (proj2 (Rltb_true _ _)); [reflexivity|].
  rewrite (Rabs_right l) by lra. unfold Rabs. destruct (Rcase_abs (l - L)); lra.
Qed.
Lemma cl_steps m : forall k l dp, (m <= k)%nat -> INR m * L - L / 2 < l <= INR m * L + L / 2 ->
  exists si, (si <= k)%nat /\ ((0 < m)%nat \/ 0 < l -> (0 < k)%nat -> (si < k)%nat) /\ cl_loop (fun _ => v) k l dp = (si, l - INR m * L, add2 dp (INR m * fst v, INR m * snd v)).
Proof using HL.
  assert (L0 : 0 < L) by exact HL.
  induction m as [|m IH]; intros k l dp Hk Hl.
  - replace (add2 dp (INR 0 * fst v, INR 0 * snd v)) with dp by (destruct dp; unfold add2; cbn; f_equal; ring). replace (l - INR 0 * L) with l by (cbn; ring). cbn in Hl.
    destruct (Rle_lt_dec l 0) as [N|P].
    + exists k. split; [lia|]. split; [intros [?|?]; [lia|lra]|]. apply cl_down; lra.
    + exists O. split; [lia|]. split; [intros; lia|]. apply cl_stuck; lra.
  - rewrite S_INR in Hl. destruct k as [|k]; [lia|]. rewrite cl_step by (pose proof (pos_INR m); nra).
    destruct (IH k (l - L) (add2 dp v)) as (si & K1 & K2 & E); [lia|lra|]. exists si. split; [lia|]. split; [intros; lia|].
    rewrite E, S_INR. f_equal; [f_equal; ring|]. unfold add2. cbn [fst snd]. f_equal; ring.
Qed.
Lemma cl_point n i0 j m z : (j < n)%nat -> (m <= S j)%nat -> INR m * L - L / 2 < z <= INR m * L + L / 2 -> 0 < z ->
  centreline n (fun _ => v) i0 j z = Point ((2 * INR m - z / L) * fst v, (2 * INR m - z / L) * snd v).
Proof using HL.
  assert (L0 : 0 < L) by exact HL.
  intros Hj Hm Hz Hp. unfold centreline. destruct (cl_steps m (S j) z (0, 0) Hm Hz) as (si & K1 & K2 & E). rewrite E.
  rewrite (proj2 (Nat.leb_gt _ _)) by (specialize (K2 (or_intror Hp)); lia). cbn zeta. fold L.
  rewrite (proj2 (Rltb_true _ _)) by (unfold Rabs; destruct (Rcase_abs _); lra). f_equal. unfold sub2, add2. cbn [fst snd]. f_equal; field; lra.
Qed.
End Steady.

(** only earlier states matter *)
Lemma update_ext dxy dxy' t : dxy (t_si t) = dxy' (t_si t) -> update dxy t = update dxy' t.
Proof. intros H. unfold update. now rewrite H. Qed.
Lemma update_si dxy t : t_si (update dxy t) = t_si t.
Proof. unfold update. cbn zeta. now destruct (match t_d t with None => true | Some _ => _ end). Qed.
Lemma step_back_ext dxy dxy' maxlen k : forall t, (forall i, (i < k)%nat -> dxy i = dxy' i) -> step_back dxy maxlen k t = step_back dxy' maxlen k t.
Proof.
  induction k as [|k IH]; intros t H; cbn [step_back]; [reflexivity|]. rewrite (H k) by lia. destruct (Rltb _ _); [|reflexivity]. cbn zeta.
  rewrite (update_ext dxy dxy') by (cbn [t_si]; apply H; lia). apply IH. intros i Hi. apply H. lia.
Qed.
Lemma wake_coos_causal dxy dxy' maxlen s p : (forall k, (k <= s)%nat -> dxy k = dxy' k) -> wake_coos dxy maxlen s p = wake_coos dxy' maxlen s p.
Proof.
  intros H. unfold wake_coos. rewrite (update_ext dxy dxy') by (cbn [t_si]; apply H; lia). f_equal. apply step_back_ext. intros i Hi. apply H. lia.
Qed.
