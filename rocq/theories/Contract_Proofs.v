(** Proofs for C246. *)
From Verif Require Import RBase Superp_Model Superp_Proofs FarmWakes_Model FarmWakes_Spec FarmIter_Proofs PointWakes_Model Conv_Model Conv_Spec Conv_Proofs IterLoop_Model IterLoop_Spec IterLoop_Proofs Contract_Spec.
Local Open Scope R_scope.

(** ** distances *)
Lemma within_pos d a b : within d a b -> 0 <= d.
Proof. intros (L & H). specialize (H (length a)). rewrite !nth_overflow in H by lia. replace (0 - 0) with 0 in H by ring. rewrite Rabs_R0 in H. exact H. Qed.
Lemma within_refl a : within 0 a a.
Proof. split; [reflexivity|]. intros i. replace (nth i a 0 - nth i a 0) with 0 by ring. rewrite Rabs_R0. lra. Qed.
Lemma within_sym d a b : within d a b -> within d b a.
Proof. intros (L & H). split; [easy|]. intros i. rewrite Rabs_minus_sym. apply H. Qed.
Lemma within_trans d e a b c : within d a b -> within e b c -> within (d + e) a c.
Proof.
  intros (L & H) (L' & H'). split; [congruence|]. intros i. replace (nth i a 0 - nth i c 0) with ((nth i a 0 - nth i b 0) + (nth i b 0 - nth i c 0)) by ring.
  eapply Rle_trans; [apply Rabs_triang|]. specialize (H i). specialize (H' i). lra.
Qed.
Lemma within_weak d e a b : d <= e -> within d a b -> within e a b.
Proof. intros D (L & H). split; [easy|]. intros i. specialize (H i). lra. Qed.
Lemma within_0 a b : within 0 a b -> a = b.
Proof.
  intros (L & H). apply (nth_ext a b 0 0 L). intros i _. specialize (H i). pose proof (Rabs_pos (nth i a 0 - nth i b 0)).
  assert (E : Rabs (nth i a 0 - nth i b 0) = 0) by lra. destruct (Req_dec (nth i a 0 - nth i b 0) 0) as [Z|Z]; [lra|]. now apply Rabs_no_R0 in Z.
Qed.
(** the largest difference *)
Lemma dist_ex : forall a b, length a = length b -> exists M, within M a b /\ forall d, within d a b -> M <= d.
Proof.
  induction a as [|x a IH]; intros [|y b] L; try discriminate.
  - exists 0. split; [apply within_refl|]. intros d H. now apply within_pos in H.
  - cbn in L. destruct (IH b ltac:(lia)) as (M & W & Hm). exists (Rmax (Rabs (x - y)) M). split.
    + split; [cbn; lia|]. intros [|i]; cbn [nth]; [apply Rmax_l|]. destruct W as (_ & W). eapply Rle_trans; [apply W|apply Rmax_r].
    + intros d (_ & H). apply Rmax_lub; [exact (H 0%nat)|]. apply Hm. split; [lia|]. intros i. exact (H (S i)).
Qed.

(** ** contractions *)
Section C.
  Variables (n : nat) (q : R) (f : list R -> list R).
  Hypothesis C : contracts n q f.

  Lemma near_solution tol p x : length p = n -> solution n f x -> within tol p (f p) -> within (tol / (1 - q)) p x /\ within (q * tol / (1 - q)) (f p) x.
  Proof.
    destruct C as (Q & Hl & Hc). intros Lp (Lx & Fx) W. destruct (dist_ex p x ltac:(congruence)) as (M & WM & Hm).
    pose proof (Hc _ _ _ Lp WM) as W2. rewrite Fx in W2. pose proof (within_trans _ _ _ _ _ W W2) as W3. specialize (Hm _ W3).
    assert (G : M <= tol / (1 - q)). { apply Rmult_le_reg_r with (1 - q); [lra|]. unfold Rdiv. rewrite Rmult_assoc, Rinv_l by lra. lra. }
    split; [eapply within_weak; eassumption|]. eapply within_weak; [|exact W2]. unfold Rdiv in *. rewrite Rmult_assoc. apply Rmult_le_compat_l; lra.
  Qed.
  Lemma solution_unique x y : solution n f x -> solution n f y -> x = y.
  Proof.
    intros (Lx & Fx) Hy. apply within_0. destruct C as (Q & _). replace 0 with (0 / (1 - q)) by (unfold Rdiv; ring).
    apply (proj1 (near_solution 0 x y Lx Hy ltac:(rewrite Fx; apply within_refl))).
  Qed.
  Fixpoint it (k : nat) (x : list R) : list R := match k with O => x | S k' => f (it k' x) end.
  Lemma it_length k x : length x = n -> length (it k x) = n.
  Proof. intros L. induction k; cbn [it]; auto. now apply (proj1 (proj2 C)). Qed.
  Lemma it_step d0 x k : length x = n -> within d0 x (f x) -> within (q ^ k * d0) (it k x) (it (S k) x).
  Proof.
    intros L W. induction k as [|k IH]; cbn [it pow]; [now rewrite Rmult_1_l|]. rewrite Rmult_assoc. apply (proj2 (proj2 C)); [now apply it_length|]. exact IH.
  Qed.
  Lemma it_tail d0 x k m : length x = n -> within d0 x (f x) -> within (q ^ k * d0 / (1 - q)) (it k x) (it (k + m) x).
  Proof.
    intros L W. pose proof (within_pos _ _ _ W) as D0. destruct C as (Q & _ & _). assert (Hq : forall j, 0 <= q ^ j) by (intros j; apply pow_le; lra).
    assert (G : within ((q ^ k - q ^ (k + m)) * d0 / (1 - q)) (it k x) (it (k + m) x)).
    { induction m as [|m IH].
      - rewrite Nat.add_0_r. replace ((q ^ k - q ^ k) * d0 / (1 - q)) with 0 by (unfold Rdiv; ring). apply within_refl.
      - rewrite Nat.add_succ_r. replace ((q ^ k - q ^ S (k + m)) * d0 / (1 - q)) with ((q ^ k - q ^ (k + m)) * d0 / (1 - q) + q ^ (k + m) * d0).
        2:{ cbn [pow]. field. lra. } apply within_trans with (it (k + m) x); [exact IH|]. now apply it_step. }
    eapply within_weak; [|exact G]. unfold Rdiv. apply Rmult_le_compat_r; [left; apply Rinv_0_lt_compat; lra|]. apply Rmult_le_compat_r; [exact D0|]. specialize (Hq (k + m)%nat). lra.
  Qed.
  Lemma small_pow d0 eps : 0 <= d0 -> 0 < eps -> exists N, forall k, (N <= k)%nat -> q ^ k * d0 / (1 - q) < eps /\ q ^ k * d0 < eps.
  Proof.
    intros D0 E. destruct C as (Q & _ & _). set (e := eps * (1 - q) / (d0 + 1)).
    assert (E' : 0 < e). { unfold e, Rdiv. apply Rmult_lt_0_compat; [nra|]. apply Rinv_0_lt_compat. lra. }
    destruct (pow_lt_1_zero q ltac:(rewrite Rabs_pos_eq; lra) e E') as (N & H). exists N. intros k Hk. specialize (H k ltac:(lia)).
    rewrite Rabs_pos_eq in H by (apply pow_le; lra). assert (G : q ^ k * d0 < eps * (1 - q)).
    { apply Rle_lt_trans with (q ^ k * (d0 + 1)). { assert (0 <= q ^ k) by (apply pow_le; lra). nra. }
      apply Rlt_le_trans with (e * (d0 + 1)); [apply Rmult_lt_compat_r; lra|]. unfold e. right. field. lra. }
    split; [|nra]. apply Rmult_lt_reg_r with (1 - q); [lra|]. unfold Rdiv. rewrite Rmult_assoc, Rinv_l by lra. lra.
  Qed.
  Lemma it_dist x : length x = n -> exists d0, within d0 x (f x).
  Proof. intros L. destruct (dist_ex x (f x)) as (M & W & _); [rewrite (proj1 (proj2 C)); auto|]. eauto. Qed.
  Lemma component_limit x i : length x = n -> exists l, Un_cv (fun k => nth i (it k x) 0) l.
  Proof.
    intros L. destruct (it_dist x L) as (d0 & W). destruct (R_complete (fun k => nth i (it k x) 0)) as (l & H); [|eauto].
    intros eps E. destruct (small_pow d0 (eps / 2) (within_pos _ _ _ W) ltac:(lra)) as (N & HN). exists N. intros a b Ha Hb. unfold R_dist.
    assert (T : forall c, (N <= c)%nat -> Rabs (nth i (it c x) 0 - nth i (it N x) 0) < eps / 2).
    { intros c Hc. pose proof (it_tail d0 x N (c - N) L W) as (_ & G). specialize (G i). replace (N + (c - N))%nat with c in G by lia.
      rewrite Rabs_minus_sym. destruct (HN N ltac:(lia)). lra. }
    replace (nth i (it a x) 0 - nth i (it b x) 0) with ((nth i (it a x) 0 - nth i (it N x) 0) - (nth i (it b x) 0 - nth i (it N x) 0)) by ring.
    eapply Rle_lt_trans; [apply Rabs_triang|]. rewrite Rabs_Ropp. pose proof (T a ltac:(lia)). pose proof (T b ltac:(lia)). lra.
  Qed.
  Lemma limits (u : nat -> list R) : (forall k, length (u k) = n) -> (forall i, exists l, Un_cv (fun k => nth i (u k) 0) l) ->
    exists x, length x = n /\ forall i, Un_cv (fun k => nth i (u k) 0) (nth i x 0).
  Proof.
    clear C. revert u. induction n as [|m IH]; intros u L H.
    - exists []. split; [reflexivity|]. intros i eps E. exists 0%nat. intros k _. specialize (L k). destruct (u k); [|discriminate].
      unfold R_dist. destruct i; cbn [nth]; replace (0 - 0) with 0 by ring; rewrite Rabs_R0; lra.
    - destruct (IH (fun k => tl (u k))) as (x & Lx & Hx).
      + intros k. specialize (L k). destruct (u k); cbn in *; lia.
      + intros i. destruct (H (S i)) as (l & Hl). exists l. intros eps E. destruct (Hl eps E) as (N & G). exists N. intros k Hk. specialize (G k Hk).
        specialize (L k). destruct (u k); [discriminate|]. exact G.
      + destruct (H 0%nat) as (l & Hl). exists (l :: x). split; [cbn; lia|]. intros [|i]; [exact Hl|]. cbn [nth].
        intros eps E. destruct (Hx i eps E) as (N & G). exists N. intros k Hk. specialize (G k Hk). specialize (L k). destruct (u k); [discriminate|]. exact G.
  Qed.
  Lemma limit_close x y d0 k : length x = n -> within d0 x (f x) -> length y = n -> (forall i, Un_cv (fun j => nth i (it j x) 0) (nth i y 0)) ->
    within (q ^ k * d0 / (1 - q)) (it k x) y.
  Proof.
    intros L W Ly H. split; [rewrite it_length; auto|]. intros i. apply Rnot_lt_le. intros G.
    set (B := q ^ k * d0 / (1 - q)) in *. destruct (H i (Rabs (nth i (it k x) 0 - nth i y 0) - B) ltac:(lra)) as (N & HN).
    specialize (HN (k + N)%nat ltac:(lia)). unfold R_dist in HN. destruct (it_tail d0 x k N L W) as (_ & T). specialize (T i). fold B in T.
    pose proof (Rabs_triang (nth i (it k x) 0 - nth i (it (k + N) x) 0) (nth i (it (k + N) x) 0 - nth i y 0)) as Tr.
    replace (nth i (it k x) 0 - nth i (it (k + N) x) 0 + (nth i (it (k + N) x) 0 - nth i y 0)) with (nth i (it k x) 0 - nth i y 0) in Tr by ring. lra.
  Qed.
  Lemma solution_exists x0 d0 : length x0 = n -> within d0 x0 (f x0) -> exists x, solution n f x /\ forall k, within (q ^ k * d0 / (1 - q)) (it k x0) x.
  Proof.
    intros L W. destruct (limits (fun k => it k x0)) as (x & Lx & Hx).
    { intros k. now apply it_length. } { intros i. now apply component_limit. }
    assert (G : forall k, within (q ^ k * d0 / (1 - q)) (it k x0) x) by (intros k; now apply limit_close).
    exists x. split; [|exact G]. split; [exact Lx|]. apply within_0. destruct (dist_ex (f x) x) as (M & WM & Hm).
    { rewrite (proj1 (proj2 C)); auto. }
    assert (M <= 0); [|eapply within_weak; eassumption]. apply Rnot_lt_le. intros Mp.
    destruct (small_pow d0 (M / 2) (within_pos _ _ _ W) ltac:(lra)) as (N & HN).
    pose proof (within_sym _ _ _ (G N)) as G1. pose proof (proj2 (proj2 C) _ _ _ Lx G1) as G2. change (f (it N x0)) with (it (S N) x0) in G2.
    pose proof (within_trans _ _ _ _ _ G2 (G (S N))) as G3. specialize (Hm _ G3). pose proof (proj1 (HN N ltac:(lia))). pose proof (proj1 (HN (S N) ltac:(lia))).
    destruct C as (Q & _). pose proof (within_pos _ _ _ (G N)). nra.
  Qed.
End C.

(** ** the criterion *)
Lemma crit_spec tol verbose p r : p <> [] -> length p = length r -> delta_crit tol verbose (Some p) r = true <-> within tol p r.
Proof.
  intros Hne L. unfold delta_crit. cbn [option_map].
  assert (Hs : map Some p <> []) by (destruct p; [congruence|discriminate]).
  destruct (var_delta_spec false (map Some p) (map Some r) tol Hs ltac:(rewrite !map_length; exact L) ltac:(intros X; discriminate X)) as (d & E & I).
  assert (V : check_converged (fun _ => false) [(0%nat, tol)] verbose (Some (fun v => if Nat.eqb v 0 then Some (map Some p) else None)) (fun v => if Nat.eqb v 0 then Some (map Some r) else None) = Ok (fle d tol)).
  { unfold check_converged. destruct verbose; cbn [conv_loop Nat.eqb]; rewrite E; cbn [bind negb andb]; destruct (fle d tol); reflexivity. }
  rewrite V. transitivity (fle d tol = true); [destruct (fle d tol); split; easy|]. rewrite I. split.
  - intros H. split; [exact L|]. intros i. destruct (Nat.lt_ge_cases i (length p)) as [Hi|Hi].
    + specialize (H i (Some (nth i p 0)) (Some (nth i r 0))). rewrite !nth_error_map in H.
      rewrite (nth_error_nth' p 0 Hi), (nth_error_nth' r 0) in H by lia. destruct (H eq_refl eq_refl) as (a & b & Ea & Eb & G). injection Ea as <-. injection Eb as <-.
      now rewrite Rabs_minus_sym.
    + rewrite !nth_overflow by lia. replace (0 - 0) with 0 by ring. rewrite Rabs_R0.
      assert (0 < length p)%nat by (destruct p; [congruence|cbn; lia]).
      specialize (H 0%nat (Some (nth 0 p 0)) (Some (nth 0 r 0))). rewrite !nth_error_map in H.
      rewrite (nth_error_nth' p 0), (nth_error_nth' r 0) in H by lia. destruct (H eq_refl eq_refl) as (a & b & Ea & Eb & G).
      eapply Rle_trans; [apply Rabs_pos|exact G].
  - intros (_ & H) i a b Ha Hb. rewrite nth_error_map in Ha, Hb. destruct (nth_error p i) as [x|] eqn:Ex; [|discriminate]. destruct (nth_error r i) as [y|] eqn:Ey; [|discriminate].
    injection Ha as <-. injection Hb as <-. exists x, y. repeat split. specialize (H i). rewrite (nth_error_nth _ _ 0 Ex), (nth_error_nth _ _ 0 Ey) in H. now rewrite Rabs_minus_sym.
Qed.
Lemma crit_empty tol verbose r : delta_crit tol verbose (Some []) r = false.
Proof. unfold delta_crit. cbn [option_map map]. destruct verbose; cbn; destruct (map Some r); reflexivity. Qed.
Lemma crit_first tol verbose r : delta_crit tol verbose None r = false.
Proof. reflexivity. Qed.

(** ** the loop *)
Section L.
  Variables (run : mkind -> option (list R) -> list R) (x0 : list R) (f reord : list R -> list R) (n : nat) (q : R).
  Hypothesis HR : runs_as run x0 f reord.
  Hypothesis C : contracts n q f.
  Hypothesis L0 : length x0 = n.
  Lemma iterate_it k : iterate run false k = it f k x0.
  Proof. destruct HR as (H0 & H1 & _). induction k as [|k IH]; cbn [iterate it]; [exact H0|]. now rewrite H1, IH. Qed.
  Lemma passes_step tol verbose block k : passes run block (Some (delta_crit tol verbose)) false k ->
    exists j, k = S j /\ within tol (it f j x0) (it f (S j) x0).
  Proof.
    intros (c & Ec & B & P). injection Ec as <-. destruct k as [|j]; [discriminate P|]. exists j. split; [reflexivity|]. cbn [before] in P.
    rewrite !iterate_it in P. destruct (it f j x0) as [|y l] eqn:Ej; [rewrite crit_empty in P; discriminate|].
    rewrite crit_spec in P; [exact P|discriminate|]. rewrite <- Ej, !(it_length n q f C) by auto. reflexivity.
  Qed.
  Lemma step_passes tol verbose block j : (0 < n)%nat -> block (S j) = false -> within tol (it f j x0) (it f (S j) x0) -> passes run block (Some (delta_crit tol verbose)) false (S j).
  Proof.
    intros Hn B W. exists (delta_crit tol verbose). split; [reflexivity|]. split; [exact B|]. cbn [before]. rewrite !iterate_it. apply crit_spec; [|apply W|exact W].
    intros E. pose proof (it_length n q f C j x0 L0) as E'. rewrite E in E'. cbn in E'. lia.
  Qed.
  Lemma accepted tol verbose block max_it fres dwnd k x : (0 < n)%nat ->
    calc_farm_iter run block (Some (delta_crit tol verbose)) false max_it = (fres, dwnd, k) -> (k < max_it)%nat -> solution n f x -> moves_only n reord ->
    within (q * tol / (1 - q)) dwnd x /\ within (tol / (1 - q)) fres (reord x).
  Proof.
    intros Hn E Hk Hx HM. destruct (terminates_spec _ _ _ _ _ _ _ _ E) as (_ & _ & [T|T]); [lia|].
    destruct (passes_step _ _ _ _ T) as (j & -> & W). destruct (returned_spec _ _ _ _ _ _ _ _ E) as (-> & ->). cbn iota.
    rewrite iterate_it. destruct HR as (_ & _ & H2). rewrite H2, iterate_it.
    destruct (near_solution n q f C tol (it f j x0) x (it_length n q f C j x0 L0) Hx W) as (A & B).
    split; [exact B|]. apply HM; [|exact A]. apply (it_length n q f C); exact L0.
  Qed.
  Lemma in_any_case d0 block crit max_it fres dwnd k x : within d0 x0 (f x0) -> calc_farm_iter run block crit false max_it = (fres, dwnd, k) -> solution n f x ->
    within (q ^ k * d0 / (1 - q)) dwnd x.
  Proof.
    intros W E Hx. destruct (returned_spec _ _ _ _ _ _ _ _ E) as (-> & _). rewrite iterate_it.
    destruct (solution_exists n q f C x0 d0 L0 W) as (x' & Hx' & H). rewrite (solution_unique n q f C x x' Hx Hx'). apply H.
  Qed.
  Lemma ends_by tol verbose block max_it fres dwnd k j d0 : (0 < n)%nat -> within d0 x0 (f x0) -> q ^ j * d0 <= tol -> block (S j) = false ->
    calc_farm_iter run block (Some (delta_crit tol verbose)) false max_it = (fres, dwnd, k) -> (k <= S j)%nat.
  Proof.
    intros Hn W S B E. destruct (terminates_spec _ _ _ _ _ _ _ _ E) as (_ & NB & _). destruct (Nat.le_gt_cases k (Datatypes.S j)) as [G|G]; [exact G|].
    destruct (NB _ G). apply step_passes; auto. eapply within_weak; [exact S|]. now apply (it_step n q f C).
  Qed.
  Lemma ends tol verbose block B : (0 < n)%nat -> 0 < tol -> (forall j, (B <= j)%nat -> block j = false) ->
    exists N, forall max_it fres dwnd k, calc_farm_iter run block (Some (delta_crit tol verbose)) false max_it = (fres, dwnd, k) -> (k <= N)%nat.
  Proof.
    intros Hn Ht HB. destruct (it_dist n q f C x0 L0) as (d0 & W). destruct (small_pow n q f C d0 tol (within_pos _ _ _ W) Ht) as (N & HN).
    exists (S (N + B)). intros max_it fres dwnd k E. apply (ends_by tol verbose block max_it fres dwnd k (N + B) d0 Hn W); [|apply HB; lia|exact E].
    left. apply HN. lia.
  Qed.
End L.

(** ** superpositions are Lipschitz *)
(** the accumulated number that a contribution stands for *)
Definition unit_of (s : superp) (c : contrib) : R := match c with None => 0 | Some (scale, r) => match s with WSLinearLocal | WSQuadraticLocal | WSMaxLocal | WSPowLocal _ => r | _ => scale * r end end.
Definition acc_ok (s : superp) (d : R) : Prop := match s with WSLinear | WSLinearLocal => True | _ => 0 <= d end.
Definition magn (s : superp) (d : R) : R :=
  match s with WSLinear | WSLinearLocal => d | WSQuadratic | WSQuadraticLocal => sqrt d | WSMax | WSMaxLocal => d | WSPow p | WSPowLocal p => npow d (1 / p) | _ => d end.

Lemma norm2 a b x y : 0 <= a -> 0 <= b -> sqrt (a * a + x * x) <= sqrt (b * b + y * y) + (Rabs (a - b) + Rabs (x - y)).
Proof.
  intros A B. set (N := sqrt (b * b + y * y)). assert (HN : N * N = b * b + y * y) by (apply sqrt_sqrt; nra). assert (N0 : 0 <= N) by apply sqrt_pos.
  pose proof (Rabs_pos (a - b)). pose proof (Rabs_pos (x - y)). set (e := Rabs (a - b)) in *. set (g := Rabs (x - y)) in *.
  assert (Nb : b <= N) by nra. assert (Ny : Rabs y <= N). { pose proof (Rabs_pos y). assert (Rabs y * Rabs y = y * y) by (rewrite <- Rabs_mult; apply Rabs_pos_eq; nra). nra. }
  assert (Ea : a <= b + e) by (unfold e; pose proof (Rle_abs (a - b)); lra).
  assert (Ex : Rabs x <= Rabs y + g). { unfold g. replace x with (y + (x - y)) at 1 by ring. apply Rabs_triang. }
  assert (Xx : Rabs x * Rabs x = x * x) by (rewrite <- Rabs_mult; apply Rabs_pos_eq; nra). assert (Yy : Rabs y * Rabs y = y * y) by (rewrite <- Rabs_mult; apply Rabs_pos_eq; nra).
  pose proof (Rabs_pos x). pose proof (Rabs_pos y). rewrite <- (sqrt_square (N + (e + g))) by lra. apply sqrt_le_1; try nra.
Qed.
Lemma npow_1 p : npow 1 p = 1.
Proof. unfold npow. destruct (Reqb 1 0) eqn:E; [apply Reqb_true in E; lra|]. unfold Rpower. rewrite ln_1, Rmult_0_r, exp_0. reflexivity. Qed.
Lemma npow_at1 x : 0 <= x -> npow x 1 = x.
Proof. intros X. unfold npow. destruct (Reqb x 0) eqn:E; [apply Reqb_true in E; now symmetry|]. apply Reqb_false in E. apply Rpower_1. lra. Qed.
Lemma npow_below t p : 0 <= t <= 1 -> 1 <= p -> npow t p <= t.
Proof.
  intros T P. destruct (Req_dec t 0) as [->|N]; [rewrite npow_0; lra|]. unfold npow. destruct (Reqb t 0) eqn:E; [apply Reqb_true in E; lra|].
  rewrite <- (Rpower_1 t) at 2 by lra. unfold Rpower. assert (L : ln t <= 0). { rewrite <- ln_1. destruct (Req_dec t 1) as [->|]; [lra|]. left. apply ln_increasing; lra. }
  assert (G : p * ln t <= 1 * ln t) by nra. destruct G as [G|G]; [left; now apply exp_increasing|rewrite G; lra].
Qed.
Lemma npow_prod a b p : 0 <= a -> 0 <= b -> npow (a * b) p = npow a p * npow b p.
Proof.
  intros A B. destruct (Req_dec a 0) as [->|Na]; [rewrite Rmult_0_l, npow_0; ring|]. destruct (Req_dec b 0) as [->|Nb]; [rewrite Rmult_0_r, npow_0; ring|].
  unfold npow. destruct (Reqb (a * b) 0) eqn:E; [apply Reqb_true in E; apply Rmult_integral in E; tauto|]. destruct (Reqb a 0) eqn:Ea; [apply Reqb_true in Ea; tauto|]. destruct (Reqb b 0) eqn:Eb; [apply Reqb_true in Eb; tauto|].
  symmetry. apply Rpower_mult_distr; lra.
Qed.
Lemma npow_superadd a b p : 0 <= a -> 0 <= b -> 1 <= p -> npow a p + npow b p <= npow (a + b) p.
Proof.
  intros A B P. destruct (Req_dec (a + b) 0) as [Z|Z]. { assert (a = 0) by lra. assert (b = 0) by lra. subst. rewrite Rplus_0_r, !npow_0. lra. }
  assert (S0 : 0 < a + b) by lra. assert (Ta : 0 <= a / (a + b) <= 1). { split; [apply Rmult_le_pos; [lra|left; now apply Rinv_0_lt_compat]|]. apply Rmult_le_reg_r with (a + b); [lra|]. unfold Rdiv. rewrite Rmult_assoc, Rinv_l by lra. lra. }
  assert (Tb : 0 <= b / (a + b) <= 1). { split; [apply Rmult_le_pos; [lra|left; now apply Rinv_0_lt_compat]|]. apply Rmult_le_reg_r with (a + b); [lra|]. unfold Rdiv. rewrite Rmult_assoc, Rinv_l by lra. lra. }
  assert (Ha : npow a p = npow (a + b) p * npow (a / (a + b)) p) by (rewrite <- npow_prod by lra; f_equal; field; lra).
  assert (Hb : npow b p = npow (a + b) p * npow (b / (a + b)) p) by (rewrite <- npow_prod by lra; f_equal; field; lra).
  rewrite Ha, Hb. pose proof (npow_below _ p Ta P). pose proof (npow_below _ p Tb P). pose proof (npow_nonneg (a + b) p ltac:(lra)).
  assert (E : a / (a + b) + b / (a + b) = 1) by (field; lra). rewrite <- Rmult_plus_distr_l. rewrite <- (Rmult_1_r (npow (a + b) p)) at 2. apply Rmult_le_compat_l; lra.
Qed.
Lemma npow_pos_R x p : 0 < x -> npow x p = Rpower x p.
Proof. intros X. unfold npow. destruct (Reqb x 0) eqn:E; [apply Reqb_true in E; lra|reflexivity]. Qed.
(** x |-> (x+g)^p - x^p increases *)
Lemma npow_incr y N g p : 0 <= y <= N -> 0 <= g -> 1 <= p -> npow (y + g) p - npow y p <= npow (N + g) p - npow N p.
Proof.
  intros (Y & YN) G P. destruct (Req_dec y N) as [->|NE]; [lra|]. destruct (Req_dec y 0) as [->|Y0].
  { rewrite Rplus_0_l, npow_0. pose proof (npow_superadd N g p ltac:(lra) G P). lra. }
  set (h := fun x => Rpower (x + g) p - Rpower x p). set (h' := fun x => p * Rpower (x + g) (p - 1) - p * Rpower x (p - 1)).
  destruct (MVT_cor2 h h' y N ltac:(lra)) as (c & E & Hc).
  { intros c Hc. unfold h, h'. apply (derivable_pt_lim_minus (fun x => Rpower (x + g) p) (fun x => Rpower x p)).
    - replace (p * Rpower (c + g) (p - 1)) with (p * Rpower (c + g) (p - 1) * 1) by ring.
      apply (derivable_pt_lim_comp (fun x => x + g) (fun x => Rpower x p)); [|apply derivable_pt_lim_power; lra].
      replace 1 with (1 + 0) by ring. apply (derivable_pt_lim_plus id (fct_cte g)); [apply derivable_pt_lim_id|apply derivable_pt_lim_const].
    - apply derivable_pt_lim_power. lra. }
  rewrite !npow_pos_R by lra. unfold h in E. assert (0 <= h' c); [|nra]. unfold h'.
  assert (Rpower c (p - 1) <= Rpower (c + g) (p - 1)); [|nra]. apply Rle_Rpower_l; lra.
Qed.
Lemma normp a b x y p : 0 <= a -> 0 <= b -> 0 <= x -> 0 <= y -> 1 <= p ->
  npow (npow a p + npow x p) (1 / p) <= npow (npow b p + npow y p) (1 / p) + (Rabs (a - b) + Rabs (x - y)).
Proof.
  intros A B X Y P. assert (P0 : 0 < p) by lra.
  assert (One : forall u v w, 0 <= u -> 0 <= v -> 0 <= w -> npow (npow u p + npow (v + w) p) (1 / p) <= npow (npow u p + npow v p) (1 / p) + w).
  { intros u v w U V W. set (N := npow (npow u p + npow v p) (1 / p)). pose proof (npow_nonneg u p U). pose proof (npow_nonneg v p V).
    assert (N0 : 0 <= N) by (apply npow_nonneg; lra). assert (HN : npow N p = npow u p + npow v p).
    { unfold N. replace p with (1 / (1 / p)) at 4 by (field; lra). apply npow_inv; [apply Rmult_lt_0_compat; [lra|now apply Rinv_0_lt_compat]|lra]. }
    assert (VN : v <= N). { rewrite <- (npow_inv v p P0 V), <- (npow_inv N p P0 N0). apply npow_mono; [apply Rmult_lt_0_compat; [lra|now apply Rinv_0_lt_compat]|]. lra. }
    pose proof (npow_incr v N w p (conj V VN) W P). rewrite <- (npow_inv (N + w) p P0 ltac:(lra)). apply npow_mono; [apply Rmult_lt_0_compat; [lra|now apply Rinv_0_lt_compat]|].
    pose proof (npow_nonneg (v + w) p ltac:(lra)). lra. }
  set (e := Rabs (a - b)). set (g := Rabs (x - y)). assert (E0 : 0 <= e) by apply Rabs_pos. assert (G0 : 0 <= g) by apply Rabs_pos.
  assert (Ea : a <= b + e) by (unfold e; pose proof (Rle_abs (a - b)); lra). assert (Ex : x <= y + g) by (unfold g; pose proof (Rle_abs (x - y)); lra).
  apply Rle_trans with (npow (npow (b + e) p + npow (y + g) p) (1 / p)).
  { apply npow_mono; [apply Rmult_lt_0_compat; [lra|now apply Rinv_0_lt_compat]|]. pose proof (npow_mono a (b + e) p P0 ltac:(lra)). pose proof (npow_mono x (y + g) p P0 ltac:(lra)). pose proof (npow_nonneg a p A). pose proof (npow_nonneg x p X). lra. }
  eapply Rle_trans; [apply One; lra|]. rewrite (Rplus_comm (npow (b + e) p)). eapply Rle_trans; [apply Rplus_le_compat_r, One; lra|]. rewrite (Rplus_comm (npow y p)). lra.
Qed.

Lemma add_unit s d c : is_ws s = true -> acc_ok s d ->
  add_wake s d c = match s with
                   | WSLinear | WSLinearLocal => d + unit_of s c
                   | WSQuadratic | WSQuadraticLocal => d + unit_of s c * unit_of s c
                   | WSMax | WSMaxLocal => Rmax d (Rabs (unit_of s c))
                   | WSPow p | WSPowLocal p => d + npow (Rabs (unit_of s c)) p
                   | _ => d
                   end.
Proof.
  intros Hs Ok. destruct c as [(sc, r)|]; destruct s; try discriminate Hs; cbn [add_wake unit_of acc_ok] in *; try reflexivity; try ring.
  - rewrite Rabs_R0, Rmax_left; auto.
  - rewrite Rabs_R0, Rmax_left; auto.
  - rewrite Rabs_R0, npow_0. ring.
  - rewrite Rabs_R0, npow_0. ring.
Qed.
Lemma add_ok s d c : is_ws s = true -> acc_ok s d -> acc_ok s (add_wake s d c).
Proof.
  intros Hs Ok. rewrite add_unit by auto. destruct s; try discriminate Hs; cbn [acc_ok] in *; auto; try nra.
  - eapply Rle_trans; [exact Ok|apply Rmax_l]. - eapply Rle_trans; [exact Ok|apply Rmax_l].
  - pose proof (npow_nonneg (Rabs (unit_of (WSPow p) c)) p (Rabs_pos _)). lra.
  - pose proof (npow_nonneg (Rabs (unit_of (WSPowLocal p) c)) p (Rabs_pos _)). lra.
Qed.
Lemma abs_diff x y e : x <= y + e -> y <= x + e -> Rabs (x - y) <= e.
Proof. intros. unfold Rabs. destruct (Rcase_abs (x - y)); lra. Qed.
Lemma rmax_lip a b x y : Rmax a x <= Rmax b y + (Rabs (a - b) + Rabs (x - y)).
Proof.
  pose proof (Rle_abs (a - b)). pose proof (Rle_abs (x - y)). pose proof (Rabs_pos (a - b)). pose proof (Rabs_pos (x - y)). pose proof (Rmax_l b y). pose proof (Rmax_r b y).
  apply Rmax_lub; lra.
Qed.
Lemma step_lip s d d' c c' : norm_like s -> acc_ok s d -> acc_ok s d' ->
  Rabs (magn s (add_wake s d c) - magn s (add_wake s d' c')) <= Rabs (magn s d - magn s d') + Rabs (unit_of s c - unit_of s c').
Proof.
  intros (Hs & Hp) Ok Ok'. rewrite !add_unit by auto. set (x := unit_of s c). set (y := unit_of s c').
  assert (Tri : Rabs (Rabs x - Rabs y) <= Rabs (x - y)) by apply Rabs_triang_inv2.
  assert (Q : forall d d' : R, 0 <= d -> 0 <= d' -> Rabs (sqrt (d + x * x) - sqrt (d' + y * y)) <= Rabs (sqrt d - sqrt d') + Rabs (x - y)).
  { intros a b A B. rewrite <- (sqrt_sqrt a A) at 1. rewrite <- (sqrt_sqrt b B) at 1. apply abs_diff; [apply norm2; apply sqrt_pos|].
    rewrite (Rabs_minus_sym (sqrt a)), (Rabs_minus_sym x). apply norm2; apply sqrt_pos. }
  assert (Mx : forall d d' : R, Rabs (Rmax d (Rabs x) - Rmax d' (Rabs y)) <= Rabs (d - d') + Rabs (x - y)).
  { intros a b. eapply Rle_trans; [|apply Rplus_le_compat_l, Tri]. apply abs_diff; [apply rmax_lip|]. rewrite (Rabs_minus_sym a), (Rabs_minus_sym (Rabs x)). apply rmax_lip. }
  assert (Pw : forall p d d', 1 <= p -> 0 <= d -> 0 <= d' -> Rabs (npow (d + npow (Rabs x) p) (1 / p) - npow (d' + npow (Rabs y) p) (1 / p)) <= Rabs (npow d (1 / p) - npow d' (1 / p)) + Rabs (x - y)).
  { intros p a b P A B. assert (P0 : 0 < p) by lra. assert (Inv : forall u, 0 <= u -> npow (npow u (1 / p)) p = u).
    { intros u U. replace p with (1 / (1 / p)) at 2 by (field; lra). apply npow_inv; [apply Rmult_lt_0_compat; [lra|now apply Rinv_0_lt_compat]|exact U]. }
    eapply Rle_trans; [|apply Rplus_le_compat_l, Tri]. rewrite <- (Inv a A) at 1. rewrite <- (Inv b B) at 1.
    pose proof (npow_nonneg a (1 / p) A). pose proof (npow_nonneg b (1 / p) B). pose proof (Rabs_pos x). pose proof (Rabs_pos y).
    apply abs_diff; [now apply normp|]. rewrite (Rabs_minus_sym (npow a (1 / p))), (Rabs_minus_sym (Rabs x)). now apply normp. }
  assert (Li : forall d d' : R, Rabs (d + x - (d' + y)) <= Rabs (d - d') + Rabs (x - y)).
  { intros a b. replace (a + x - (b + y)) with ((a - b) + (x - y)) by ring. apply Rabs_triang. }
  clearbody x y. destruct s; try discriminate Hs; cbn [magn acc_ok] in *; auto.
Qed.
Lemma fold_lip s : norm_like s -> forall cs cs' d d', length cs = length cs' -> acc_ok s d -> acc_ok s d' ->
  Rabs (magn s (fold_left (add_wake s) cs d) - magn s (fold_left (add_wake s) cs' d')) <=
  Rabs (magn s d - magn s d') + rsum (map2 (fun c c' => Rabs (unit_of s c - unit_of s c')) cs cs').
Proof.
  intros Hs. induction cs as [|c cs IH]; intros [|c' cs'] d d' L Ok Ok'; try discriminate; cbn [fold_left map2 rsum]; [lra|].
  cbn in L. eapply Rle_trans; [apply IH; [lia|apply add_ok; auto; apply Hs|apply add_ok; auto; apply Hs]|]. pose proof (step_lip s d d' c c' Hs Ok Ok'). lra.
Qed.
Lemma clamp_lip low high amb a b : Rabs (clamp low high amb a - clamp low high amb b) <= Rabs (a - b).
Proof.
  unfold clamp. assert (Mx : forall x y z, Rabs (Rmax x z - Rmax y z) <= Rabs (x - y)).
  { intros x y z. pose proof (Rle_abs (x - y)). pose proof (Rle_abs (y - x)). rewrite (Rabs_minus_sym y x) in *. unfold Rmax. destruct (Rle_dec x z), (Rle_dec y z); apply abs_diff; lra. }
  assert (Mn : forall x y z, Rabs (Rmin x z - Rmin y z) <= Rabs (x - y)).
  { intros x y z. pose proof (Rle_abs (x - y)). pose proof (Rle_abs (y - x)). rewrite (Rabs_minus_sym y x) in *. unfold Rmin. destruct (Rle_dec x z), (Rle_dec y z); apply abs_diff; lra. }
  destruct low as [l|], high as [h|]; try lra; [eapply Rle_trans; [apply Mn|apply Mx]|apply Mx|apply Mn].
Qed.
Definition local_s (s : superp) : bool := match s with WSLinearLocal | WSQuadraticLocal | WSMaxLocal | WSPowLocal _ => true | _ => false end.
Lemma unit_deficit s amb c : is_ws s = true -> deficit_of s amb c = (if local_s s then amb else 1) * unit_of s c.
Proof. intros Hs. destruct c as [(sc, r)|]; destruct s; try discriminate Hs; cbn [deficit_of unit_of local_s]; ring. Qed.
Lemma raw_magn s quad amb d : is_ws s = true ->
  Rabs (raw_final s quad amb d - 0) = Rabs ((if local_s s then amb else 1) * magn s d) /\
  exists sg, (sg = 1 \/ sg = -1) /\ forall d, raw_final s quad amb d = sg * ((if local_s s then amb else 1) * magn s d).
Proof.
  intros Hs. assert (G : exists sg, (sg = 1 \/ sg = -1) /\ forall d, raw_final s quad amb d = sg * ((if local_s s then amb else 1) * magn s d)).
  { destruct s; try discriminate Hs; cbn [raw_final local_s magn]; first [now (exists 1; split; [now left|]; intros; ring)|now (exists (-1); split; [now right|]; intros; ring)]. }
  split; [|exact G]. destruct G as (sg & Hg & G). rewrite G, Rminus_0_r, Rabs_mult. destruct Hg as [-> | ->].
  - rewrite Rabs_R1. ring. - replace (-1) with (Ropp 1) by ring. rewrite Rabs_Ropp, Rabs_R1. ring.
Qed.
Lemma final_lip s quad low high amb cs cs' : norm_like s -> length cs = length cs' ->
  Rabs (final_wake s quad low high amb cs - final_wake s quad low high amb cs') <=
  rsum (map2 (fun c c' => Rabs (deficit_of s amb c - deficit_of s amb c')) cs cs').
Proof.
  intros Hs L. unfold final_wake, final_delta. rewrite (proj1 Hs). eapply Rle_trans; [apply clamp_lip|].
  destruct (raw_magn s quad amb 0 (proj1 Hs)) as (_ & sg & Hg & G). rewrite !G. set (k := if local_s s then amb else 1).
  assert (A : acc_ok s 0) by (destruct s; cbn; auto; lra). pose proof (fold_lip s Hs cs cs' 0 0 L A A) as F.
  replace (magn s 0 - magn s 0) with 0 in F by ring. rewrite Rabs_R0, Rplus_0_l in F. unfold wake_delta.
  set (u := magn s (fold_left (add_wake s) cs 0)) in *. set (v := magn s (fold_left (add_wake s) cs' 0)) in *.
  replace (sg * (k * u) - sg * (k * v)) with (sg * (k * (u - v))) by ring. rewrite !Rabs_mult.
  replace (Rabs sg) with 1 by (destruct Hg as [-> | ->]; [now rewrite Rabs_R1|replace (-1) with (Ropp 1) by ring; now rewrite Rabs_Ropp, Rabs_R1]).
  rewrite Rmult_1_l. eapply Rle_trans; [apply Rmult_le_compat_l; [apply Rabs_pos|exact F]|].
  right. clear F u v L G A. revert cs'. induction cs as [|c cs IH]; intros [|c' cs']; cbn [map2 rsum]; try ring.
  rewrite Rmult_plus_distr_l, IH, !unit_deficit by apply Hs. fold k. rewrite <- Rabs_mult. f_equal. f_equal. ring.
Qed.

(** ** one sweep *)
Section Sw.
  Context {T P : Type}.
  Variables (amb : P -> R) (hub : T -> P).
  Local Notation wm := (as_wmodel (F := R) amb hub).
  Local Notation ev := (fun (_ : T) (w : R) => w).
  Fixpoint contribs (m : swake T R P) (j oi : nat) (srcs : list (T * R)) (tj : T) : list contrib :=
    match srcs with [] => [] | (t, f) :: l => (if oi =? j then None else sm_c m t f (hub tj))%nat :: contribs m j (S oi) l tj end.
  Lemma gather_contribs_fold m j tj : forall srcs oi d, gather_contribs (wm m) j oi srcs tj d = fold_left (add_wake (sm_s m)) (contribs m j oi srcs tj) d.
  Proof. induction srcs as [|(t, f) l IH]; intros oi d; cbn [gather_contribs contribs fold_left]; [reflexivity|]. rewrite IH. destruct (oi =? j)%nat; reflexivity. Qed.
  Lemma contribs_length m j tj : forall srcs oi, length (contribs m j oi srcs tj) = length srcs.
  Proof. induction srcs as [|(t, f) l IH]; intros oi; cbn; auto. Qed.
  Lemma L_pos m L t t' : sensitive amb hub m L -> 0 <= L t t'.
  Proof. intros H. specialize (H t t' 1 0). rewrite Rminus_0_r, Rabs_R1, Rmult_1_r in H. eapply Rle_trans; [apply Rabs_pos|exact H]. Qed.
  Lemma contribs_lip m L j tj d : sensitive amb hub m L -> 0 <= d -> forall ts a b oi, length a = length ts -> length b = length ts ->
    (forall i, Rabs (nth i a 0 - nth i b 0) <= d) ->
    rsum (map2 (fun c c' => Rabs (deficit_of (sm_s m) (amb (hub tj)) c - deficit_of (sm_s m) (amb (hub tj)) c')) (contribs m j oi (combine ts a) tj) (contribs m j oi (combine ts b) tj))
    <= rsum (map (fun i => if Nat.eqb (oi + i) j then 0 else L (nth i ts tj) tj) (seq 0 (length ts))) * d.
  Proof.
    intros HL D. induction ts as [|t ts IH]; intros [|x a] [|y b] oi La Lb H; try discriminate; [cbn; lra|]. cbn in La, Lb.
    cbn [combine contribs map2 rsum length seq map nth]. rewrite Nat.add_0_r, Rmult_plus_distr_r.
    apply Rplus_le_compat.
    - destruct (oi =? j)%nat; [cbn; replace (0 - 0) with 0 by ring; rewrite Rabs_R0; lra|]. eapply Rle_trans; [apply HL|]. apply Rmult_le_compat_l; [eapply L_pos; eassumption|]. exact (H 0%nat).
    - eapply Rle_trans; [apply (IH a b (S oi)); [lia|lia|intros i; exact (H (S i))]|]. right. f_equal. rewrite <- seq_shift, map_map. apply rsum_ext. intros i _. cbn [nth]. rewrite Nat.add_succ_r. reflexivity.
  Qed.
  Lemma model_lip m L ts a b j tj dT d : norm_like (sm_s m) -> sensitive amb hub m L -> length a = length ts -> within d a b -> nth j ts dT = tj -> (j < length ts)%nat ->
    Rabs (final_delta (sm_s m) (sm_quad m) (sm_low m) (sm_high m) (amb (hub tj)) (gather_contribs (wm m) j 0 (combine ts a) tj 0) -
          final_delta (sm_s m) (sm_quad m) (sm_low m) (sm_high m) (amb (hub tj)) (gather_contribs (wm m) j 0 (combine ts b) tj 0)) <= others_sum L ts dT j * d.
  Proof.
    intros Hs HL La (Lab & W) Hj Hlt. rewrite !gather_contribs_fold.
    eapply Rle_trans; [apply (final_lip (sm_s m) (sm_quad m) (sm_low m) (sm_high m) (amb (hub tj)) _ _ Hs)|].
    { rewrite !contribs_length, !combine_length. lia. }
    eapply Rle_trans; [apply (contribs_lip m L j tj d HL); [exact (within_pos d a b (conj Lab W))|exact La|lia|exact W]|].
    right. f_equal. unfold others_sum. apply rsum_ext. intros i Hi. apply in_seq in Hi. cbn [Nat.add]. rewrite Hj.
    destruct (i =? j)%nat; [reflexivity|]. rewrite (nth_indep ts tj dT) by lia. reflexivity.
  Qed.
  Lemma models_lip ts dT a b d j tj : length a = length ts -> within d a b -> nth j ts dT = tj -> (j < length ts)%nat ->
    forall mLs wa wb, Forall (fun mL => norm_like (sm_s (fst mL)) /\ sensitive amb hub (fst mL) (snd mL)) mLs ->
    Rabs (all_models (map (fun mL => wm (fst mL)) mLs) j (combine ts a) tj wa - all_models (map (fun mL => wm (fst mL)) mLs) j (combine ts b) tj wb) <=
    Rabs (wa - wb) + rsum (map (fun mL => others_sum (snd mL) ts dT j) mLs) * d.
  Proof.
    intros La W Hj Hlt. induction mLs as [|(m, L) mLs IH]; intros wa wb HF; cbn [map all_models rsum]; [lra|].
    inversion HF as [|? ? (Hs & HL) HF']; subst. cbn [fst snd] in *. eapply Rle_trans; [apply (IH _ _ HF')|].
    cbn [as_wmodel w_add w_new]. pose proof (model_lip m L ts a b j _ dT d Hs HL La W eq_refl Hlt) as G.
    match type of G with Rabs (?x - ?y) <= _ => set (xa := x) in *; set (xb := y) in * end.
    replace (wa + xa - (wb + xb)) with ((wa - wb) + (xa - xb)) by ring. pose proof (Rabs_triang (wa - wb) (xa - xb)). lra.
  Qed.
  Lemma sweep_from_nth (ws : list (@wmodel T R R R)) srcs dT : forall ts j0 j, (j < length ts)%nat ->
    nth j (sweep_from (fun t => amb (hub t)) ev ws srcs j0 ts) 0 = all_models ws (j0 + j) srcs (nth j ts dT) (amb (hub (nth j ts dT))).
  Proof.
    induction ts as [|t ts IH]; intros j0 [|j] Hj; cbn in Hj; try lia; cbn [sweep_from nth]; [now rewrite Nat.add_0_r|].
    rewrite IH by lia. now rewrite Nat.add_succ_r.
  Qed.
  Lemma sweep_contracts ts dT mLs q : 0 <= q < 1 -> Forall (fun mL => norm_like (sm_s (fst mL)) /\ sensitive amb hub (fst mL) (snd mL)) mLs ->
    (forall j, (j < length ts)%nat -> rsum (map (fun mL => others_sum (snd mL) ts dT j) mLs) <= q) ->
    contracts (length ts) q (sweep (fun t => amb (hub t)) ev (map (fun mL => wm (fst mL)) mLs) ts).
  Proof.
    intros Q HF HQ. split; [exact Q|]. split; [intros a _; unfold sweep; apply sweep_from_length|].
    intros d a b La W. unfold sweep. split; [now rewrite !sweep_from_length|]. intros j. pose proof (within_pos _ _ _ W) as D.
    destruct (Nat.lt_ge_cases j (length ts)) as [Hj|Hj].
    - rewrite !(sweep_from_nth _ _ dT) by exact Hj. cbn [Nat.add]. eapply Rle_trans; [apply (models_lip ts dT a b d j _ La W eq_refl Hj mLs _ _ HF)|].
      match goal with |- Rabs (?x - ?x) + _ <= _ => replace (x - x) with 0 by ring end. rewrite Rabs_R0, Rplus_0_l. apply Rmult_le_compat_r; [exact D|]. now apply HQ.
    - rewrite !nth_overflow by (rewrite sweep_from_length; exact Hj). replace (0 - 0) with 0 by ring. rewrite Rabs_R0. nra.
  Qed.
End Sw.
