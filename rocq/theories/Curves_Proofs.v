(** Proofs about turbine curves. *)
From Verif Require Import RBase Curves_Model Curves_Spec.
Local Open Scope R_scope.

Lemma sorted_tail p t : sorted (p :: t) -> sorted t.
Proof. destruct p, t as [|(x, y) t]; cbn; tauto. Qed.
Lemma sorted_le : forall t x0 y0, sorted ((x0, y0) :: t) -> forall x y, In (x, y) t -> x0 < x.
Proof.
  induction t as [|(x1, y1) t IH]; intros x0 y0 H x y Hin; [contradiction|]. destruct H as (H1 & H2).
  destruct Hin as [E|Hin]; [injection E as <- <-; assumption|]. apply (Rlt_trans _ x1); [assumption|]. eapply IH; eassumption.
Qed.
(** between two nodes *)
Lemma lin_between x0 y0 x1 y1 x lo hi : x0 < x1 -> x0 <= x <= x1 -> lo <= y0 <= hi -> lo <= y1 <= hi ->
  lo <= (y1 - y0) / (x1 - x0) * (x - x0) + y0 <= hi.
Proof.
  intros H Hx H0 H1. set (s := (x - x0) / (x1 - x0)).
  assert (S : 0 <= s <= 1).
  { unfold s. split; [apply Rmult_le_pos; [lra|left; apply Rinv_0_lt_compat; lra]|].
    apply (Rmult_le_reg_r (x1 - x0)); [lra|]. unfold Rdiv. rewrite Rmult_assoc, Rinv_l by lra. lra. }
  replace ((y1 - y0) / (x1 - x0) * (x - x0) + y0) with ((1 - s) * y0 + s * y1) by (unfold s; field; lra). nra.
Qed.
Lemma interp_from_bounds : forall t x lo hi, t <> [] -> sorted t -> values_in lo hi t -> (match t with (x0, _) :: _ => x0 <= x | _ => True end) ->
  lo <= interp_from t x <= hi.
Proof.
  induction t as [|(x0, y0) t IH]; intros x lo hi N S V Hx; [contradiction|].
  destruct t as [|(x1, y1) t].
  - cbn. apply (V x0). now left.
  - change (interp_from ((x0, y0) :: (x1, y1) :: t) x) with
      (if Rltb x x1 then (y1 - y0) / (x1 - x0) * (x - x0) + y0 else interp_from ((x1, y1) :: t) x).
    destruct S as (S1 & S2). rdec.
    + apply lin_between; [assumption|lra|apply (V x0); now left|apply (V x1); right; now left].
    + apply IH; [discriminate|assumption| |assumption]. intros a b Hab. apply (V a). now right.
Qed.
Lemma interp_bounds t x lo hi y : sorted t -> values_in lo hi t -> lo <= 0 <= hi -> interp t x = Ok y -> lo <= y <= hi.
Proof.
  intros S V Z E. destruct t as [|(x0, y0) t]; [discriminate|]. cbn [interp] in E. injection E as <-. rdec; try lra.
  apply (interp_from_bounds ((x0, y0) :: t) x lo hi); auto; discriminate.
Qed.
Lemma interp_from_node : forall t x y, sorted t -> In (x, y) t -> interp_from t x = y.
Proof.
  induction t as [|(x0, y0) t IH]; intros x y S Hin; [contradiction|]. destruct t as [|(x1, y1) t].
  - destruct Hin as [E|[]]. injection E as <- <-. reflexivity.
  - change (interp_from ((x0, y0) :: (x1, y1) :: t) x) with
      (if Rltb x x1 then (y1 - y0) / (x1 - x0) * (x - x0) + y0 else interp_from ((x1, y1) :: t) x).
    destruct S as (S1 & S2). destruct Hin as [E|Hin].
    + injection E as <- <-. rdec; [|lra]. replace (x0 - x0) with 0 by ring. ring.
    + assert (x1 <= x). { destruct Hin as [E|Hin]; [injection E as <- <-; lra|]. left. eapply sorted_le; eassumption. }
      rdec; [lra|]. now apply IH.
Qed.
Lemma sorted_last : forall t d, sorted t -> forall x y, In (x, y) t -> x <= fst (last t d).
Proof.
  induction t as [|(x0, y0) t IH]; intros d S x y Hin; [contradiction|]. destruct t as [|(x1, y1) t].
  - destruct Hin as [E|[]]. injection E as <- <-. cbn. lra.
  - change (last ((x0, y0) :: (x1, y1) :: t) d) with (last ((x1, y1) :: t) d). destruct S as (S1 & S2).
    destruct Hin as [E|Hin]; [|eapply IH; eassumption]. injection E as <- <-.
    pose proof (IH d S2 x1 y1 (or_introl eq_refl)). lra.
Qed.
Lemma interp_node t x y : sorted t -> In (x, y) t -> interp t x = Ok y.
Proof.
  intros S Hin. destruct t as [|(x0, y0) t]; [contradiction|]. cbn [interp].
  assert (x0 <= x). { destruct Hin as [E|Hin]; [injection E as <- <-; lra|]. left. eapply sorted_le; eassumption. }
  pose proof (sorted_last _ (0, 0) S x y Hin). rdec; [lra|lra|]. f_equal. now apply interp_from_node.
Qed.
Lemma interp_outside t x : t <> [] -> (forall x' y', In (x', y') t -> x < x') \/ (forall x' y', In (x', y') t -> x' < x) -> interp t x = Ok 0.
Proof.
  intros N H. destruct t as [|(x0, y0) t]; [contradiction|]. cbn [interp]. rdec; try reflexivity.
  destruct H as [H|H]; [pose proof (H x0 y0 (or_introl eq_refl)); lra|].
  assert (L : In (last ((x0, y0) :: t) (0, 0)) ((x0, y0) :: t)).
  { destruct (@exists_last _ ((x0, y0) :: t)) as (l & a & ->); [discriminate|]. rewrite last_last. apply in_or_app. right. now left. }
  destruct (last ((x0, y0) :: t) (0, 0)) as (a, b). specialize (H a b L). cbn in E0. lra.
Qed.
(** monotone tables give monotone curves up to the last node *)
Lemma increasing_tail p t : increasing (p :: t) -> increasing t.
Proof. destruct p, t as [|(x, y) t]; cbn; tauto. Qed.
Lemma increasing_le : forall t x0 y0, increasing ((x0, y0) :: t) -> forall x y, In (x, y) t -> y0 <= y.
Proof.
  induction t as [|(x1, y1) t IH]; intros x0 y0 H x y Hin; [contradiction|]. destruct H as (H1 & H2).
  destruct Hin as [E|Hin]; [injection E as <- <-; assumption|]. apply (Rle_trans _ y1); [assumption|]. eapply IH; eassumption.
Qed.
Lemma interp_from_ge : forall t x0 y0 x, sorted ((x0, y0) :: t) -> increasing ((x0, y0) :: t) -> x0 <= x -> y0 <= interp_from ((x0, y0) :: t) x.
Proof.
  induction t as [|(x1, y1) t IH]; intros x0 y0 x S M Hx; [cbn; lra|].
  change (interp_from ((x0, y0) :: (x1, y1) :: t) x) with
      (if Rltb x x1 then (y1 - y0) / (x1 - x0) * (x - x0) + y0 else interp_from ((x1, y1) :: t) x).
  destruct S as (S1 & S2), M as (M1 & M2). rdec.
  - pose proof (lin_between x0 y0 x1 y1 x y0 y1 S1 ltac:(lra) ltac:(lra) ltac:(lra)). lra.
  - pose proof (IH x1 y1 x S2 M2 E). lra.
Qed.
Lemma interp_from_mono : forall t x0 y0 x x', sorted ((x0, y0) :: t) -> increasing ((x0, y0) :: t) -> x0 <= x <= x' ->
  interp_from ((x0, y0) :: t) x <= interp_from ((x0, y0) :: t) x'.
Proof.
  induction t as [|(x1, y1) t IH]; intros x0 y0 x x' S M Hx; [cbn; lra|].
  change (interp_from ((x0, y0) :: (x1, y1) :: t)) with
      (fun x => if Rltb x x1 then (y1 - y0) / (x1 - x0) * (x - x0) + y0 else interp_from ((x1, y1) :: t) x). cbv beta.
  destruct S as (S1 & S2), M as (M1 & M2). rdec.
  - apply Rplus_le_compat_r. apply Rmult_le_compat_l; [|lra]. apply Rmult_le_pos; [lra|]. left. apply Rinv_0_lt_compat. lra.
  - pose proof (lin_between x0 y0 x1 y1 x y0 y1 S1 ltac:(lra) ltac:(lra) ltac:(lra)).
    pose proof (interp_from_ge t x1 y1 x' S2 M2 E0). lra.
  - lra.
  - apply IH; [assumption|assumption|lra].
Qed.
Lemma interp_mono t x x' : sorted t -> increasing t -> (forall x y, In (x, y) t -> 0 <= y) ->
  x <= x' -> x' <= fst (last t (0, 0)) -> t <> [] -> exists y y', interp t x = Ok y /\ interp t x' = Ok y' /\ y <= y'.
Proof.
  intros S M P Hx Hl N. destruct t as [|(x0, y0) t]; [contradiction|]. cbn [interp]. do 2 eexists. split; [reflexivity|]. split; [reflexivity|].
  assert (P0 : 0 <= y0) by (apply (P x0 y0); now left).
  rdec; try lra.
  - pose proof (interp_from_ge t x0 y0 x' S M ltac:(lra)). lra.
  - apply interp_from_mono; auto; lra.
Qed.

(** view and copy selections *)
Lemma veq_true a b : veq a b = true <-> a = b.
Proof. destruct a, b; cbn; split; congruence. Qed.
Lemma veq_refl a : veq a a = true.
Proof. now destruct a. Qed.
Lemma put_same f v x : put f v x v = x.
Proof. unfold put. now rewrite veq_refl. Qed.
Lemma put_other f v x u : u <> v -> put f v x u = f u.
Proof. intros H. unfold put. destruct (veq u v) eqn:E; [apply veq_true in E; contradiction|reflexivity]. Qed.
Lemma correct_distinct wsct wsp fR fC fP f : wsct <> wsp ->
  snd (fst (correct true wsct wsp fR fC fP f)) = snd (fst (correct false wsct wsp fR fC fP f)) /\
  snd (correct true wsct wsp fR fC fP f) = snd (correct false wsct wsp fR fC fP f).
Proof.
  intros N. destruct wsct, wsp; try (now contradiction N); unfold correct, put; cbn; split; ring.
Qed.
Lemma correct_same v fR fC fP f : 
  fst (fst (correct true v v fR fC fP f)) v = f v * fR * fC * fP /\
  snd (fst (correct true v v fR fC fP f)) = f v * fR * fC * fP /\ snd (correct true v v fR fC fP f) = f v * fR * fC * fP /\
  snd (fst (correct false v v fR fC fP f)) = f v * fC /\ snd (correct false v v fR fC fP f) = f v * fR * fP.
Proof. cbn [correct fst snd]. now rewrite !put_same. Qed.
Lemma calculate_distinct wsct wsp tP tC fR fC fP f r1 : wsct <> wsp ->
  calculate true wsct wsp tP tC fR fC fP f = Ok r1 -> exists r2, calculate false wsct wsp tP tC fR fC fP f = Ok r2 /\
  snd (fst r1) = snd (fst r2) /\ snd r1 = snd r2.
Proof.
  intros N. destruct (correct_distinct wsct wsp fR fC fP f N) as (E1 & E2). unfold calculate.
  destruct (correct true wsct wsp fR fC fP f) as ((g & a) & b), (correct false wsct wsp fR fC fP f) as ((g' & a') & b'). cbn in E1, E2. subst a' b'.
  destruct (interp tP b) as [p|]; cbn; [|discriminate]. destruct (interp tC a) as [c|]; cbn; [|discriminate]. intros E. injection E as <-.
  eexists. split; [reflexivity|]. split; reflexivity.
Qed.

(** cut-in *)
Ltac split_if E := match type of E with (if Rltb ?a ?b then _ else _) = _ => let H := fresh in destruct (Rltb a b) eqn:H; [apply Rltb_true in H|apply Rltb_false in H] end.
Lemma from_cutin_spec t : exists pre, t = pre ++ from_cutin t /\ Forall (fun p => snd p < 1e-5) pre.
Proof.
  induction t as [|(x, c) t (pre & E & F)]; [exists []; split; [reflexivity|constructor]|]. cbn [from_cutin]. rdec.
  - exists ((x, c) :: pre). split; [cbn; now rewrite E at 1|now constructor].
  - exists []. split; [reflexivity|constructor].
Qed.
Definition smooth (n : nat) (c0 : R) (c : nat -> R) : Prop :=
  c O = 0 /\ c n = c0 /\ (forall k, (k <= n)%nat -> 0 <= c k <= c0) /\ (forall k, (k < n)%nat -> c k <= c (S k)).
Lemma sweep_smooth a n c0 c : 0 <= a <= 1 -> (0 < n)%nat -> smooth n c0 c -> smooth n c0 (sweep a n c).
Proof.
  intros Ha Hn (S0 & Sn & Sb & Sm). unfold sweep. split; [|split; [|split]].
  - cbn. assumption.
  - rewrite Nat.ltb_irrefl, Bool.andb_false_r. assumption.
  - intros k Hk. destruct ((0 <? k)%nat && (k <? n)%nat) eqn:E; [|now apply Sb].
    apply Bool.andb_true_iff in E. destruct E as (E1 & E2). apply Nat.ltb_lt in E1. apply Nat.ltb_lt in E2.
    pose proof (Sb (k - 1)%nat ltac:(lia)). pose proof (Sb (k + 1)%nat ltac:(lia)). nra.
  - intros k Hk. assert (M : forall j, (j < n)%nat -> c j <= c (j + 1)%nat) by (intros; rewrite Nat.add_1_r; now apply Sm).
    replace (S k <? n)%nat with (if (S k =? n)%nat then false else true).
    2:{ destruct (S k =? n)%nat eqn:E; [apply Nat.eqb_eq in E; subst; symmetry; apply Nat.ltb_irrefl|apply Nat.eqb_neq in E; symmetry; apply Nat.ltb_lt; lia]. }
    replace (k <? n)%nat with true by (symmetry; now apply Nat.ltb_lt). rewrite Bool.andb_true_r.
    change (0 <? S k)%nat with true. rewrite Bool.andb_true_l.
    destruct (0 <? k)%nat eqn:E1.
    + apply Nat.ltb_lt in E1. replace (S k - 1)%nat with k by lia.
      pose proof (M (k - 1)%nat ltac:(lia)) as M1. replace (k - 1 + 1)%nat with k in M1 by lia.
      pose proof (M k Hk) as M2. destruct (S k =? n)%nat eqn:E2.
      * rewrite <- (Nat.add_1_r k). nra.
      * apply Nat.eqb_neq in E2. pose proof (M (k + 1)%nat ltac:(lia)) as M3. replace (S k + 1)%nat with (k + 1 + 1)%nat by lia. nra.
    + apply Nat.ltb_ge in E1. assert (k = 0)%nat by lia. subst k. destruct (1 =? n)%nat eqn:E2; [now apply Sm|].
      apply Nat.eqb_neq in E2. pose proof (Sb (1 + 1)%nat ltac:(lia)). cbn [Nat.sub]. rewrite S0. nra.
Qed.
Lemma sweeps_smooth a n c0 : 0 <= a <= 1 -> (0 < n)%nat -> forall it c, smooth n c0 c -> smooth n c0 (sweeps a n it c).
Proof. intros Ha Hn. induction it as [|it IH]; intros c H; [assumption|]. cbn [sweeps]. apply IH. now apply sweep_smooth. Qed.
Lemma new_ct_smooth a n it c0 : 0 <= a <= 1 -> (0 < n)%nat -> 0 <= c0 -> smooth n c0 (new_ct a n it c0).
Proof.
  intros Ha Hn Hc. apply sweeps_smooth; auto. split; [|split; [|split]].
  - destruct (0 =? n)%nat eqn:E; [apply Nat.eqb_eq in E; lia|reflexivity].
  - now rewrite Nat.eqb_refl.
  - intros k _. destruct (k =? n)%nat; lra.
  - intros k Hk. destruct (k =? n)%nat eqn:E; [apply Nat.eqb_eq in E; lia|]. destruct (S k =? n)%nat; lra.
Qed.
(** the last interior value after at least one sweep *)
Lemma sweeps_S a n it c : sweeps a n (S it) c = sweep a n (sweeps a n it c).
Proof. revert c. induction it as [|it IH]; intros c; [reflexivity|]. change (sweeps a n (S (S it)) c) with (sweeps a n (S it) (sweep a n c)). rewrite IH. reflexivity. Qed.
Lemma new_ct_last a n it c0 : 0 <= a <= 1 -> (2 <= n)%nat -> 0 <= c0 -> (1 - a) * c0 <= new_ct a n (S it) c0 (n - 1)%nat.
Proof.
  intros Ha Hn Hc. unfold new_ct. rewrite sweeps_S. destruct (new_ct_smooth a n it c0 Ha ltac:(lia) Hc) as (S0 & Sn & Sb & Sm).
  unfold new_ct in *. unfold sweep at 1. replace (0 <? n - 1)%nat with true by (symmetry; apply Nat.ltb_lt; lia).
  replace (n - 1 <? n)%nat with true by (symmetry; apply Nat.ltb_lt; lia). cbn [andb].
  replace (n - 1 + 1)%nat with n by lia. rewrite Sn. pose proof (Sb (n - 1 - 1)%nat ltac:(lia)). nra.
Qed.
Lemma from_cutin_length t : (length (from_cutin t) <= length t)%nat.
Proof. induction t as [|(x, c) t IH]; [cbn; lia|]. cbn [from_cutin]. rdec; cbn [length]; lia. Qed.
Lemma from_cutin_app l p t : 1e-5 <= snd p -> (1 <= length (from_cutin (l ++ p :: t)) - S (length t) + 1)%nat /\ (S (length t) <= length (from_cutin (l ++ p :: t)))%nat.
Proof.
  intros H. assert (S (length t) <= length (from_cutin (l ++ p :: t)))%nat; [|lia]. induction l as [|(x, c) l IH].
  - destruct p as (x, c). cbn [app from_cutin snd] in *. rdec; [lra|cbn [length]; lia].
  - cbn [app from_cutin]. rdec; [assumption|]. cbn [length]. rewrite app_length. cbn [length]. lia.
Qed.
Lemma from_cutin_head t x c r : from_cutin t = (x, c) :: r -> 1e-5 <= c.
Proof. induction t as [|(x0, c0) t IH]; [discriminate|]. cbn [from_cutin]. rdec; [assumption|]. intros E'. injection E' as <- <- <-. assumption. Qed.
Lemma from_cutin_pos_later l : forall x c r, (forall y d, In (y, d) l -> 0 <= y) -> from_cutin l = (x, c) :: r -> 0 <= x.
Proof.
  induction l as [|(y, d) l IH]; intros x c r H E; [discriminate|]. cbn [from_cutin] in E. rdecin E.
  - eapply IH; [|eassumption]. intros y' d' Hin. apply (H y' d'). now right.
  - injection E as <- <- <-. apply (H y d). now left.
Qed.
(** applying the modification twice is not the same as applying it once: the table grows again *)
Lemma modify_twice a n it t x c r : 0 <= a < 1 -> (2 <= n)%nat -> from_cutin t = (x, c) :: r -> 0 < x -> 1e-5 <= (1 - a) * c ->
  exists t1 t2, modify_cutin a n (S it) t = Ok t1 /\ modify_cutin a n (S it) t1 = Ok t2 /\ (length t1 < length t2)%nat /\
    length t1 = (n + length (from_cutin t))%nat.
Proof.
  intros Ha Hn Hf Hx Hc. unfold modify_cutin at 1. rewrite Hf. replace (Rltb 0 x) with true by (symmetry; now apply Rltb_true).
  eexists. set (t1 := map _ (seq 0 n) ++ (x, c) :: r).
  assert (Hc0 : 0 <= c) by nra.
  assert (S1 : exists l, t1 = l ++ ((x * INR (n - 1) / INR n, new_ct a n (S it) c (n - 1)) :: (x, c) :: r) /\ length l = (n - 1)%nat /\
     exists l', l = (0, 0) :: l' /\ forall y d, In (y, d) (l' ++ (x * INR (n - 1) / INR n, new_ct a n (S it) c (n - 1)) :: (x, c) :: nil) -> 0 < y).
  { exists (map (fun k => (x * INR k / INR n, new_ct a n (S it) c k)) (seq 0 (n - 1))). split; [|split].
    - unfold t1. assert (Es : seq 0 n = seq 0 (n - 1) ++ [(n - 1)%nat]) by (destruct n as [|m]; [lia|]; rewrite seq_S; cbn [Nat.add]; replace (S m - 1)%nat with m by lia; reflexivity).
      rewrite Es, map_app, <- app_assoc. reflexivity.
    - now rewrite map_length, seq_length.
    - destruct (n - 1)%nat as [|m] eqn:En; [lia|]. cbn [seq map].
      destruct (new_ct_smooth a n (S it) c ltac:(lra) ltac:(lia) Hc0) as (S0 & _).
      eexists. split; [f_equal; rewrite S0; f_equal; cbn; unfold Rdiv; ring|].
      intros y d Hin. apply in_app_or in Hin. destruct Hin as [Hin|[E|[E|[]]]].
      + apply in_map_iff in Hin. destruct Hin as (k & E & Hk). injection E as <- _. apply in_seq in Hk.
        apply Rdiv_lt_0_compat; [apply Rmult_lt_0_compat; [assumption|apply lt_0_INR; lia]|apply lt_0_INR; lia].
      + apply (f_equal fst) in E. cbn [fst] in E. rewrite <- E. apply Rdiv_lt_0_compat; [apply Rmult_lt_0_compat; [assumption|apply lt_0_INR; lia]|apply lt_0_INR; lia].
      + injection E as <- _. assumption. }
  destruct S1 as (l & E1 & L1 & l' & El & Hpos).
  assert (V : 1e-5 <= new_ct a n (S it) c (n - 1)) by (pose proof (new_ct_last a n it c ltac:(lra) Hn Hc0); lra).
  destruct (from_cutin t1) as [|(x', c') r'] eqn:Ef.
  - exfalso. rewrite E1 in Ef. destruct (from_cutin_app l (x * INR (n - 1) / INR n, new_ct a n (S it) c (n - 1)) ((x, c) :: r) V) as (_ & A).
    rewrite Ef in A. cbn in A. lia.
  - assert (X' : 0 < x').
    { assert (G : forall l2, (forall y d, In (y, d) (l2 ++ [(x * INR (n - 1) / INR n, new_ct a n (S it) c (n - 1)%nat)]) -> 0 < y) ->
        forall x' c' r', from_cutin (l2 ++ (x * INR (n - 1) / INR n, new_ct a n (S it) c (n - 1)) :: (x, c) :: r) = (x', c') :: r' -> 0 < x').
      { induction l2 as [|(y, d) l2 IH]; intros Hy x2 c2 r2 E.
        - cbn [app from_cutin] in E. split_if E; [lra|]. injection E as <- _ _. eapply Hy. left. reflexivity.
        - cbn [app from_cutin] in E. split_if E; [|injection E as <- _ _; eapply Hy; left; reflexivity].
          eapply IH; [|eassumption]. intros y' d' Hin. eapply Hy. right. eassumption. }
      rewrite E1, El in Ef. cbn [app from_cutin] in Ef. split_if Ef; [|lra].
      eapply (G l'); [|eassumption]. intros y d Hin. eapply Hpos. apply in_app_or in Hin. apply in_or_app.
      destruct Hin as [Hin|[Hin|[]]]; [left; eassumption|right; left; eassumption]. }
    unfold modify_cutin. rewrite Ef. replace (Rltb 0 x') with true by (symmetry; now apply Rltb_true).
    eexists. split; [reflexivity|]. split; [reflexivity|]. split.
    + assert (L0 : length t1 = (n + S (length r))%nat) by (unfold t1; rewrite app_length, map_length, seq_length; reflexivity).
      eapply Nat.le_lt_trans; [apply Nat.eq_le_incl, L0|]. rewrite app_length, map_length, seq_length. rewrite <- Ef, E1.
      destruct (from_cutin_app l (x * INR (n - 1) / INR n, new_ct a n (S it) c (n - 1)) ((x, c) :: r) V) as (_ & A).
      cbn [length] in A. lia.
    + unfold t1. rewrite app_length, map_length, seq_length. reflexivity.
Qed.
Lemma modify_once_ok a n it t t' : 0 <= a <= 1 -> (0 < n)%nat -> modify_cutin a n it t = Ok t' ->
  t' = t \/ exists x c r new, t' = new ++ (x, c) :: r /\ from_cutin t = (x, c) :: r /\ 0 < x /\ length new = n /\
    (forall y d, In (y, d) new -> 0 <= y < x /\ 0 <= d <= c) /\ nth_error new 0 = Some (0, 0) /\ increasing (new ++ [(x, c)]).
Proof.
  intros Ha Hn. unfold modify_cutin. destruct (from_cutin t) as [|(x, c) r] eqn:Ef; [discriminate|]. intros E. injection E as <-. rdec; [right|now left].
  pose proof (from_cutin_head _ _ _ _ Ef) as Hc. destruct (new_ct_smooth a n it c Ha Hn ltac:(lra)) as (S0 & Sn & Sb & Sm).
  assert (Pn : 0 < INR n) by now apply lt_0_INR.
  do 4 eexists. split; [reflexivity|]. split; [reflexivity|]. split; [assumption|]. split; [now rewrite map_length, seq_length|]. split; [|split].
  - intros y d Hin. apply in_map_iff in Hin. destruct Hin as (k & E' & Hk). injection E' as <- <-. apply in_seq in Hk.
    assert (INR k < INR n) by (apply lt_INR; lia). pose proof (pos_INR k). split; [|apply Sb; lia]. split.
    + unfold Rdiv. apply Rmult_le_pos; [nra|]. left. now apply Rinv_0_lt_compat.
    + apply (Rmult_lt_reg_r (INR n)); [assumption|]. unfold Rdiv. rewrite Rmult_assoc, Rinv_l by lra. nra.
  - destruct n as [|n]; [lia|]. cbn [seq map nth_error]. rewrite S0. do 2 f_equal. cbn. unfold Rdiv. ring.
  - assert (G : forall m s, (s + m = n)%nat -> increasing (map (fun k => (x * INR k / INR n, new_ct a n it c k)) (seq s m) ++ [(x, c)])).
    { induction m as [|m IH]; intros s Hs; [exact I|]. cbn [seq map app]. specialize (IH (S s) ltac:(lia)).
      destruct m as [|m]; cbn [seq map app increasing] in *.
      - split; [|exact I]. apply Sb. lia.
      - split; [apply Sm; lia|assumption]. }
    apply (G n O). lia.
Qed.

(** automatic nominal power *)
Lemma lmaxR_ge : forall l x y, In y (x :: l) -> y <= lmaxR x l.
Proof.
  induction l as [|a l IH]; intros x y H; cbn [lmaxR]; [destruct H as [H|[]]; subst; lra|].
  destruct H as [H|H]; [subst; apply Rmax_l|]. eapply Rle_trans; [apply IH; exact H|apply Rmax_r].
Qed.
Lemma auto_nominal_times unit t : unit <> 0 -> t <> [] -> exists m, auto_nominal unit t * unit = m /\ (forall x y, In (x, y) t -> y <= m) /\ exists x, In (x, m) t.
Proof.
  intros Hu N. destruct t as [|(x0, y0) t]; [contradiction|]. cbn [auto_nominal]. exists (lmaxR y0 (map snd t)). split; [field; assumption|]. split.
  - intros x y Hin. apply lmaxR_ge. destruct Hin as [E|Hin]; [injection E as <- <-; now left|right]. apply in_map_iff. now exists (x, y).
  - clear N. revert x0 y0. induction t as [|(x1, y1) t IH]; intros x0 y0; [exists x0; now left|]. cbn [map lmaxR snd].
    destruct (IH x1 y1) as (x & Hx). unfold Rmax. destruct (Rle_dec y0 _); [exists x; right; exact Hx|exists x0; left; reflexivity].
Qed.
