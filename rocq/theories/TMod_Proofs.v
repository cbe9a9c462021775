(** Proofs for TMod_Model. *)
From Coq Require Import Permutation.
From Verif Require Import RBase Order_Model Order_Spec Order_Proofs Curves_Model Curves_Spec Curves_Proofs FarmWakes_Model FarmWakes_Proofs Superp_Model PointWakes_Model TMod_Model TMod_Spec.
Local Open Scope R_scope.

(** --- sqrt_reg --- *)
Lemma reg_exp x0 x : 0 < x0 -> exp ((x - x0 * (1 - ln x0)) / x0) = x0 * exp (x / x0 - 1).
Proof.
  intros H. replace ((x - x0 * (1 - ln x0)) / x0) with (ln x0 + (x / x0 - 1)) by (field; lra). rewrite exp_plus, exp_ln by assumption. reflexivity.
Qed.
Lemma exp_ge t : 1 + t <= exp t.
Proof. destruct (Req_dec t 0) as [->|N]; [rewrite exp_0; lra|]. left. now apply exp_ineq1. Qed.
Lemma exp_inc a b : a < b -> exp a < exp b. Proof. apply exp_increasing. Qed.
(** the argument of the root *)
Definition reg_arg (x0 x : R) : R := if Rltb x x0 then x0 * exp (x / x0 - 1) else x.
Lemma sqrt_reg_arg x0 x : 0 < x0 -> sqrt_reg x0 x = sqrt (reg_arg x0 x).
Proof. intros H. unfold sqrt_reg, reg_arg. cbn zeta. now rewrite reg_exp. Qed.
Lemma reg_arg_pos x0 x : 0 < x0 -> 0 < reg_arg x0 x.
Proof.
  intros H. unfold reg_arg. destruct (Rltb x x0) eqn:E; [apply Rmult_lt_0_compat; [assumption|apply exp_pos]|]. apply Rltb_false in E. lra.
Qed.
Lemma reg_arg_ge x0 x : 0 < x0 -> x <= reg_arg x0 x.
Proof.
  intros H. unfold reg_arg. destruct (Rltb x x0); [|lra]. pose proof (exp_ge (x / x0 - 1)) as G.
  apply Rle_trans with (x0 * (1 + (x / x0 - 1))); [right; field; lra|]. apply Rmult_le_compat_l; lra.
Qed.
Lemma reg_arg_below x0 x : 0 < x0 -> x < x0 -> reg_arg x0 x < x0.
Proof.
  intros H L. unfold reg_arg. rewrite (proj2 (Rltb_true _ _) L). assert (x / x0 - 1 < 0).
  { apply Rmult_lt_reg_l with x0; [assumption|]. replace (x0 * (x / x0 - 1)) with (x - x0) by (field; lra). lra. }
  pose proof (exp_inc _ _ H0) as G. rewrite exp_0 in G. nra.
Qed.
Lemma reg_arg_mono x0 x y : 0 < x0 -> x < y -> reg_arg x0 x < reg_arg x0 y.
Proof.
  intros H L. destruct (Rltb y x0) eqn:E.
  - apply Rltb_true in E. assert (x < x0) by lra. unfold reg_arg. rewrite !(proj2 (Rltb_true _ _)) by lra. apply Rmult_lt_compat_l; [assumption|]. apply exp_inc.
    apply Rplus_lt_compat_r. apply Rmult_lt_compat_r; [now apply Rinv_0_lt_compat|assumption].
  - apply Rltb_false in E. replace (reg_arg x0 y) with y by (unfold reg_arg; now rewrite (proj2 (Rltb_false _ _) E)).
    destruct (Rltb x x0) eqn:E'; [apply Rltb_true in E'; pose proof (reg_arg_below x0 x H E'); lra|]. unfold reg_arg. rewrite E'. assumption.
Qed.
Lemma exp_deriv x0 x : x0 <> 0 -> derivable_pt_lim (fun x => x0 * exp (x / x0 - 1)) x (exp (x / x0 - 1)).
Proof.
  intros H.
  assert (A : derivable_pt_lim (fun x => x / x0 - 1) x (/ x0)).
  { replace (/ x0) with (1 * / x0 + x * 0 - 0) by ring. apply derivable_pt_lim_minus with (f1 := fun x => x / x0) (f2 := fun _ => 1); [|apply derivable_pt_lim_const].
    apply derivable_pt_lim_mult with (f1 := fun x => x) (f2 := fun _ => / x0); [apply derivable_pt_lim_id|apply derivable_pt_lim_const]. }
  assert (B : derivable_pt_lim (fun x => exp (x / x0 - 1)) x (exp (x / x0 - 1) * / x0)).
  { apply (derivable_pt_lim_comp (fun x => x / x0 - 1) exp); [exact A|apply derivable_pt_lim_exp]. }
  replace (exp (x / x0 - 1)) with (0 * exp (x / x0 - 1) + x0 * (exp (x / x0 - 1) * / x0)) by (field; assumption).
  apply derivable_pt_lim_mult with (f1 := fun _ => x0) (f2 := fun x => exp (x / x0 - 1)); [apply derivable_pt_lim_const|exact B].
Qed.
(** two functions that agree with f on the two sides of a point have f's derivative there *)
Lemma glue (f g h : R -> R) a l : derivable_pt_lim g a l -> derivable_pt_lim h a l -> g a = f a -> h a = f a ->
  (exists d, 0 < d /\ forall x, Rabs (x - a) < d -> f x = g x \/ f x = h x) -> derivable_pt_lim f a l.
Proof.
  intros G H Eg Eh (d & D & A) e E. destruct (G e E) as (dg & Dg), (H e E) as (dh & Dh).
  assert (P : 0 < Rmin d (Rmin dg dh)) by (repeat apply Rmin_pos; try assumption; apply cond_pos).
  exists (mkposreal _ P). intros k K Lk. cbn in Lk.
  assert (Rabs k < d) by (eapply Rlt_le_trans; [exact Lk|apply Rmin_l]).
  assert (Rabs k < dg) by (eapply Rlt_le_trans; [exact Lk|eapply Rle_trans; [apply Rmin_r|apply Rmin_l]]).
  assert (Rabs k < dh) by (eapply Rlt_le_trans; [exact Lk|eapply Rle_trans; [apply Rmin_r|apply Rmin_r]]).
  destruct (A (a + k)) as [-> | ->]; [replace (a + k - a) with k by ring; assumption| |].
  - rewrite <- Eg. now apply Dg.
  - rewrite <- Eh. now apply Dh.
Qed.
(** the derivative of reg_arg *)
Definition reg_slope (x0 x : R) : R := if Rltb x x0 then exp (x / x0 - 1) else 1.
Lemma reg_arg_deriv x0 x : 0 < x0 -> derivable_pt_lim (reg_arg x0) x (reg_slope x0 x).
Proof.
  intros H. assert (Hx : x0 <> 0) by lra. unfold reg_slope. destruct (Rlt_or_le x x0) as [L|L].
  - rewrite (proj2 (Rltb_true _ _) L). apply (glue _ (fun x => x0 * exp (x / x0 - 1)) (fun x => x0 * exp (x / x0 - 1))); try (now apply exp_deriv); try (unfold reg_arg; now rewrite (proj2 (Rltb_true _ _) L)).
    exists (x0 - x). split; [lra|]. intros y Y. left. unfold reg_arg. rewrite (proj2 (Rltb_true _ _)); [reflexivity|]. apply Rabs_def2 in Y. lra.
  - rewrite (proj2 (Rltb_false _ _) L). destruct (Req_dec x x0) as [->|N].
    + assert (E : exp (x0 / x0 - 1) = 1) by (replace (x0 / x0 - 1) with 0 by (field; lra); apply exp_0).
      apply (glue _ (fun x => x0 * exp (x / x0 - 1)) (fun x => x)).
      * rewrite <- E at 1. now apply exp_deriv.
      * apply derivable_pt_lim_id.
      * unfold reg_arg. rewrite (proj2 (Rltb_false x0 x0)) by lra. rewrite E. ring.
      * unfold reg_arg. rewrite (proj2 (Rltb_false x0 x0)) by lra. reflexivity.
      * exists 1. split; [lra|]. intros y _. unfold reg_arg. destruct (Rltb y x0); [now left|now right].
    + apply (glue _ (fun x => x) (fun x => x)); try apply derivable_pt_lim_id; try (unfold reg_arg; now rewrite (proj2 (Rltb_false _ _) L)).
      exists (x - x0). split; [lra|]. intros y Y. left. unfold reg_arg. rewrite (proj2 (Rltb_false _ _)); [reflexivity|]. apply Rabs_def2 in Y. lra.
Qed.
Lemma sqrt_reg_deriv x0 x : 0 < x0 -> derivable_pt_lim (sqrt_reg x0) x (/ (2 * sqrt_reg x0 x) * reg_slope x0 x).
Proof.
  intros H. rewrite sqrt_reg_arg by assumption.
  assert (D : derivable_pt_lim (fun x => sqrt (reg_arg x0 x)) x (/ (2 * sqrt (reg_arg x0 x)) * reg_slope x0 x)).
  { apply (derivable_pt_lim_comp (reg_arg x0) sqrt); [now apply reg_arg_deriv|]. apply derivable_pt_lim_sqrt. now apply reg_arg_pos. }
  intros e E. destruct (D e E) as (d & Hd). exists d. intros k K L. rewrite !sqrt_reg_arg by assumption. now apply Hd.
Qed.

(** --- profiles --- *)
Lemma ascending_sorted t : ascending (map fst t) = true <-> sorted t.
Proof.
  induction t as [|[a x] [|[b y] t] IH]; cbn; try tauto. rewrite andb_true_iff, Rltb_true. cbn in IH. rewrite IH. intuition lra.
Qed.
Lemma Rleb_total a b : Rleb a b = true \/ Rleb b a = true.
Proof. rewrite !Rleb_true. lra. Qed.
Lemma Rleb_trans a b c : Rleb a b = true -> Rleb b c = true -> Rleb a c = true.
Proof. rewrite !Rleb_true. lra. Qed.
Lemma combine_gather (rows : list (R * R)) o : combine (gather 0 (map fst rows) o) (gather 0 (map snd rows) o) = gather (0, 0) rows o.
Proof.
  unfold gather. induction o as [|k o IH]; cbn; [reflexivity|]. rewrite IH. f_equal.
  rewrite (map_nth fst rows (0, 0) k : nth k (map fst rows) 0 = _), (map_nth snd rows (0, 0) k : nth k (map snd rows) 0 = _). now destruct (nth k rows (0, 0)).
Qed.
Lemma gather_perm_list {A} (d : A) l o : isperm (length l) o -> Permutation (gather d l o) l.
Proof.
  intros P. rewrite <- (gather_seq d l) at 2. unfold gather. now apply Permutation_map.
Qed.
Lemma sorted_nth t : (forall i j, (i < j)%nat -> (j < length t)%nat -> fst (nth i t (0, 0)) < fst (nth j t (0, 0))) -> sorted t.
Proof.
  induction t as [|[a x] [|[b y] t] IH]; intros H; cbn; auto. split; [apply (H 0%nat 1%nat); cbn; lia|]. apply IH. intros i j I J. apply (H (S i) (S j)); cbn in *; lia.
Qed.
Lemma prof_data_spec rows : NoDup (map fst rows) -> sorted (prof_data rows) /\ Permutation (prof_data rows) rows.
Proof.
  intros N. unfold prof_data. cbn zeta. destruct (ascending (map fst rows)) eqn:A; [split; [now apply ascending_sorted|reflexivity]|].
  rewrite combine_gather. set (o := argsort Rleb (map fst rows)). pose proof (argsort_perm Rleb (map fst rows)) as P. fold o in P. rewrite map_length in P.
  assert (Lo := perm_length _ _ P). split; [|now apply gather_perm_list].
  apply sorted_nth. intros i j I J. rewrite gather_length in J. rewrite !nth_gather by lia.
  pose proof (argsort_sorted Rleb Rleb_total Rleb_trans (map fst rows) 0 i j I) as S0. rewrite map_length in S0. specialize (S0 ltac:(lia)). fold o in S0.
  rewrite (map_nth fst rows (0, 0) _ : nth (nth i o 0%nat) (map fst rows) 0 = _), (map_nth fst rows (0, 0) _ : nth (nth j o 0%nat) (map fst rows) 0 = _) in S0.
  apply Rleb_true in S0. destruct S0 as [S0|S0]; [exact S0|]. exfalso.
  assert (Bi : (nth i o 0 < length rows)%nat) by (apply (perm_nth_lt _ _ _ P); lia). assert (Bj : (nth j o 0 < length rows)%nat) by (apply (perm_nth_lt _ _ _ P); lia).
  assert (E : nth i o 0%nat = nth j o 0%nat).
  { apply (proj1 (NoDup_nth (map fst rows) 0) N); rewrite ?map_length; try assumption.
    now rewrite (map_nth fst rows (0, 0) _ : nth (nth i o 0%nat) (map fst rows) 0 = _), (map_nth fst rows (0, 0) _ : nth (nth j o 0%nat) (map fst rows) 0 = _). }
  apply (proj1 (NoDup_nth o 0%nat) (perm_nodup _ _ P)) in E; lia.
Qed.
Lemma sorted_unique : forall t t' : list (R * R), sorted t -> sorted t' -> Permutation t t' -> t = t'.
Proof.
  induction t as [|[a x] t IH]; intros t' S0 S1 P; [apply Permutation_nil in P; now subst|]. destruct t' as [|[b y] t']; [symmetry in P; now apply Permutation_nil in P|].
  assert (E : (a, x) = (b, y)).
  { assert (I : In (a, x) ((b, y) :: t')) by (eapply Permutation_in; [exact P|now left]). destruct I as [E|I]; [now symmetry|].
    assert (J : In (b, y) ((a, x) :: t)) by (eapply Permutation_in; [symmetry; exact P|now left]). destruct J as [E|J]; [exact E|].
    pose proof (sorted_le _ _ _ S0 _ _ J). pose proof (sorted_le _ _ _ S1 _ _ I). lra. }
  injection E as <- <-. f_equal. apply Permutation_cons_inv in P. apply IH; [now apply sorted_tail in S0|now apply sorted_tail in S1|assumption].
Qed.
Lemma sorted_nodup t : sorted t -> NoDup (map fst t).
Proof.
  induction t as [|[a x] t IH]; intros S0; cbn; [constructor|]. constructor; [|apply IH; now apply sorted_tail in S0].
  intros I. apply in_map_iff in I as ([b y] & E & J). cbn in E. subst. pose proof (sorted_le _ _ _ S0 _ _ J). lra.
Qed.
Lemma interp_from_curve : forall t z0 v0 h, sorted ((z0, v0) :: t) -> z0 <= h <= fst (last ((z0, v0) :: t) (0, 0)) -> on_curve ((z0, v0) :: t) h (interp_from ((z0, v0) :: t) h).
Proof.
  induction t as [|[z1 v1] t IH]; intros z0 v0 h S0 B.
  - cbn in B |- *. exists z0, v0, z0, v0. repeat split; try (now left); try lra. intros z w [E|[]]. injection E as <- <-. lra.
  - cbn [interp_from]. pose proof S0 as (L & S1). destruct (Rltb h z1) eqn:E.
    + apply Rltb_true in E. exists z0, v0, z1, v1. repeat split; try lra; [now left|right; now left| |field; lra].
      intros z w [I|[I|I]]; [injection I as <- <-; lra|injection I as <- <-; lra|]. right. left. now apply (sorted_le _ _ _ S1 _ w).
    + apply Rltb_false in E. destruct (IH z1 v1 h S1) as (a & b & c & d & I & J & K & M & Q & U).
      { split; [assumption|]. apply B. }
      exists a, b, c, d. repeat split; try (now right); try apply K; try assumption. intros z w [X|X]; [|now apply (M z w)]. injection X as <- <-.
      left. destruct I as [I|I]; [injection I as <- <-; lra|]. apply (sorted_le _ _ _ S1) in I. lra.
Qed.
Lemma last_in {A} (d : A) l : l <> [] -> In (last l d) l.
Proof. induction l as [|a [|b l] IH]; intros N; [congruence|now left|]. right. apply IH. discriminate. Qed.
Lemma interp1d_spec t h : t <> [] -> sorted t ->
  match interp1d t h with Ok v => on_curve t h v | Err e => e = ValueError /\ ((forall z w, In (z, w) t -> h < z) \/ (forall z w, In (z, w) t -> z < h)) end.
Proof.
  intros N S0. destruct t as [|[z0 v0] t]; [congruence|]. unfold interp1d. destruct (Rltb h z0) eqn:E.
  - apply Rltb_true in E. split; [reflexivity|left]. intros z w [I|I]; [injection I as <- <-; assumption|]. apply (sorted_le _ _ _ S0) in I. lra.
  - apply Rltb_false in E. destruct (Rltb (fst (last ((z0, v0) :: t) (0, 0))) h) eqn:E'.
    + apply Rltb_true in E'. split; [reflexivity|right]. intros z w I. apply (sorted_last _ (0, 0) S0) in I. lra.
    + apply Rltb_false in E'. apply interp_from_curve; [assumption|split; assumption].
Qed.
Lemma same_value (rows : list (R * R)) : NoDup (map fst rows) -> forall z a b, In (z, a) rows -> In (z, b) rows -> a = b.
Proof.
  induction rows as [|[z a] rows IH]; intros N z' b c I J; [destruct I|]. inversion N as [|? ? N1 N2]; subst. destruct I as [I|I], J as [J|J].
  - congruence.
  - injection I as -> ->. exfalso. apply N1. apply in_map_iff. exists (z', c). auto.
  - injection J as -> ->. exfalso. apply N1. apply in_map_iff. exists (z', b). auto.
  - now apply (IH N2 z').
Qed.
Lemma on_curve_node rows h v w : NoDup (map fst rows) -> on_curve rows h v -> In (h, w) rows -> v = w.
Proof.
  intros N (z0 & v0 & z1 & v1 & I0 & I1 & B & M & Q & U) I. destruct (Req_dec z0 z1) as [E|E].
  - assert (Ez : z0 = h) by lra. rewrite U by assumption. rewrite Ez in I0. now apply (same_value rows N h).
  - destruct (M _ _ I) as [A|A].
    + assert (z0 = h) by lra. subst. rewrite <- (same_value rows N h v0 w) by assumption. apply Rmult_eq_reg_r with (z1 - h); [|lra]. nra.
    + assert (z1 = h) by lra. subst. rewrite <- (same_value rows N h v1 w) by assumption. apply Rmult_eq_reg_r with (h - z0); [|lra]. nra.
Qed.
Lemma on_curve_unique rows h v v' : NoDup (map fst rows) -> on_curve rows h v -> on_curve rows h v' -> v = v'.
Proof.
  intros N C C'. pose proof C as (z0 & v0 & z1 & v1 & I0 & I1 & B & M & Q & U). pose proof C' as (y0 & w0 & y1 & w1 & J0 & J1 & B' & M' & Q' & U').
  destruct (Req_dec z0 h) as [<-|N0]; [rewrite (on_curve_node rows z0 v v0 N C I0); symmetry; now apply (on_curve_node rows z0)|].
  destruct (Req_dec z1 h) as [<-|N1]; [rewrite (on_curve_node rows z1 v v1 N C I1); symmetry; now apply (on_curve_node rows z1)|].
  destruct (Req_dec y0 h) as [<-|K0]; [rewrite (on_curve_node rows y0 v w0 N C J0); symmetry; now apply (on_curve_node rows y0)|].
  destruct (Req_dec y1 h) as [<-|K1]; [rewrite (on_curve_node rows y1 v w1 N C J1); symmetry; now apply (on_curve_node rows y1)|].
  assert (z0 = y0) by (destruct (M _ _ J0), (M' _ _ I0); lra). assert (z1 = y1) by (destruct (M _ _ J1), (M' _ _ I1); lra). subst.
  assert (E0 := same_value rows N y0 v0 w0 I0 J0). assert (E1 := same_value rows N y1 v1 w1 I1 J1). subst. apply Rmult_eq_reg_r with (y1 - y0); lra.
Qed.
Lemma on_curve_perm rows rows' h v : Permutation rows rows' -> on_curve rows h v -> on_curve rows' h v.
Proof.
  intros P (z0 & v0 & z1 & v1 & I0 & I1 & B & M & Q). exists z0, v0, z1, v1. repeat split; try apply B; try apply Q; try (eapply Permutation_in; eassumption).
  intros z w I. apply (M z w). eapply Permutation_in; [symmetry; exact P|exact I].
Qed.
Lemma profile_spec rows h : rows <> [] -> NoDup (map fst rows) ->
  match profile rows h with Ok v => on_curve rows h v | Err e => e = ValueError /\ ((forall z w, In (z, w) rows -> h < z) \/ (forall z w, In (z, w) rows -> z < h)) end.
Proof.
  intros E N. destruct (prof_data_spec rows N) as (S0 & P). unfold profile.
  assert (E' : prof_data rows <> []) by (intros X; rewrite X in P; apply Permutation_nil in P; congruence).
  pose proof (interp1d_spec (prof_data rows) h E' S0) as G. destruct (interp1d (prof_data rows) h) as [v|e].
  - eapply on_curve_perm; eassumption.
  - destruct G as (G1 & [G|G]); split; auto; [left|right]; intros z w I; apply (G z w); (eapply Permutation_in; [symmetry; exact P|exact I]).
Qed.

(** --- hub data --- *)
Section Hub.
  Context {T F P : Type}.
  Variable amb : P -> R.
  Variable hub : T -> P.
  Variable ev : T -> R -> F.
  Variable ms : list (swake T F P).
  Notation cell := (@cell T F R R).
  Notation pr := (fun c : cell => (c_t c, c_f c)).
  Lemma adds_none s l : Forall (fun c => c = None) l -> forall d, fold_left (add_wake s) l d = d.
  Proof. induction 1 as [|c l -> _ IH]; intros d; cbn; auto. Qed.
  Lemma point_value_none a b p : (forall m, In m ms -> forall s, In s b -> sm_c m (fst s) (snd s) p = None) ->
    point_value amb ms (a ++ b) p = point_value amb ms a p.
  Proof.
    unfold point_value. generalize (amb p) as x. induction ms as [|m l IH]; intros x H; cbn [fold_left]; [reflexivity|].
    rewrite map_app. replace (final_wake (sm_s m) (sm_quad m) (sm_low m) (sm_high m) x (map (fun tf => sm_c m (fst tf) (snd tf) p) a ++ map (fun tf => sm_c m (fst tf) (snd tf) p) b))
      with (final_wake (sm_s m) (sm_quad m) (sm_low m) (sm_high m) x (map (fun tf => sm_c m (fst tf) (snd tf) p) a)).
    - apply IH. intros m' I. apply H. now right.
    - unfold final_wake, wake_delta. rewrite fold_left_app. rewrite adds_none with (l := map _ b); [reflexivity|].
      apply Forall_map, Forall_forall. intros s I. apply H; [now left|assumption].
  Qed.
  Lemma down_tail_t (w : @wmodel T F R R) n : forall l : list cell, map (@c_t T F R R) (down_tail ev w l n) = map (@c_t T F R R) l.
  Proof. induction n as [|n IH]; intros [|c l]; cbn; auto. f_equal. rewrite IH, map_map. reflexivity. Qed.
  Lemma down_pass_t (w : @wmodel T F R R) (l : list cell) : map (@c_t T F R R) (down_pass ev w l) = map (@c_t T F R R) l.
  Proof. destruct l as [|c l]; cbn; auto. f_equal. rewrite down_tail_t, map_map. reflexivity. Qed.
  Lemma hub_tail_spec own w : forall n l done, n = length l ->
    (forall m, In m ms -> forall i j t t', (i <= j)%nat -> nth_error (map (@c_t T F R R) l) i = Some t -> nth_error (map (@c_t T F R R) l) j = Some t' -> forall f, sm_c m t' f (hub t) = None) ->
    hub_tail amb hub ev ms own w done l n = map (fun c => hub_value amb hub ms (done ++ down_tail ev w l n) (c_t c)) l.
  Proof.
    induction n as [|n IH]; intros [|c l] done E H; cbn in E; try lia; [reflexivity|]. cbn [hub_tail down_tail map]. injection E as E. f_equal.
    - unfold hub_value. rewrite !map_app. rewrite !point_value_none; [reflexivity| |].
      + intros m M s I. apply in_map_iff in I as (x & <- & I). cbn [fst snd].
        assert (J : In (c_t x) (map (@c_t T F R R) (c :: l))).
        { destruct I as [<-|I]; [now left|]. right. apply in_map with (f := @c_t T F R R) in I. now rewrite down_tail_t, map_map in I. }
        apply In_nth_error in J as (j & J). apply (H m M 0%nat j); [lia|reflexivity|exact J].
      + intros m M s I. apply in_map_iff in I as (x & <- & I). cbn [fst snd].
        assert (J : In (c_t x) (map (@c_t T F R R) (c :: l))) by (destruct I as [<-|I]; [left; now destruct own|right; now apply in_map]).
        apply In_nth_error in J as (j & J). apply (H m M 0%nat j); [lia|reflexivity|exact J].
    - rewrite IH; [|now rewrite map_length|].
      + rewrite map_map. apply map_ext. intros x. now rewrite <- app_assoc.
      + intros m M i j t t' L A B. rewrite map_map in A, B. cbn in A, B. apply (H m M (S i) (S j)); [lia|exact A|exact B].
  Qed.
  Lemma fold_pass_t (ws : list (@wmodel T F R R)) : (forall w, In w ws -> w_down w = true) -> forall l : list cell, map (@c_t T F R R) (fold_left (fun l w => pass ev w l) ws l) = map (@c_t T F R R) l.
  Proof.
    induction ws as [|w ws IH]; intros H l; cbn; [reflexivity|]. rewrite IH by (intros; apply H; now right). unfold pass. rewrite (H w) by now left. rewrite down_pass_t, map_map. reflexivity.
  Qed.
  Lemma run_down_all (ws : list (@wmodel T F R R)) : (forall w, In w ws -> w_down w = true) -> forall sd l, run_models ev ws sd false l = Ok (fold_left (fun l w => pass ev w l) ws l).
  Proof.
    induction ws as [|w ws IH]; intros H sd l; cbn [run_models fold_left]; [reflexivity|]. rewrite (H w) by now left. cbn [negb orb]. rewrite orb_true_r. cbn [andb]. apply IH. intros; apply H; now right.
  Qed.
  Lemma hub_data_spec own ts fs : ms <> [] -> hubs_downstream hub ms ts ->
    calc_downwind (fun t => amb (hub t)) ev 0 (map (as_wmodel amb hub) ms) ts = Ok fs ->
    hub_data amb hub ev ms own ts = map (fun t => point_value amb ms (combine ts fs) (hub t)) ts.
  Proof.
    intros N H E. unfold calc_downwind in E. rewrite run_down_all in E by (intros w I; apply in_map_iff in I as (m & <- & _); reflexivity). cbn [bind] in E. injection E as <-.
    unfold hub_data. set (wms := map (as_wmodel amb hub) ms). set (cells := start (fun t => amb (hub t)) ev (fun _ => 0) ts).
    set (dw := mkw true (fun _ => 0) (fun _ _ _ d => d) (fun _ w _ => w)).
    assert (Nw : wms <> []) by (unfold wms; destruct ms; [congruence|discriminate]).
    assert (Dw : forall w, In w wms -> w_down w = true) by (intros w I; apply in_map_iff in I as (m & <- & _); reflexivity).
    assert (Ef : fold_left (fun l w => pass ev w l) wms cells = pass ev (last wms dw) (fold_left (fun l w => pass ev w l) (removelast wms) cells)).
    { rewrite (app_removelast_last dw Nw) at 1. rewrite fold_left_app. reflexivity. }
    rewrite Ef. clear Ef.
    set (w := last wms dw). set (l1 := fold_left (fun l w => pass ev w l) (removelast wms) cells).
    assert (Dl : w_down w = true) by (apply Dw; unfold w; now apply last_in).
    assert (T1 : map (@c_t T F R R) l1 = ts).
    { unfold l1. rewrite fold_pass_t by (intros x I; apply Dw; rewrite (app_removelast_last dw Nw); apply in_or_app; now left). unfold cells, start. rewrite map_map. cbn. apply map_id. }
    unfold pass. rewrite Dl. set (l0 := map (fresh w) l1). assert (T0 : map (@c_t T F R R) l0 = ts) by (unfold l0; rewrite map_map; exact T1).
    assert (Tp : map (@c_t T F R R) (down_pass ev w l0) = ts) by (rewrite down_pass_t; exact T0).
    assert (Cp : combine ts (map (@c_f T F R R) (down_pass ev w l0)) = map pr (down_pass ev w l0)).
    { rewrite <- Tp at 1. clear. induction (down_pass ev w l0) as [|c l IH]; cbn; [reflexivity|]. now rewrite IH. }
    rewrite Cp. destruct ts as [|t ts]; [reflexivity|]. destruct l0 as [|c l'] eqn:El; [discriminate|]. cbn [map] in T0. injection T0 as Tc Tl.
    assert (Hall : forall m, In m ms -> forall x, In x (t :: ts) -> forall f, sm_c m x f (hub t) = None).
    { intros m M x I f. apply In_nth_error in I as (j & J). apply (H m M 0%nat j t x); [lia|reflexivity|exact J]. }
    assert (Hz : forall b : list cell, (forall x, In x b -> In (c_t x) (t :: ts)) -> point_value amb ms (map pr b) (hub t) = point_value amb ms [] (hub t)).
    { intros b B. apply (point_value_none [] (map pr b)). intros m M s I. apply in_map_iff in I as (x & <- & I). cbn [fst snd]. apply Hall; [assumption|now apply B]. }
    set (fin := down_pass ev w (c :: l')) in *. change (hub_value amb hub ms cells t :: hub_tail amb hub ev ms own w [c] (map (contrib_cell w c) l') (length l') =
      point_value amb ms (map pr fin) (hub t) :: map (fun t => point_value amb ms (map pr fin) (hub t)) ts). f_equal.
    - unfold hub_value. rewrite !Hz; [reflexivity| |].
      + intros x I. apply in_map with (f := @c_t T F R R) in I. now rewrite Tp in I.
      + intros x I. unfold cells, start in I. apply in_map_iff in I as (y & <- & I). exact I.
    - rewrite hub_tail_spec; [|now rewrite map_length|].
      + unfold fin. cbn [down_pass]. rewrite map_map. cbn [c_t contrib_cell]. rewrite <- Tl, map_map. reflexivity.
      + intros m M i j a b L A B. rewrite map_map in A, B. change (nth_error (map (@c_t T F R R) l') i = Some a) in A. change (nth_error (map (@c_t T F R R) l') j = Some b) in B. rewrite Tl in A, B. apply (H m M (S i) (S j)); [lia|exact A|exact B].
  Qed.
End Hub.
