(** Proofs for C266. *)
From Coq Require Import Permutation.
From Verif Require Import RBase WindDir_Model WindDir_Proofs Superp_Model Superp_Spec Superp_Proofs Order_Model Order_Spec Order_Proofs FarmWakes_Model AnyOrder_Model AnyOrder_Spec AnyOrder_Proofs
  Induction_Model Blockage_Model Curves_Model Curves_Spec Curves_Proofs Symm_Model Symm_Proofs Whole_Model Whole_Spec Whole_Proofs UpWake_Model UpWake_Spec UpWake_Proofs Both_Proofs Joint_Model Joint_Spec.

(** ** a sweep, turbine by turbine *)
Section Sweep.
  Context {T F D W : Type}.
  Variable am : T -> W.
  Variable e : T -> W -> F.
  Lemma gather_is (w : @wmodel T F D W) (g : nat -> T * F) j tj len : forall oi d,
    gather_contribs w j oi (map g (seq oi len)) tj d = fold_left (fun d m => w_contrib w (fst (g m)) (snd (g m)) tj d) (filter (fun m => negb (m =? j)) (seq oi len)) d.
  Proof.
    induction len as [|len IH]; intros oi d; [reflexivity|]. cbn [seq map gather_contribs filter]. destruct (g oi) as [t f] eqn:E. rewrite IH. destruct (oi =? j); cbn [negb fold_left]; [reflexivity|]. now rewrite E.
  Qed.
  Lemma sweep_from_is (ws : list (@wmodel T F D W)) srcs (t : nat -> T) len : forall j, sweep_from am e ws srcs j (map t (seq j len)) = map (fun k => e (t k) (all_models ws k srcs (t k) (am (t k)))) (seq j len).
  Proof. induction len as [|len IH]; intros j; [reflexivity|]. cbn [seq map sweep_from]. now rewrite IH. Qed.
  Lemma combine_map {A B C} (f : A -> B) (g : A -> C) l : combine (map f l) (map g l) = map (fun a => (f a, g a)) l.
  Proof. induction l as [|a l IH]; [reflexivity|]. cbn. now rewrite IH. Qed.
  Lemma seq_nth_all (o : list nat) : map (fun m => nth m o 0) (seq 0 (length o)) = o.
  Proof. apply (nth_ext _ _ 0 0); [now rewrite map_length, seq_length|]. intros k Hk. rewrite map_length, seq_length in Hk. rewrite (nth_indep _ 0 (nth 0 o 0)) by (now rewrite map_length, seq_length). rewrite (map_nth (fun m => nth m o 0)), seq_nth by exact Hk. reflexivity. Qed.
End Sweep.
Local Open Scope R_scope.
(** superposed wind speeds are what the specification says, whatever the signs *)
Lemma any_combination s a cs : is_ws s = true -> raw_final s false a (wake_delta s cs) = combination s false a cs.
Proof.
  intros E. unfold wake_delta. destruct s; try discriminate E; cbn [raw_final combination]; unfold absol, local in *.
  - rewrite (delta_sum WSLinear (fun c => fst c * snd c)) by (intros; try destruct c; reflexivity). ring.
  - rewrite (delta_sum WSLinearLocal snd) by (intros; try destruct c; reflexivity). ring.
  - rewrite (delta_sum WSQuadratic (fun c => (fst c * snd c) * (fst c * snd c))) by (intros; try destruct c; reflexivity). unfold sumsq. rewrite map_map, Rplus_0_l. reflexivity.
  - rewrite (delta_sum WSQuadraticLocal (fun c => snd c * snd c)) by (intros; try destruct c; reflexivity). unfold sumsq. rewrite map_map, Rplus_0_l. ring.
  - rewrite (delta_max WSMax (fun c => Rabs (fst c * snd c))) by (intros; try destruct c; try reflexivity; lra). rewrite map_map, Rmax_right by apply largest_nonneg. reflexivity.
  - rewrite (delta_max WSMaxLocal (fun c => Rabs (snd c))) by (intros; try destruct c; try reflexivity; lra). rewrite map_map, Rmax_right by apply largest_nonneg. ring.
  - rewrite (delta_sum (WSPow p) (fun c => npow (Rabs (fst c * snd c)) p)) by (intros; try destruct c; reflexivity). unfold sumpow. rewrite !map_map, Rplus_0_l. reflexivity.
  - rewrite (delta_sum (WSPowLocal p) (fun c => npow (Rabs (snd c)) p)) by (intros; try destruct c; reflexivity). unfold sumpow. rewrite !map_map, Rplus_0_l. ring.
Qed.
Lemma final_change c cs : is_ws (c_s c) = true -> final_delta (c_s c) false (c_low c) (c_high c) (c_wsp c) (wake_delta (c_s c) cs) = change c cs.
Proof. intros H. unfold final_delta, change. rewrite H, any_combination by exact H. rewrite <- limited_clamp. ring. Qed.

Section Calc.
Variables (g : jset) (farm : list (turb ttype)).
Hypothesis HG : good_joint g.
Hypothesis HF : good_farm farm.
Let c := j_c g.
Let cb := blockage_scene g.
Let n := length farm.
Let tb (i : nat) := nth i farm no_turb.
Let o := joint_order g farm.
Let ambt : turb ttype -> R := amb amb_ws (uniform c).
Let evt : turb ttype -> R -> tres := ev turbine_results.
Let wd := as_model centre_points (uniform c) (deficit_model g).
Let wb := as_model centre_points (uniform c) (blockage_model g).

Lemma j_perm : isperm n o.
Proof. unfold o, joint_order. pose proof (argsort_perm Rleb (along (uniform (j_c g)) farm)) as P. unfold along in P. cbv zeta in P. rewrite map_length in P. exact P. Qed.
Lemma j_len : length o = n.
Proof. exact (perm_length _ _ j_perm). Qed.
Lemma wd_contrib s f t d : In s farm -> w_contrib wd s f t d = add_wake (c_s c) d (effect c s f t).
Proof. intros I. destruct (HF s I) as [Y Dm]. rewrite <- (effect_ok c s f t) by (assumption || apply HG). reflexivity. Qed.
Lemma wb_contrib s f t d : w_contrib wb s f t d = add_wake (c_s cb) d (block_effect cb (j_b g) s f t).
Proof. rewrite <- (contrib_effect cb) by apply HG. reflexivity. Qed.
Lemma tb_in i : (i < n)%nat -> In (tb i) farm.
Proof. intros H. now apply nth_In. Qed.

Section One.
Variable res : list tres.
Let src (m : nat) : turb ttype * tres := (tb (nth m o 0%nat), nth (nth m o 0%nat) res no_res).
Lemma src_is : combine (gather no_turb farm o) (gather no_res res o) = map src (seq 0 n).
Proof.
  unfold gather. rewrite combine_map. rewrite <- (seq_nth_all o) at 1. rewrite map_map, j_len. reflexivity.
Qed.
Lemma fold_map {A B} (f : A -> B -> A) (h : nat -> B) l a : fold_left (fun d m => f d (h m)) l a = fold_left f (map h l) a.
Proof. revert a. induction l as [|x l IH]; intros a; [reflexivity|]. cbn. apply IH. Qed.
Lemma gather_delta s (w : @wmodel (turb ttype) tres R R) (eff : turb ttype -> tres -> turb ttype -> contrib) k :
  (forall i f t d, (i < n)%nat -> w_contrib w (tb i) f t d = add_wake s d (eff (tb i) f t)) -> (k < n)%nat ->
  gather_contribs w k 0 (map src (seq 0 n)) (tb (nth k o 0%nat)) 0 = wake_delta s (map (fun i => eff (tb i) (nth i res no_res) (tb (nth k o 0%nat))) (filter (fun i => negb (i =? nth k o 0)%nat) (seq 0 n))).
Proof.
  intros Hw Hk. rewrite gather_is. cbn [src fst snd].
  transitivity (fold_left (add_wake s) (map (fun m => eff (tb (nth m o 0%nat)) (nth (nth m o 0%nat) res no_res) (tb (nth k o 0%nat))) (filter (fun m => negb (m =? k)%nat) (seq 0 n))) 0).
  - rewrite <- fold_map. apply fold_ext_in. intros m I d. apply filter_In in I as [I _]. apply in_seq in I. apply Hw. apply (perm_nth_lt n); [exact j_perm|lia].
  - change (wake_delta s (map (fun m => eff (tb (nth m o 0%nat)) (nth (nth m o 0%nat) res no_res) (tb (nth k o 0%nat))) (filter (fun m => negb (m =? k)%nat) (seq 0 n))) = wake_delta s (map (fun i => eff (tb i) (nth i res no_res) (tb (nth k o 0%nat))) (filter (fun i => negb (i =? nth k o 0)%nat) (seq 0 n)))).
    apply wake_delta_perm. pose proof (renum_others farm o j_perm k Hk) as P. fold n in P. rewrite <- (Permutation_map _ P), map_map. reflexivity.
Qed.
Lemma delta_d k : (k < n)%nat -> gather_contribs wd k 0 (map src (seq 0 n)) (tb (nth k o 0%nat)) 0 = wake_delta (c_s c) (other_wakes c farm res (nth k o 0%nat)).
Proof. intros Hk. apply (gather_delta (c_s c) wd (effect c)); [|exact Hk]. intros i f t d Hi. apply wd_contrib. now apply tb_in. Qed.
Lemma delta_b k : (k < n)%nat -> gather_contribs wb k 0 (map src (seq 0 n)) (tb (nth k o 0%nat)) 0 = wake_delta (c_s cb) (other_effects cb (j_b g) farm res (nth k o 0%nat)).
Proof. intros Hk. apply (gather_delta (c_s cb) wb (block_effect cb (j_b g))); [|exact Hk]. intros i f t d Hi. apply wb_contrib. Qed.
Lemma models_left ms k : both_models g ms -> (k < n)%nat -> all_models (joint_wakes g ms) k (map src (seq 0 n)) (tb (nth k o 0%nat)) (ambt (tb (nth k o 0%nat))) = left_over g farm res (nth k o 0%nat).
Proof.
  intros Hm Hk. set (t := tb (nth k o 0%nat)). change (ambt t) with (c_wsp c). assert (S1 : is_ws (c_s c) = true) by apply HG. assert (S2 : is_ws (c_s cb) = true) by apply HG.
  assert (A1 : forall x, w_add wd t x (gather_contribs wd k 0 (map src (seq 0 n)) t (w_new wd t)) = x + change c (other_wakes c farm res (nth k o 0%nat))).
  { intros x. change (w_new wd t) with 0. unfold t. rewrite delta_d by exact Hk. rewrite <- final_change by exact S1. reflexivity. }
  assert (A2 : forall x, w_add wb t x (gather_contribs wb k 0 (map src (seq 0 n)) t (w_new wb t)) = x + change cb (other_effects cb (j_b g) farm res (nth k o 0%nat))).
  { intros x. change (w_new wb t) with 0. unfold t. rewrite delta_b by exact Hk. rewrite <- final_change by exact S2. reflexivity. }
  unfold left_over. fold c cb. destruct Hm as [-> | ->]; cbn [joint_wakes map all_models]; fold c wd wb; rewrite A1, A2; ring.
Qed.
Lemma next_is ms : both_models g ms -> next_results g ms farm res = map (fun i => turbine_results (t_set (tb i)) (left_over g farm res i)) (seq 0 n).
Proof.
  intros Hm. unfold next_results, in_farm_order, sweep. fold o. rewrite src_is. assert (G : gather no_turb farm o = map (fun k => tb (nth k o 0%nat)) (seq 0 n)).
  { unfold gather. rewrite <- (seq_nth_all o) at 1. rewrite map_map, j_len. reflexivity. }
  rewrite G, sweep_from_is. apply (nth_ext _ _ no_res no_res); [rewrite gather_length, invert_length, map_length, seq_length; exact j_len|]. intros i Hi. rewrite gather_length, invert_length, j_len in Hi.
  rewrite nth_gather by (rewrite invert_length, j_len; exact Hi). destruct (order_invert n o i j_perm Hi) as [K E]. rewrite (u_nth farm) by exact K. rewrite (u_nth farm) by exact Hi.
  fold c. fold ambt. rewrite models_left by assumption. rewrite E. reflexivity.
Qed.
End One.
Lemma sweeps_length ms k : length (sweeps ambt evt (joint_wakes g ms) (gather no_turb farm o) k) = n.
Proof.
  destruct k; cbn [sweeps]; [rewrite map_length, gather_length; exact j_len|]. unfold sweep. assert (L : forall (ws : list (@wmodel (turb ttype) tres R R)) srcs ts j, length (sweep_from ambt evt ws srcs j ts) = length ts) by (induction ts; intros; cbn; [reflexivity|]; now rewrite IHts). rewrite L, gather_length. exact j_len.
Qed.
Lemma back l : length l = n -> gather no_res (in_farm_order o l) o = l.
Proof.
  intros L. pose proof j_len as Lo. apply (nth_ext _ _ no_res no_res); [rewrite gather_length; lia|]. intros k Hk. rewrite gather_length, Lo in Hk. rewrite nth_gather by (rewrite Lo; exact Hk). unfold in_farm_order. assert (K : (nth k o 0 < n)%nat) by (apply (perm_nth_lt n); [exact j_perm|exact Hk]).
  rewrite nth_gather by (rewrite invert_length, Lo; exact K). now rewrite (invert_order n) by (exact j_perm || exact Hk).
Qed.
Lemma joint_next ms k : joint_results g ms farm (S k) = next_results g ms farm (joint_results g ms farm k).
Proof. unfold next_results, joint_results. fold o c ambt evt. rewrite back by apply sweeps_length. reflexivity. Qed.
Lemma joint_start ms : joint_results g ms farm 0 = map (fun i => turbine_results (t_set (tb i)) (c_wsp c)) (seq 0 n).
Proof.
  unfold joint_results, in_farm_order. fold o. cbn [sweeps]. apply (nth_ext _ _ no_res no_res); [rewrite gather_length, invert_length, map_length, seq_length; exact j_len|]. intros i Hi. rewrite gather_length, invert_length, j_len in Hi.
  rewrite nth_gather by (rewrite invert_length, j_len; exact Hi). destruct (order_invert n o i j_perm Hi) as [K E]. rewrite (u_nth farm) by exact Hi. rewrite (nth_indep _ no_res (ev turbine_results no_turb (amb amb_ws (uniform (j_c g)) no_turb))) by (rewrite map_length, gather_length, j_len; exact K).
  rewrite (map_nth (fun t => ev turbine_results t (amb amb_ws (uniform (j_c g)) t))). rewrite nth_gather by (rewrite j_len; exact K). rewrite E. reflexivity.
Qed.
Lemma follows_is old new : follows g farm old new <-> new = map (fun i => turbine_results (t_set (tb i)) (left_over g farm old i)) (seq 0 n).
Proof.
  split.
  - intros [L H]. apply (nth_ext _ _ no_res no_res); [now rewrite map_length, seq_length|]. intros i Hi. rewrite L in Hi. rewrite (u_nth farm) by exact Hi. destruct (H i Hi) as (A & B & C). fold (tb i) in B, C. unfold turbine_results, value. rewrite B, C. rewrite <- A. now destruct (nth i new no_res).
  - intros ->. split; [now rewrite map_length, seq_length|]. intros i Hi. rewrite (u_nth farm) by exact Hi. destruct (HF (tb i) (tb_in i Hi)) as [(Y1 & Y2 & _) _]. cbn [turbine_results r_ws r_ct r_p]. split; [reflexivity|]. split; apply value_ok; assumption.
Qed.
Lemma start_is new : undisturbed g farm new <-> new = map (fun i => turbine_results (t_set (tb i)) (c_wsp c)) (seq 0 n).
Proof.
  split.
  - intros [L H]. apply (nth_ext _ _ no_res no_res); [now rewrite map_length, seq_length|]. intros i Hi. rewrite L in Hi. rewrite (u_nth farm) by exact Hi. destruct (H i Hi) as (A & B & C). fold (tb i) in B, C. unfold turbine_results, value. fold c in A, B, C. rewrite B, C. rewrite <- A. now destruct (nth i new no_res).
  - intros ->. split; [now rewrite map_length, seq_length|]. intros i Hi. rewrite (u_nth farm) by exact Hi. destruct (HF (tb i) (tb_in i Hi)) as [(Y1 & Y2 & _) _]. cbn [turbine_results r_ws r_ct r_p]. split; [reflexivity|]. split; apply value_ok; assumption.
Qed.
End Calc.
(** ** the numbering of the turbines *)
Section Renumber.
Variables (g : jset) (farm : list (turb ttype)) (p : list nat).
Let n := length farm.
Hypothesis HP : isperm n p.
Lemma left_renum old j : (j < n)%nat -> left_over g (gather no_turb farm p) (gather no_res old p) j = left_over g farm old (nth j p 0%nat).
Proof.
  intros Hj. assert (Lg : length (gather no_turb farm p) = n) by (rewrite gather_length; exact (p_len farm p HP)).
  assert (E : forall eff : turb ttype -> tres -> turb ttype -> contrib,
    Permutation (map (fun i => eff (nth i (gather no_turb farm p) no_turb) (nth i (gather no_res old p) no_res) (nth j (gather no_turb farm p) no_turb)) (filter (fun i => negb (Nat.eqb i j)) (seq 0 n)))
                (map (fun i => eff (nth i farm no_turb) (nth i old no_res) (nth (nth j p 0%nat) farm no_turb)) (filter (fun i => negb (Nat.eqb i (nth j p 0%nat))) (seq 0 n)))).
  { intros eff. pose proof (renum_others farm p HP j Hj) as P. fold n in P. rewrite <- (Permutation_map _ P), map_map. erewrite map_ext_in; [reflexivity|]. intros i I. cbv beta. apply filter_In in I as [I _]. apply in_seq in I. rewrite !(renum_nth farm p HP) by (fold n; lia). reflexivity. }
  unfold left_over, change. f_equal; [f_equal|]; f_equal; f_equal; f_equal; apply combination_perm; unfold other_wakes, other_effects; rewrite Lg; fold n; apply E.
Qed.
Lemma follows_renum old new : follows g farm old new -> follows g (gather no_turb farm p) (gather no_res old p) (gather no_res new p).
Proof.
  intros [L H]. split; [now rewrite !gather_length|]. intros j Hj. rewrite gather_length, (p_len farm p HP) in Hj. fold n in Hj. rewrite left_renum by exact Hj. rewrite !(renum_nth farm p HP) by exact Hj. apply H. exact (p_lt farm p HP j Hj).
Qed.
Lemma start_renum new : undisturbed g farm new -> undisturbed g (gather no_turb farm p) (gather no_res new p).
Proof.
  intros [L H]. split; [now rewrite !gather_length|]. intros j Hj. rewrite gather_length, (p_len farm p HP) in Hj. fold n in Hj. rewrite !(renum_nth farm p HP) by exact Hj. apply H. exact (p_lt farm p HP j Hj).
Qed.
End Renumber.
(** ** thrust coefficients that do not change *)
Lemma change_range c l h cs : c_low c = Some l -> c_high c = Some h -> l <= h -> l - c_wsp c <= change c cs <= h - c_wsp c.
Proof. intros E F H. unfold change, limited. rewrite E, F. cbv zeta. unfold Rmin, Rmax. repeat destruct (Rle_dec _ _); lra. Qed.
Lemma effect_thrust c s f f' t : c_amb c = true -> r_ct f = r_ct f' -> effect c s f t = effect c s f' t.
Proof. intros A E. unfold effect. now rewrite A, E. Qed.
Lemma block_thrust c b s f f' t : c_amb c = true -> r_ct f = r_ct f' -> block_effect c b s f t = block_effect c b s f' t.
Proof. intros A E. unfold block_effect. now rewrite A, E. Qed.
Lemma left_thrust g farm r r' j : c_amb (j_c g) = true -> j_amb g = true -> (forall i, (i < length farm)%nat -> r_ct (nth i r no_res) = r_ct (nth i r' no_res)) -> left_over g farm r j = left_over g farm r' j.
Proof.
  intros A B H. unfold left_over. f_equal; [f_equal|]; f_equal.
  - apply map_ext_in. intros i I. apply filter_In in I as [I _]. apply in_seq in I. apply effect_thrust; [exact A|]. apply H. lia.
  - apply map_ext_in. intros i I. apply filter_In in I as [I _]. apply in_seq in I. apply block_thrust; [exact B|]. apply H. lia.
Qed.
Lemma follows_unique g farm old new new' : good_farm farm -> follows g farm old new -> follows g farm old new' -> new = new'.
Proof. intros HF H H'. apply follows_is in H; [|exact HF]. apply follows_is in H'; [|exact HF]. congruence. Qed.
(** thrust coefficients of results that follow from others are those of the ambient results *)
Lemma thrust_same g farm old new start : good_joint g -> good_farm farm -> constant_thrust g farm -> undisturbed g farm start -> follows g farm old new -> forall i, (i < length farm)%nat -> r_ct (nth i new no_res) = r_ct (nth i start no_res).
Proof.
  intros [G1 G2] HF (_ & _ & l1 & l2 & h1 & h2 & L1 & L2 & H1 & H2 & K) [_ S] [_ F] i Hi. destruct (S i Hi) as (_ & S2 & _). destruct (F i Hi) as (_ & F2 & _). rewrite K in F2; [rewrite S2 in F2; now injection F2|now apply nth_In|].
  destruct G1 as (_ & _ & _ & _ & _ & A1 & B1 & _). destruct G2 as (_ & _ & _ & _ & _ & A2 & B2 & _). specialize (A1 _ L1). specialize (B1 _ H1). specialize (A2 _ L2). specialize (B2 _ H2). cbn [blockage_scene c_wsp] in A2, B2.
  unfold left_over. pose proof (change_range (j_c g) l1 h1 (other_wakes (j_c g) farm old i) L1 H1 ltac:(lra)) as C1. pose proof (change_range (blockage_scene g) l2 h2 (other_effects (blockage_scene g) (j_b g) farm old i) L2 H2 ltac:(lra)) as C2. cbn [blockage_scene c_wsp] in C2. fold (blockage_scene g) in C2. lra.
Qed.
