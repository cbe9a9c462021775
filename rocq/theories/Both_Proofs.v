(** Proofs for C252. *)
From Coq Require Import Permutation Wf_nat.
From Verif Require Import RBase WindDir_Model WindDir_Proofs Superp_Model Superp_Spec Superp_Proofs Order_Model Order_Spec Order_Proofs FarmWakes_Model FarmWakes_Spec FarmWakes_Proofs FarmIter_Proofs
  AnyOrder_Model AnyOrder_Spec AnyOrder_Proofs Curves_Model Curves_Spec Curves_Proofs Symm_Model Symm_Proofs PointWakes_Proofs Whole_Model Whole_Spec Whole_Proofs Both_Model Both_Spec.

(** ** sweeps over several wake models solve the equations of all of them *)
Section Simul.
  Context {T F D W : Type}.
  Variable amb : T -> W.
  Variable ev : T -> W -> F.
  Variables (dT : T) (dF : F).
  Variable farm : list T.
  Variable ws : list (@wmodel T F D W).
  Variable o : list nat.
  Let n := length farm.
  Let tb (i : nat) : T := nth i farm dT.
  Hypothesis Hn : neutral ws.
  Hypothesis Hc : contributions_commute ws.
  Hypothesis Ha : admissible dT ws farm o.
  Definition src (wf : nat -> W) (j : nat) : T * F := (tb j, ev (tb j) (wf j)).
  Definition rhs (g : nat -> T * F) (js : list nat) (i : nat) : W := fold_left (fun x w => w_add w (tb i) x (deltas w (map g js) (tb i) (w_new w (tb i)))) ws (amb (tb i)).
  Definition solves_all (wf : nat -> W) : Prop := forall i, i < n -> wf i = rhs (src wf) (others farm i) i.
  Lemma fold_ext_in {A B} (f g : A -> B -> A) l : (forall b, In b l -> forall a, f a b = g a b) -> forall a, fold_left f l a = fold_left g l a.
  Proof. induction l as [|b l IH]; intros H a; [reflexivity|]. cbn. rewrite H by now left. apply IH. intros; apply H; now right. Qed.
  Lemma rhs_split wf k : k < n -> rhs (src wf) (others farm (nth k o 0)) (nth k o 0) = rhs (src wf) (firstn k o) (nth k o 0).
  Proof.
    intros K. destruct Ha as [P A]. unfold rhs. apply fold_ext_in. intros w Iw x. f_equal.
    exact (split_others amb ev dT farm w o (fun s f s' f' t d => Hc w Iw s f s' f' t d) P (fun k l H1 H2 f d => A k l H1 H2 w Iw f d) (src wf) k _ K (fun _ _ => eq_refl)).
  Qed.
  Lemma rhs_ext g g' js i : (forall j, In j js -> g j = g' j) -> rhs g js i = rhs g' js i.
  Proof. intros H. unfold rhs. apply fold_ext_in. intros w _ x. f_equal. f_equal. now apply map_ext_in. Qed.
  Lemma in_firstn_nth k j : In j (firstn k o) -> exists m, m < k /\ nth m o 0 = j /\ m < length o.
  Proof.
    intros J. destruct (In_nth _ _ 0 J) as (m & M & E). rewrite firstn_length in M. exists m. split; [lia|]. split; [|lia]. rewrite <- E. rewrite <- (firstn_skipn k o) at 1. rewrite app_nth1; [reflexivity|]. rewrite firstn_length. lia.
  Qed.
  Lemma solves_all_unique a b : solves_all a -> solves_all b -> forall i, i < n -> a i = b i.
  Proof.
    intros A B. destruct Ha as [P _]. fold n in P. assert (L := perm_length _ _ P). assert (G : forall k, k < n -> a (nth k o 0) = b (nth k o 0)).
    { induction k as [k IH] using lt_wf_ind. intros K. assert (I : nth k o 0 < n) by now apply (perm_nth_lt n). rewrite (A _ I), (B _ I), !rhs_split by exact K. apply rhs_ext. intros j J.
      destruct (in_firstn_nth k j J) as (m & M & <- & _). unfold src. rewrite (IH m) by lia. reflexivity. }
    intros i I. destruct (order_invert n o i P I) as (K & E). rewrite <- E. now apply G.
  Qed.
  Lemma downstream : acts_downstream ws (gather dT farm o).
  Proof.
    destruct Ha as [P A]. fold n in P, A. assert (L := perm_length _ _ P). intros w Iw i j t t' Hij Ei Ej f d.
    assert (Bj : j < n) by (rewrite <- L, <- (gather_length dT farm o); apply nth_error_Some; congruence).
    apply (nth_error_nth _ _ dT) in Ei. apply (nth_error_nth _ _ dT) in Ej. rewrite nth_gather in Ei by (unfold n in *; lia). rewrite nth_gather in Ej by (unfold n in *; lia). rewrite <- Ei, <- Ej. apply A; auto.
  Qed.
  Lemma nth_map_d {A B} (f : A -> B) l k d d' : k < length l -> nth k (map f l) d' = f (nth k l d).
  Proof. intros H. rewrite (nth_indep _ d' (f d)) by now rewrite map_length. apply map_nth. Qed.
  Lemma sweeps_solve k : length farm <= S k -> exists wf, solves_all wf /\ gather dF (sweeps amb ev ws (gather dT farm o) k) (invert o) = map (fun i => ev (tb i) (wf i)) (seq 0 n).
  Proof.
    intros Hk. destruct Ha as [P A]. fold n in P, A. assert (L := perm_length _ _ P). set (ts := gather dT farm o). assert (Lt : length ts = n) by (unfold ts; rewrite gather_length; exact L).
    rewrite (sweeps_all amb ev ws ts k downstream Hn) by (rewrite Lt; exact Hk). set (r := ideal amb ev ws [] ts). assert (Lr : length r = n) by (unfold r; rewrite ideal_length; exact Lt).
    set (wk := fun k => X amb ws (firstn k (combine ts r)) (tb (nth k o 0))). exists (fun i => wk (nth i (invert o) 0)).
    assert (Tk : forall k, k < n -> nth k ts dT = tb (nth k o 0)) by (intros m M; unfold ts; now rewrite nth_gather by lia).
    assert (Rk : forall k, k < n -> nth k r dF = ev (tb (nth k o 0)) (wk k)).
    { intros m M. unfold r at 1. rewrite (ideal_nth amb ev ws ts m (tb (nth m o 0)) dF dT) by (rewrite ?Lt; auto). reflexivity. }
    assert (Pk : forall k, k < n -> firstn k (combine ts r) = map (src (fun i => wk (nth i (invert o) 0))) (firstn k o)).
    { intros m M. apply (nth_ext _ _ (dT, dF) (dT, dF)); [rewrite map_length, !firstn_length, combine_length; lia|]. intros q Q. rewrite firstn_length, combine_length in Q.
      rewrite (nth_map_d _ _ _ 0) by (rewrite firstn_length; lia). assert (Nf : forall {B} (x : list B) d, q < m -> nth q (firstn m x) d = nth q x d).
      { intros B x d H. rewrite <- (firstn_skipn m x) at 2. destruct (Nat.lt_ge_cases q (length (firstn m x))) as [Z|Z]; [now rewrite app_nth1|]. rewrite firstn_length in Z. rewrite !nth_overflow; [reflexivity| |]; rewrite ?app_length, ?firstn_length, ?skipn_length; lia. }
      rewrite !Nf by lia. rewrite combine_nth by lia. unfold src. rewrite (invert_order n) by (auto; lia). rewrite Tk, Rk by lia. reflexivity. }
    split.
    - intros i I. destruct (order_invert n o i P I) as (K & E). set (m := nth i (invert o) 0) in *. cbv beta. rewrite <- E. rewrite rhs_split by exact K. unfold wk. rewrite Pk by exact K. reflexivity.
    - apply (nth_ext _ _ dF dF); [rewrite gather_length, invert_length, map_length, seq_length; lia|]. intros i I. rewrite gather_length, invert_length, L in I. rewrite nth_gather by (rewrite invert_length; lia).
      destruct (order_invert n o i P I) as (K & E). rewrite Rk by exact K. rewrite E. rewrite (nth_map_d _ _ _ 0) by (rewrite seq_length; exact I). rewrite seq_nth by exact I. reflexivity.
  Qed.
End Simul.

Local Open Scope R_scope.
Section Calc.
Variables (g : bscene) (farm : list (turb ttype)).
Hypothesis HG : good_both g.
Hypothesis HF : good_farm farm.
Let c := b_c g.
Let n := length farm.
Let tb (i : nat) := nth i farm no_turb.
Let ww := as_model centre_points (uniform_ti g) (wind_smodel g).
Let wt := as_model centre_points (uniform_ti g) (ti_smodel g).
Let ambt : turb ttype -> R * R := amb amb_both (uniform_ti g).
Let evt : turb ttype -> R * R -> bres := ev turbine_both.
Let key (t : turb ttype) : R := vx (t_pos t) * fst (wd2uv (c_wd c) 1) + vy (t_pos t) * snd (wd2uv (c_wd c) 1).
Let o := farm_order Rleb key farm.
Lemma HS : good_scene c. Proof. apply HG. Qed.
Lemma order_is : argsort Rleb (along (uniform_ti g) farm) = o.
Proof. unfold o, farm_order. f_equal. exact (along_key c farm HF). Qed.
Lemma contrib_ww s f t d : w_contrib ww s f t d = add_wake (c_s c) d (wake_contrib c (type_k (t_set s) (b_ka g * b_ti f + b_kb g)) (t_diam s) (as_tres f) (coords c s t)).
Proof. reflexivity. Qed.
Lemma contrib_wt s f t d : w_contrib wt s f t d = add_wake (b_ts g) d (ti_contrib g (t_diam s) f (coords c s t)).
Proof. reflexivity. Qed.
Lemma key_beh s t : key t - key s = behind (c_wd c) s t.
Proof. unfold key, behind. rewrite uv_explicit. cbn [fst snd]. ring. Qed.
Lemma ww_none s f t : key t <= key s -> wake_contrib c (type_k (t_set s) (b_ka g * b_ti f + b_kb g)) (t_diam s) (as_tres f) (coords c s t) = None.
Proof.
  intros H. unfold wake_contrib. rewrite coords_x by apply HS. rewrite <- key_beh. replace (Rltb 1e-8 (key t - key s)) with false; [reflexivity|]. symmetry. apply Rltb_false.
  set (e := 1e-8). assert (0 < e) by (unfold e; lra). lra.
Qed.
Lemma wt_none s f t : key t <= key s -> ti_contrib g (t_diam s) f (coords c s t) = None.
Proof.
  intros H. unfold ti_contrib. rewrite coords_x by apply HS. rewrite <- key_beh. replace (Rltb 1e-8 (key t - key s)) with false; [reflexivity|]. symmetry. apply Rltb_false.
  set (e := 1e-8). assert (0 < e) by (unfold e; lra). lra.
Qed.
Lemma ww_neutral t x : w_add ww t x (w_new ww t) = x.
Proof. destruct HS as (Hw & _ & _ & _ & _ & Hl & Hh & _). cbn. fold c. rewrite final_zero; [|lra|exact Hl|exact Hh]. destruct x. cbn. f_equal. ring. Qed.
Lemma wt_neutral t x : w_add wt t x (w_new wt t) = x.
Proof. destruct HG as (_ & Ht & _). cbn. rewrite final_zero; [|lra|discriminate|discriminate]. destruct x. cbn. f_equal. ring. Qed.
Lemma ww_comm s f s' f' t d : w_contrib ww s f t (w_contrib ww s' f' t d) = w_contrib ww s' f' t (w_contrib ww s f t d).
Proof. rewrite !contrib_ww. apply add_wake_comm. Qed.
Lemma wt_comm s f s' f' t d : w_contrib wt s f t (w_contrib wt s' f' t d) = w_contrib wt s' f' t (w_contrib wt s f t d).
Proof. rewrite !contrib_wt. apply add_wake_comm. Qed.
Definition listed (ms : list (smodel ttype bres R (R * R))) : Prop := ms = [wind_smodel g; ti_smodel g] \/ ms = [ti_smodel g; wind_smodel g].
Lemma in_listed ms w : listed ms -> In w (map (as_model centre_points (uniform_ti g)) ms) -> w = ww \/ w = wt.
Proof. intros [-> | ->] [<-|[<-|[]]]; auto. Qed.
Lemma both_neutral ms : listed ms -> neutral (map (as_model centre_points (uniform_ti g)) ms).
Proof. intros H w I t x. destruct (in_listed ms w H I) as [-> | ->]; [apply ww_neutral|apply wt_neutral]. Qed.
Lemma both_comm ms : listed ms -> contributions_commute (map (as_model centre_points (uniform_ti g)) ms).
Proof. intros H w I. destruct (in_listed ms w H I) as [-> | ->]; [exact ww_comm|exact wt_comm]. Qed.
Lemma both_adm ms : listed ms -> admissible no_turb (map (as_model centre_points (uniform_ti g)) ms) farm o.
Proof.
  intros H. apply (sorted_admissible Rleb key).
  - intros w I s f t d L. apply Rleb_true in L. destruct (in_listed ms w H I) as [-> | ->]; [rewrite contrib_ww, ww_none by exact L|rewrite contrib_wt, wt_none by exact L]; reflexivity.
  - apply farm_order_sorted; [exact rleb_total|exact rleb_trans].
Qed.
Lemma o_perm : isperm n o. Proof. exact (proj1 (both_adm _ (or_introl eq_refl))). Qed.
(** the contributions of all turbines with results src *)
Definition wcons (ti : nat -> R) (src : nat -> bres) (i : nat) : list contrib := map (fun j => wind_effect g (ti j) (tb j) (src j) (tb i)) (seq 0 n).
Definition tcons (src : nat -> bres) (i : nat) : list contrib := map (fun j => ti_effect g (tb j) (src j) (tb i)) (seq 0 n).
Lemma tb_ok i : (i < n)%nat -> good_type (t_set (tb i)) /\ 0 < t_diam (tb i).
Proof. intros H. apply HF. now apply nth_In. Qed.
Lemma good_k t k : good_type (t_set t) -> 0 <= k -> good_type (t_set (with_k t k)).
Proof. unfold good_type, with_k. cbn. tauto. Qed.
Lemma wind_effect_ok j f t : (j < n)%nat -> 0 <= b_ti f ->
  wake_contrib c (type_k (t_set (tb j)) (b_ka g * b_ti f + b_kb g)) (t_diam (tb j)) (as_tres f) (coords c (tb j) t) = wind_effect g (b_ti f) (tb j) f t.
Proof.
  intros Hj Ht. destruct (tb_ok j Hj) as [Y Dm]. destruct HG as (_ & _ & Ka & Kb & _). set (k := b_ka g * b_ti f + b_kb g). assert (K : 0 <= k) by (unfold k; nra).
  pose proof (effect_ok c (with_k (tb j) k) (as_tres f) t HS (good_k _ _ Y K) Dm) as E. exact E.
Qed.
Lemma ti_effect_ok j f t : ti_contrib g (t_diam (tb j)) f (coords c (tb j) t) = ti_effect g (tb j) f t.
Proof.
  unfold ti_contrib, ti_effect. fold c. rewrite coords_x, coords_r by apply HS.
  destruct (Rlt_dec 1e-8 (behind (c_wd c) (tb j) t)) as [L|L].
  - replace (Rltb 1e-8 (behind (c_wd c) (tb j) t)) with true by (symmetry; now apply Rltb_true). destruct (Rlt_dec 1e-8 (b_ct f)) as [L'|L'].
    + replace (Rltb 1e-8 (b_ct f)) with true by (symmetry; now apply Rltb_true). reflexivity.
    + replace (Rltb 1e-8 (b_ct f)) with false by (symmetry; apply Rltb_false; now apply Rnot_lt_le). reflexivity.
  - replace (Rltb 1e-8 (behind (c_wd c) (tb j) t)) with false by (symmetry; apply Rltb_false; now apply Rnot_lt_le). reflexivity.
Qed.
Lemma others_fold (w : @wmodel (turb ttype) bres R (R * R)) s (cn : nat -> contrib) (sr : nat -> turb ttype * bres) i :
  (forall j, (j < n)%nat -> forall d, w_contrib w (fst (sr j)) (snd (sr j)) (tb i) d = add_wake s d (cn j)) -> cn i = None ->
  deltas w (map sr (others farm i)) (tb i) 0 = wake_delta s (map cn (seq 0 n)).
Proof.
  intros H Hi. unfold deltas, wake_delta, others. fold n. assert (B : forall j, In j (seq 0 n) -> (j < n)%nat) by (intros j J; apply in_seq in J; lia).
  revert B. generalize 0 as d. generalize (seq 0 n) as l. induction l as [|j l IH]; intros d B; cbn [filter map fold_left]; [reflexivity|]. destruct (Nat.eqb_spec j i) as [->|N]; cbn [negb].
  - rewrite IH by (intros k K; apply B; now right). rewrite Hi. reflexivity.
  - cbn [map fold_left]. rewrite IH by (intros k K; apply B; now right). f_equal. apply H. apply B. now left.
Qed.
Lemma wind_self i ti f : wind_effect g ti (tb i) f (tb i) = None.
Proof. unfold wind_effect. apply effect_self. unfold behind, with_k. cbn. lra. Qed.
Lemma ti_self i f : ti_effect g (tb i) f (tb i) = None.
Proof. unfold ti_effect. destruct (Rlt_dec _ _) as [L|L]; [|reflexivity]. exfalso. unfold behind in L. set (e := 1e-8) in *. assert (0 < e) by (unfold e; lra). nra. Qed.
Lemma deltas_ww sr i : (forall j, (j < n)%nat -> 0 <= b_ti (sr j)) -> deltas ww (map (fun j => (tb j, sr j)) (others farm i)) (tb i) (w_new ww (tb i)) = wake_delta (c_s c) (wcons (fun j => b_ti (sr j)) sr i).
Proof. intros H. apply (others_fold ww (c_s c) (fun j => wind_effect g (b_ti (sr j)) (tb j) (sr j) (tb i))); [|apply wind_self]. intros j Hj d. cbn [fst snd]. rewrite contrib_ww, wind_effect_ok by auto. reflexivity. Qed.
Lemma deltas_wt sr i : deltas wt (map (fun j => (tb j, sr j)) (others farm i)) (tb i) (w_new wt (tb i)) = wake_delta (b_ts g) (tcons sr i).
Proof. apply (others_fold wt (b_ts g) (fun j => ti_effect g (tb j) (sr j) (tb i))); [|apply ti_self]. intros j Hj d. cbn [fst snd]. rewrite contrib_wt, ti_effect_ok. reflexivity. Qed.
(** turbulence never falls *)
Lemma tcons_good sr i : Forall (good (b_ts g)) (tcons sr i).
Proof.
  unfold tcons. apply Forall_map. apply Forall_forall. intros j J. apply in_seq in J. unfold ti_effect. destruct (Rlt_dec _ _); [|exact I]. destruct (Rlt_dec _ _); [|exact I].
  destruct HG as (_ & _ & _ & _ & P & Q & _). cbn. rewrite Q. apply P. apply tb_ok. lia.
Qed.
Lemma ti_comb sr i : final_wake (b_ts g) (b_quad g) None None (b_ti0 g) (tcons sr i) = combination (b_ts g) (b_quad g) (b_ti0 g) (tcons sr i).
Proof. apply superp_combination; [apply HG|apply tcons_good]. Qed.
Lemma ti_up sr i : 0 <= combination (b_ts g) (b_quad g) (b_ti0 g) (tcons sr i).
Proof. rewrite <- ti_comb. apply ti_never_below; try apply HG. apply tcons_good. Qed.
(** wind *)
Lemma wcons_fine ti sr i : (forall j, (j < n)%nat -> 0 <= ti j) -> (forall l, c_low c = Some l -> 0 <= l -> forall j, (j < n)%nat -> 0 <= b_ws (sr j)) -> fine (c_s c) (wcons ti sr i).
Proof.
  intros Ht Hu. unfold fine, wcons. apply Forall_map. apply Forall_forall. intros j J. apply in_seq in J. unfold wind_effect. fold c. set (k := b_ka g * ti j + b_kb g). destruct (effect _ _ _ _) as [[sc r]|] eqn:E; [|exact I].
  assert (Hj : (j < n)%nat) by lia. destruct (tb_ok j Hj) as [Y Dm]. assert (K : 0 <= k) by (destruct HG as (_ & _ & Ka & Kb & _); specialize (Ht j Hj); unfold k; nra).
  destruct (effect_neg c (with_k (tb j) k) _ (tb i) sc r HS (good_k _ _ Y K) Dm E) as (A & B & C). split; [exact A|]. destruct HS as (Hw & _ & _ & _ & _ & _ & _ & [Q|[Q|(l & Q & L)]]).
  - right. rewrite C by exact Q. lra.
  - now left.
  - right. destruct B as [->| ->]; [lra|]. cbn [r_ws]. now apply (Hu l Q L).
Qed.
Lemma wind_comb ti sr i : (forall j, (j < n)%nat -> 0 <= ti j) -> (forall l, c_low c = Some l -> 0 <= l -> forall j, (j < n)%nat -> 0 <= b_ws (sr j)) ->
  c_wsp c + final_wake (c_s c) false (c_low c) (c_high c) (c_wsp c) (wcons ti sr i) = limited (c_low c) (c_high c) (c_wsp c + combination (c_s c) false (c_wsp c) (wcons ti sr i)).
Proof. intros H1 H2. apply final_limited; [apply HS|apply HS|]. now apply wcons_fine. Qed.
Lemma low_bound l cs : c_low c = Some l -> l <= c_wsp c + final_wake (c_s c) false (c_low c) (c_high c) (c_wsp c) cs.
Proof.
  intros E. unfold final_wake, final_delta. assert (Hs : is_ws (c_s c) = true) by apply HS. rewrite Hs, limited_clamp, E. apply limited_low. intros h Eh. destruct HS as (_ & _ & _ & _ & _ & Hl & Hh & _). specialize (Hl l E). specialize (Hh h Eh). lra.
Qed.
(** equations for wind speeds u and turbulence intensities v; the wakes grow with ti *)
Definition fof (u v : nat -> R) (j : nat) : bres := turbine_both (t_set (tb j)) (u j, v j).
Definition eqs (ti u v : nat -> R) : Prop := forall i, (i < n)%nat ->
  u i = c_wsp c + final_wake (c_s c) false (c_low c) (c_high c) (c_wsp c) (wcons ti (fof u v) i) /\ v i = b_ti0 g + final_wake (b_ts g) (b_quad g) None None (b_ti0 g) (tcons (fof u v) i).
Lemma eqs_low ti u v : eqs ti u v -> forall l, c_low c = Some l -> 0 <= l -> forall j, (j < n)%nat -> 0 <= b_ws (fof u v j).
Proof. intros H l E L j Hj. cbn. destruct (H j Hj) as [-> _]. pose proof (low_bound l (wcons ti (fof u v) j) E). lra. Qed.
Lemma eqs_ti ti u v : eqs ti u v -> forall j, (j < n)%nat -> b_ti0 g <= v j.
Proof. intros H j Hj. destruct (H j Hj) as [_ ->]. rewrite ti_comb. pose proof (ti_up (fof u v) j). lra. Qed.
Lemma eqs_ws ti u v : eqs ti u v -> (forall j, (j < n)%nat -> 0 <= ti j) -> forall j, (j < n)%nat -> u j <= c_wsp c.
Proof.
  intros H Ht j Hj. pose proof (wcons_fine ti (fof u v) j Ht (eqs_low ti u v H)) as Fn. destruct (H j Hj) as [-> _]. destruct HS as (Hw & _ & Hs & Hp & _ & Hl & _).
  pose proof (final_below (c_s c) (c_low c) (c_high c) (c_wsp c) _ Hs Hp ltac:(lra) Hl Fn). lra.
Qed.
Definition results (u v : nat -> R) : list bres := map (fof u v) (seq 0 n).
Lemma nth_results u v j : (j < n)%nat -> nth j (results u v) no_bres = fof u v j.
Proof. intros H. unfold results. rewrite (nth_indep _ no_bres (fof u v 0%nat)) by (rewrite map_length, seq_length; exact H). rewrite map_nth, seq_nth by exact H. reflexivity. Qed.
Lemma wcons_ext gr sr sr' i : (forall j, (j < n)%nat -> sr j = sr' j) -> map (fun j => wind_effect g (gr (sr j)) (tb j) (sr j) (tb i)) (seq 0 n) = wcons (fun j => gr (sr' j)) sr' i.
Proof. intros H. apply map_ext_in. intros j J. apply in_seq in J. now rewrite H by lia. Qed.
Lemma tcons_ext sr sr' i : (forall j, (j < n)%nat -> sr j = sr' j) -> map (fun j => ti_effect g (tb j) (sr j) (tb i)) (seq 0 n) = tcons sr' i.
Proof. intros H. apply map_ext_in. intros j J. apply in_seq in J. now rewrite H by lia. Qed.
Lemma eqs_balance gr u v : (forall j, (j < n)%nat -> 0 <= gr (fof u v j)) -> eqs (fun j => gr (fof u v j)) u v -> balance g gr farm (results u v).
Proof.
  intros Hg H. split; [unfold results; now rewrite map_length, seq_length|]. intros j Hj. fold c. cbv zeta. fold (tb j).
  change (map (fun i => wind_effect g (gr (nth i (results u v) no_bres)) (nth i farm no_turb) (nth i (results u v) no_bres) (tb j)) (seq 0 (length farm))) with (map (fun i => wind_effect g (gr (nth i (results u v) no_bres)) (tb i) (nth i (results u v) no_bres) (tb j)) (seq 0 n)).
  change (map (fun i => ti_effect g (nth i farm no_turb) (nth i (results u v) no_bres) (tb j)) (seq 0 (length farm))) with (map (fun i => ti_effect g (tb i) (nth i (results u v) no_bres) (tb j)) (seq 0 n)).
  rewrite (wcons_ext gr _ (fof u v) j (nth_results u v)), (tcons_ext _ (fof u v) j (nth_results u v)). rewrite nth_results by exact Hj.
  destruct (H j Hj) as [Eu Ev]. rewrite wind_comb in Eu by (auto; now apply eqs_low with (ti := fun j => gr (fof u v j))). rewrite ti_comb in Ev. rewrite <- Eu, <- Ev. destruct (tb_ok j Hj) as [(Y1 & Y2 & _) _].
  cbn [fof turbine_both b_ws b_ti b_ct b_p fst snd]. split; [reflexivity|]. split; [reflexivity|]. split; apply value_ok; assumption.
Qed.
Lemma balance_eqs gr ys : (forall f, b_ti0 g <= b_ti f -> 0 <= gr f) -> balance g gr farm ys -> let u := fun i => b_ws (nth i ys no_bres) in let v := fun i => b_ti (nth i ys no_bres) in eqs (fun j => gr (fof u v j)) u v /\ ys = results u v.
Proof.
  intros Hg [L B] u v. assert (E : forall j, (j < n)%nat -> nth j ys no_bres = fof u v j).
  { intros j Hj. destruct (B j Hj) as (B1 & B2 & B3 & B4). cbv zeta in B1, B2, B3, B4. rewrite <- B1 in B3, B4. fold (tb j) in B3, B4. unfold fof, turbine_both, value, u, v. cbn [fst snd]. rewrite B3, B4. now destruct (nth j ys no_bres). }
  assert (EW : forall i, map (fun j => wind_effect g (gr (nth j ys no_bres)) (nth j farm no_turb) (nth j ys no_bres) (nth i farm no_turb)) (seq 0 (length farm)) = wcons (fun j => gr (fof u v j)) (fof u v) i) by (intros i; exact (wcons_ext gr _ _ i E)).
  assert (ET : forall i, map (fun j => ti_effect g (nth j farm no_turb) (nth j ys no_bres) (nth i farm no_turb)) (seq 0 (length farm)) = tcons (fof u v) i) by (intros i; exact (tcons_ext _ _ i E)).
  assert (Vt : forall j, (j < n)%nat -> v j = b_ti0 g + combination (b_ts g) (b_quad g) (b_ti0 g) (tcons (fof u v) j)) by (intros j Hj; destruct (B j Hj) as (_ & B2 & _); cbv zeta in B2; rewrite ET in B2; exact B2).
  assert (Hk : forall j, (j < n)%nat -> 0 <= gr (fof u v j)) by (intros j Hj; apply Hg; cbn; rewrite (Vt j Hj); pose proof (ti_up (fof u v) j); lra).
  assert (Hl : forall l, c_low c = Some l -> 0 <= l -> forall j, (j < n)%nat -> 0 <= b_ws (fof u v j)).
  { intros l El Hl j Hj. cbn. destruct (B j Hj) as (B1 & _). cbv zeta in B1. fold c in B1. unfold u. rewrite B1, El. apply Rle_trans with l; [exact Hl|]. apply limited_low. intros h Eh. destruct HS as (_ & _ & _ & _ & _ & Q1 & Q2 & _). specialize (Q1 l El). specialize (Q2 h Eh). lra. }
  split.
  - intros i Hi. destruct (B i Hi) as (B1 & _). cbv zeta in B1. fold c in B1. rewrite EW in B1. rewrite wind_comb, ti_comb by auto. split; [exact B1|now apply Vt].
  - apply (nth_ext _ _ no_bres no_bres); [unfold results; now rewrite map_length, seq_length|]. intros j Hj. rewrite L in Hj. rewrite nth_results by exact Hj. now apply E.
Qed.
(** *** the iterative algorithm *)
Lemma all_iff ms wf : listed ms -> (forall j, (j < n)%nat -> 0 <= snd (wf j)) ->
  solves_all ambt evt no_turb farm (map (as_model centre_points (uniform_ti g)) ms) wf <-> eqs (fun j => snd (wf j)) (fun j => fst (wf j)) (fun j => snd (wf j)).
Proof.
  intros Hm Hp. assert (S0 : forall j, src evt no_turb farm wf j = (tb j, fof (fun j => fst (wf j)) (fun j => snd (wf j)) j)) by (intros j; unfold src, evt, ev, fof; cbn [fst snd]; now rewrite <- surjective_pairing).
  assert (Q : forall i, rhs ambt no_turb farm (map (as_model centre_points (uniform_ti g)) ms) (src evt no_turb farm wf) (others farm i) i =
    (c_wsp c + final_wake (c_s c) false (c_low c) (c_high c) (c_wsp c) (wcons (fun j => snd (wf j)) (fof (fun j => fst (wf j)) (fun j => snd (wf j))) i),
     b_ti0 g + final_wake (b_ts g) (b_quad g) None None (b_ti0 g) (tcons (fof (fun j => fst (wf j)) (fun j => snd (wf j))) i))).
  { intros i. unfold rhs. rewrite (map_ext _ _ S0). set (sr := fof (fun j => fst (wf j)) (fun j => snd (wf j))).
    assert (D1 : deltas ww (map (fun j => (tb j, sr j)) (others farm i)) (nth i farm no_turb) (w_new ww (nth i farm no_turb)) = wake_delta (c_s c) (wcons (fun j => snd (wf j)) sr i)) by (exact (deltas_ww sr i Hp)).
    assert (D2 : deltas wt (map (fun j => (tb j, sr j)) (others farm i)) (nth i farm no_turb) (w_new wt (nth i farm no_turb)) = wake_delta (b_ts g) (tcons sr i)) by (exact (deltas_wt sr i)).
    destruct Hm as [-> | ->]; cbn [map fold_left]; fold ww wt; rewrite D1, D2; reflexivity. }
  split; intros H i Hi.
  - specialize (H i Hi). rewrite Q in H. split; [now rewrite H at 1|now rewrite H at 1].
  - destruct (H i Hi) as [A B]. rewrite Q. rewrite <- A, <- B. apply surjective_pairing.
Qed.
Lemma wf_ti ms wf : listed ms -> solves_all ambt evt no_turb farm (map (as_model centre_points (uniform_ti g)) ms) wf -> forall j, (j < n)%nat -> 0 <= snd (wf j).
Proof.
  intros Hm H j Hj. specialize (H j Hj). assert (Q : snd (rhs ambt no_turb farm (map (as_model centre_points (uniform_ti g)) ms) (src evt no_turb farm wf) (others farm j) j) = b_ti0 g + final_wake (b_ts g) (b_quad g) None None (b_ti0 g) (tcons (fun i => evt (tb i) (wf i)) j)).
  { assert (D2 : deltas wt (map (src evt no_turb farm wf) (others farm j)) (nth j farm no_turb) (w_new wt (nth j farm no_turb)) = wake_delta (b_ts g) (tcons (fun i => evt (tb i) (wf i)) j)) by (exact (deltas_wt (fun i => evt (tb i) (wf i)) j)).
    unfold rhs. destruct Hm as [-> | ->]; cbn [map fold_left]; fold ww wt; rewrite D2; reflexivity. }
  rewrite H, Q, ti_comb. pose proof (ti_up (fun i => evt (tb i) (wf i)) j). destruct HG as (_ & Ht & _). lra.
Qed.
Lemma iterative_balance : exists res, balance g own_ti farm res /\ (forall ys, balance g own_ti farm ys -> ys = res) /\
  forall ms k, listed ms -> (length farm <= Datatypes.S k)%nat -> iterative_results g ms farm k = res.
Proof.
  assert (L1 : listed [wind_smodel g; ti_smodel g]) by now left.
  assert (T0 : 0 <= b_ti0 g) by apply HG.
  assert (Bal : forall ms wf, listed ms -> solves_all ambt evt no_turb farm (map (as_model centre_points (uniform_ti g)) ms) wf -> eqs (fun j => snd (wf j)) (fun j => fst (wf j)) (fun j => snd (wf j))) by (intros ms wf Hm H; apply (all_iff ms); [exact Hm|exact (wf_ti ms wf Hm H)|exact H]).
  assert (Res : forall wf, map (fun i => evt (nth i farm no_turb) (wf i)) (seq 0 (length farm)) = results (fun j => fst (wf j)) (fun j => snd (wf j))).
  { intros wf. unfold results. apply map_ext. intros i. unfold fof, evt, ev. fold (tb i). cbn [fst snd]. now rewrite <- surjective_pairing. }
  assert (Uni : forall ms wf ys, listed ms -> solves_all ambt evt no_turb farm (map (as_model centre_points (uniform_ti g)) ms) wf -> balance g own_ti farm ys -> ys = results (fun j => fst (wf j)) (fun j => snd (wf j))).
  { intros ms wf ys Hm H B. destruct (balance_eqs own_ti ys (fun f Hf => Rle_trans _ _ _ T0 Hf) B) as [E ->]. set (u := fun i => b_ws (nth i ys no_bres)) in *. set (v := fun i => b_ti (nth i ys no_bres)) in *.
    assert (V0 : forall j, (j < n)%nat -> 0 <= v j) by (intros j Hj; pose proof (eqs_ti _ u v E j Hj); lra).
    assert (S2 : solves_all ambt evt no_turb farm (map (as_model centre_points (uniform_ti g)) ms) (fun i => (u i, v i))) by (apply (all_iff ms); [exact Hm|exact V0|exact E]).
    unfold results. apply map_ext_in. intros i I. apply in_seq in I. unfold fof. rewrite <- surjective_pairing.
    rewrite (solves_all_unique ambt evt no_turb farm _ o (both_comm ms Hm) (both_adm ms Hm) _ wf S2 H i ltac:(lia)). reflexivity. }
  destruct (sweeps_solve ambt evt no_turb no_bres farm _ o (both_neutral _ L1) (both_comm _ L1) (both_adm _ L1) (length farm) ltac:(lia)) as (wf & Hwf & _).
  exists (results (fun j => fst (wf j)) (fun j => snd (wf j))). split.
  - apply (eqs_balance own_ti); [|exact (Bal _ wf L1 Hwf)]. intros j Hj. exact (wf_ti _ wf L1 Hwf j Hj).
  - split; [intros ys B; exact (Uni _ wf ys L1 Hwf B)|]. intros ms k Hm Hk. unfold iterative_results. rewrite order_is.
    destruct (sweeps_solve ambt evt no_turb no_bres farm _ o (both_neutral ms Hm) (both_comm ms Hm) (both_adm ms Hm) k Hk) as (wf' & Hwf' & E). fold ambt evt. rewrite E, Res.
    apply (Uni _ wf _ L1 Hwf). apply (eqs_balance own_ti); [|exact (Bal ms wf' Hm Hwf')]. intros j Hj. exact (wf_ti ms wf' Hm Hwf' j Hj).
Qed.
(** *** the downwind algorithm, wind deficit model listed first *)
Lemma adm_ww : forall k l : nat, (k < l)%nat -> (l < n)%nat -> forall f d, w_contrib ww (tb (nth l o 0%nat)) f (tb (nth k o 0%nat)) d = d.
Proof. intros k l H1 H2 f d. exact (proj2 (both_adm _ (or_introl eq_refl)) k l H1 H2 ww (or_introl eq_refl) f d). Qed.
Lemma adm_wt : forall k l : nat, (k < l)%nat -> (l < n)%nat -> forall f d, w_contrib wt (tb (nth l o 0%nat)) f (tb (nth k o 0%nat)) d = d.
Proof. intros k l H1 H2 f d. exact (proj2 (both_adm _ (or_introl eq_refl)) k l H1 H2 wt (or_intror (or_introl eq_refl)) f d). Qed.
Lemma first_iff wf : solves evt no_turb farm ww (fun i => ambt (tb i)) wf <-> forall i, (i < n)%nat -> snd (wf i) = b_ti0 g /\
  fst (wf i) = c_wsp c + final_wake (c_s c) false (c_low c) (c_high c) (c_wsp c) (wcons (fun _ => b_ti0 g) (fun j => evt (tb j) (fst (wf j), b_ti0 g)) i).
Proof.
  assert (T0 : 0 <= b_ti0 g) by apply HG.
  assert (G : forall wf, (forall j, (j < n)%nat -> snd (wf j) = b_ti0 g) -> forall i, w_add ww (tb i) (ambt (tb i)) (deltas ww (map (fun j => (tb j, evt (tb j) (wf j))) (others farm i)) (tb i) (w_new ww (tb i))) =
    (c_wsp c + final_wake (c_s c) false (c_low c) (c_high c) (c_wsp c) (wcons (fun _ => b_ti0 g) (fun j => evt (tb j) (fst (wf j), b_ti0 g)) i), b_ti0 g)).
  { intros w0 H i. rewrite (deltas_ww (fun j => evt (tb j) (w0 j)) i) by (intros j Hj; cbn; rewrite H by exact Hj; exact T0).
    replace (wcons (fun j => b_ti (evt (tb j) (w0 j))) (fun j => evt (tb j) (w0 j)) i) with (wcons (fun _ => b_ti0 g) (fun j => evt (tb j) (fst (w0 j), b_ti0 g)) i); [reflexivity|].
    apply map_ext_in. intros j J. apply in_seq in J. assert (Hj : (j < n)%nat) by lia. rewrite <- (H j Hj), <- surjective_pairing. reflexivity. }
  split.
  - intros H. assert (H2 : forall j, (j < n)%nat -> snd (wf j) = b_ti0 g) by (intros j Hj; rewrite (H j Hj); reflexivity). intros i Hi. split; [now apply H2|]. pose proof (H i Hi) as E. change (nth i farm no_turb) with (tb i) in E. 
    change (map (fun j => (nth j farm no_turb, evt (nth j farm no_turb) (wf j))) (others farm i)) with (map (fun j => (tb j, evt (tb j) (wf j))) (others farm i)) in E. rewrite (G wf H2) in E. now rewrite E at 1.
  - intros H i Hi. assert (H2 : forall j, (j < n)%nat -> snd (wf j) = b_ti0 g) by (intros j Hj; now apply H). change (nth i farm no_turb) with (tb i).
    change (map (fun j => (nth j farm no_turb, evt (nth j farm no_turb) (wf j))) (others farm i)) with (map (fun j => (tb j, evt (tb j) (wf j))) (others farm i)). rewrite (G wf H2). destruct (H i Hi) as [A B]. rewrite <- B, <- A. apply surjective_pairing.
Qed.
Lemma second_iff wf wf' : solves evt no_turb farm wt wf wf' <-> forall i, (i < n)%nat -> fst (wf' i) = fst (wf i) /\ snd (wf' i) = snd (wf i) + final_wake (b_ts g) (b_quad g) None None (b_ti0 g) (tcons (fun j => evt (tb j) (wf' j)) i).
Proof.
  assert (G : forall i, w_add wt (tb i) (wf i) (deltas wt (map (fun j => (tb j, evt (tb j) (wf' j))) (others farm i)) (tb i) (w_new wt (tb i))) =
    (fst (wf i), snd (wf i) + final_wake (b_ts g) (b_quad g) None None (b_ti0 g) (tcons (fun j => evt (tb j) (wf' j)) i))).
  { intros i. rewrite (deltas_wt (fun j => evt (tb j) (wf' j)) i). reflexivity. }
  split; intros H i Hi.
  - specialize (H i Hi). change (nth i farm no_turb) with (tb i) in H. change (map (fun j => (nth j farm no_turb, evt (nth j farm no_turb) (wf' j))) (others farm i)) with (map (fun j => (tb j, evt (tb j) (wf' j))) (others farm i)) in H.
    rewrite G in H. split; now rewrite H at 1.
  - change (nth i farm no_turb) with (tb i). change (map (fun j => (nth j farm no_turb, evt (nth j farm no_turb) (wf' j))) (others farm i)) with (map (fun j => (tb j, evt (tb j) (wf' j))) (others farm i)).
    rewrite G. destruct (H i Hi) as [A B]. rewrite <- A, <- B. apply surjective_pairing.
Qed.
(** thrust does not depend on the turbulence *)
Lemma wcons_ti sr sr' i : (forall j, (j < n)%nat -> b_ws (sr j) = b_ws (sr' j) /\ b_ct (sr j) = b_ct (sr' j)) -> wcons (fun _ => b_ti0 g) sr i = wcons (fun _ => b_ti0 g) sr' i.
Proof. intros H. apply map_ext_in. intros j J. apply in_seq in J. destruct (H j ltac:(lia)) as [A B]. unfold wind_effect, effect. cbn [r_ws r_ct]. now rewrite A, B. Qed.
Lemma downwind_balance : exists res, downwind_results g [wind_smodel g; ti_smodel g] farm = Ok res /\ balance g (state_ti g) farm res /\ forall ys, balance g (state_ti g) farm ys -> ys = res.
Proof.
  assert (T0 : 0 <= b_ti0 g) by apply HG.
  destruct (pass_solves ambt evt no_turb farm ww o eq_refl ww_neutral ww_comm o_perm adm_ww (fun i => ambt (tb i)) _ (start_holds ambt evt no_turb 0 farm o o_perm)) as (w1 & S1 & H1).
  destruct (pass_solves ambt evt no_turb farm wt o eq_refl wt_neutral wt_comm o_perm adm_wt w1 _ H1) as (w2 & S2 & H2).
  pose proof (proj1 (first_iff w1) S1) as E1. pose proof (proj1 (second_iff w1 w2) S2) as E2.
  exists (results (fun j => fst (w2 j)) (fun j => snd (w2 j))). split; [|split].
  - unfold downwind_results, calc. rewrite order_is. unfold calc_with, calc_downwind. rewrite run_down by (repeat constructor). cbn [map fold_left bind]. f_equal.
    transitivity (map (fun i => evt (nth i farm no_turb) (w2 i)) (seq 0 (length farm))); [exact (results_of evt no_turb no_bres farm o w2 _ o_perm H2)|].
    unfold results. apply map_ext. intros i. unfold fof, evt, ev. fold (tb i). now rewrite <- surjective_pairing.
  - apply (eqs_balance (state_ti g)); [intros; exact T0|]. intros i Hi. destruct (E2 i Hi) as [A B]. destruct (E1 i Hi) as [A1 B1]. split.
    + rewrite A, B1. f_equal. f_equal. apply wcons_ti. intros j Hj. destruct (E2 j Hj) as [C _]. unfold evt, ev, fof. cbn. rewrite C. auto.
    + rewrite B, A1. reflexivity.
  - intros ys B. destruct (balance_eqs (state_ti g) ys (fun f _ => T0) B) as [E ->]. set (u := fun i => b_ws (nth i ys no_bres)) in *. set (v := fun i => b_ti (nth i ys no_bres)) in *.
    assert (S1' : solves evt no_turb farm ww (fun i => ambt (tb i)) (fun i => (u i, b_ti0 g))).
    { apply first_iff. intros i Hi. split; [reflexivity|]. cbn [fst]. destruct (E i Hi) as [A _]. exact A. }
    assert (Q1 : forall i, (i < n)%nat -> (u i, b_ti0 g) = w1 i) by (exact (solves_unique ambt evt no_turb farm ww o ww_comm o_perm adm_ww (fun i => ambt (tb i)) _ w1 S1' S1)).
    assert (S2' : solves evt no_turb farm wt w1 (fun i => (u i, v i))).
    { apply second_iff. intros i Hi. rewrite <- (Q1 i Hi). cbn [fst snd]. split; [reflexivity|]. destruct (E i Hi) as [_ A]. exact A. }
    pose proof (solves_unique ambt evt no_turb farm wt o wt_comm o_perm adm_wt w1 _ w2 S2' S2) as Q2. unfold results. apply map_ext_in. intros i I. apply in_seq in I. unfold fof. rewrite <- surjective_pairing. rewrite <- Q2 by lia. reflexivity.
Qed.
End Calc.
