(** The results do not depend on the choice among admissible orders. *)
From Coq Require Import Permutation Wf_nat.
From Verif Require Import Base Order_Model Order_Spec Order_Proofs FarmWakes_Model FarmWakes_Spec FarmWakes_Proofs FarmIter_Proofs AnyOrder_Model AnyOrder_Spec.

Section P.
  Context {T F D W : Type}.
  Variable amb : T -> W.
  Variable ev : T -> W -> F.
  Variables (dT : T) (dF : F) (d0 : D).
  Notation wmodel := (@wmodel T F D W).
  Notation cell := (@cell T F D W).

  Lemma pass_spec_length (w : wmodel) (l : list cell) : forall done, length (pass_spec ev w done l) = length l.
  Proof. induction l; intros; cbn; auto. Qed.
  Lemma pass_spec_nth (w : wmodel) dc : forall (l : list cell) done k, k < length l ->
    nth k (pass_spec ev w done l) dc = eval_cell ev w (with_d w (done ++ map pair_of (firstn k (pass_spec ev w done l))) (nth k l dc)).
  Proof.
    induction l as [|c l IH]; intros done k H; cbn in H; [lia|]. cbn [pass_spec]. destruct k as [|k]; cbn [nth firstn map].
    - now rewrite app_nil_r.
    - rewrite IH by lia. now rewrite <- app_assoc.
  Qed.
  Lemma deltas_perm (w : wmodel) t l l' : (forall s f s' f' t d, w_contrib w s f t (w_contrib w s' f' t d) = w_contrib w s' f' t (w_contrib w s f t d)) ->
    Permutation l l' -> forall d, deltas w l t d = deltas w l' t d.
  Proof.
    intros C P. induction P as [| |x y l|l l' l'' P1 IH1 P2 IH2]; intros d; unfold deltas in *; cbn [fold_left]; [reflexivity|apply IHP| |now rewrite IH1, IH2].
    f_equal. apply C.
  Qed.
  Lemma deltas_neutral (w : wmodel) t l : (forall s, In s l -> forall d, w_contrib w (fst s) (snd s) t d = d) -> forall d, deltas w l t d = d.
  Proof. unfold deltas. induction l as [|s l IH]; intros H d; cbn [fold_left]; [reflexivity|]. rewrite H by now left. apply IH. intros; apply H; now right. Qed.
  Lemma deltas_app (w : wmodel) t l l' d : deltas w (l ++ l') t d = deltas w l' t (deltas w l t d).
  Proof. unfold deltas. apply fold_left_app. Qed.
  Lemma deltas_ext (w : wmodel) t (g g' : nat -> T * F) l d : (forall i, In i l -> g i = g' i) -> deltas w (map g l) t d = deltas w (map g' l) t d.
  Proof. intros H. f_equal. now apply map_ext_in. Qed.

  Variable farm : list T.
  Let n := length farm.
  Let tb (i : nat) : T := nth i farm dT.
  (** the cells, in processing order, hold the turbines with the rotor point results [wf] *)
  Definition holds (o : list nat) (wf : nat -> W) (l : list cell) : Prop :=
    length l = n /\ forall k dc, k < n -> c_t (nth k l dc) = tb (nth k o 0) /\ c_w (nth k l dc) = wf (nth k o 0) /\ consistent ev (nth k l dc).
  (** all turbines but [i] *)
  Definition others (i : nat) : list nat := filter (fun j => negb (j =? i)) (seq 0 n).
  (** the equations for the results of one wake model *)
  Definition solves (w : wmodel) (wf wf' : nat -> W) : Prop := forall i, i < n ->
    wf' i = w_add w (tb i) (wf i) (deltas w (map (fun j => (tb j, ev (tb j) (wf' j))) (others i)) (tb i) (w_new w (tb i))).

  Lemma others_perm o k : isperm n o -> k < n -> Permutation (others (nth k o 0)) (firstn k o ++ skipn (S k) o).
  Proof.
    intros P H. assert (L := perm_length _ _ P). assert (E : o = firstn k o ++ nth k o 0 :: skipn (S k) o).
    { rewrite <- (firstn_skipn k o) at 1. f_equal. clear -H L. rewrite <- L in H. clear L. revert k H. induction o as [|a o IH]; intros k H; cbn in *; [lia|]. destruct k; [reflexivity|]. apply IH. lia. }
    assert (N := perm_nodup _ _ P). unfold others. unfold isperm in P. set (i := nth k o 0) in *.
    assert (Q : Permutation (filter (fun j => negb (j =? i)) (seq 0 n)) (filter (fun j => negb (j =? i)) o)).
    { assert (R0 : forall l l' : list nat, Permutation l l' -> Permutation (filter (fun j => negb (j =? i)) l) (filter (fun j => negb (j =? i)) l')).
      { clear. induction 1; cbn; [reflexivity| | |etransitivity; eassumption].
        - destruct (negb (x =? i)); [now constructor|assumption].
        - destruct (negb (y =? i)), (negb (x =? i)); try reflexivity. apply perm_swap. }
      symmetry. now apply R0. }
    rewrite Q. rewrite E in N |- *. apply NoDup_remove_2 in N. rewrite filter_app. cbn [filter]. rewrite Nat.eqb_refl. cbn [negb].
    assert (G : forall l, ~ In i l -> filter (fun j => negb (j =? i)) l = l).
    { induction l as [|a l IH]; intros I; cbn; [reflexivity|]. destruct (Nat.eqb_spec a i) as [A|A]; [exfalso; apply I; now left|]. cbn. f_equal. apply IH. intros J. apply I. now right. }
    rewrite !G by (intros I; apply N; apply in_app_iff; tauto). rewrite <- E. reflexivity.
  Qed.

  Section Pass.
    Variables (w : wmodel) (o : list nat).
    Hypothesis Hd : w_down w = true.
    Hypothesis Hn : forall t x, w_add w t x (w_new w t) = x.
    Hypothesis Hc : forall s f s' f' t d, w_contrib w s f t (w_contrib w s' f' t d) = w_contrib w s' f' t (w_contrib w s f t d).
    Hypothesis Ho : isperm n o.
    Hypothesis Ha : forall k l, k < l -> l < n -> forall f d, w_contrib w (tb (nth l o 0)) f (tb (nth k o 0)) d = d.

    Lemma split_others g k d : k < n -> (forall j, In j (skipn (S k) o) -> fst (g j) = tb j) ->
      deltas w (map g (others (nth k o 0))) (tb (nth k o 0)) d = deltas w (map g (firstn k o)) (tb (nth k o 0)) d.
    Proof.
      intros H G. rewrite (deltas_perm w _ _ (map g (firstn k o) ++ map g (skipn (S k) o)) Hc) by (rewrite <- map_app; apply Permutation_map; now apply others_perm).
      rewrite deltas_app. apply deltas_neutral. intros s I d'. apply in_map_iff in I as (j & <- & J). rewrite G by assumption.
      destruct (In_nth_error _ _ J) as (m & M). assert (L := perm_length _ _ Ho).
      assert (M' : nth_error o (S k + m) = Some j) by (rewrite <- (firstn_skipn (S k) o), nth_error_app2 by (rewrite firstn_length; lia); rewrite firstn_length; replace (S k + m - Nat.min (S k) (length o)) with m by lia; exact M).
      assert (B : S k + m < n) by (rewrite <- L; apply nth_error_Some; congruence).
      apply (nth_error_nth _ _ 0) in M'. rewrite <- M'. apply Ha; lia.
    Qed.
    Lemma pass_solves wf l : holds o wf l -> exists wf', solves w wf wf' /\ holds o wf' (pass ev w l).
    Proof.
      intros (L & H). assert (Lo := perm_length _ _ Ho). destruct (Nat.eq_dec n 0) as [Z|Z].
      { exists wf. split; [intros i I; lia|]. split; [rewrite pass_length; exact L|]. intros k dc K. lia. }
      assert (HC : Forall (consistent ev) l).
      { apply Forall_forall. intros c I. destruct (In_nth _ _ c I) as (k & K & E). rewrite <- E. apply H. lia. }
      set (r := pass_spec ev w [] (map (fresh w) l)).
      assert (Er : pass ev w l = r) by (apply pass_is_spec; auto). assert (Lr : length r = n) by (unfold r; rewrite pass_spec_length, map_length; exact L).
      assert (c0 : cell) by (destruct l as [|c l0]; [exfalso; cbn in L; lia|exact c]).
      exists (fun i => c_w (nth (nth i (invert o) 0) r c0)).
      assert (Wk : forall k, k < n -> c_w (nth (nth (nth k o 0) (invert o) 0) r c0) = c_w (nth k r c0)).
      { intros k K. now rewrite (invert_order n). }
      assert (N : forall k, k < n -> nth k r c0 = eval_cell ev w (with_d w (map pair_of (firstn k r)) (fresh w (nth k l c0)))).
      { intros k K. unfold r at 1. rewrite pass_spec_nth by (rewrite map_length; lia). cbn [app]. fold r. f_equal. f_equal.
        rewrite (nth_indep _ c0 (fresh w c0)) by (rewrite map_length; lia). apply map_nth. }
      assert (Tk : forall k, k < n -> c_t (nth k r c0) = tb (nth k o 0)).
      { intros k K. rewrite N by assumption. cbn. now apply H. }
      assert (Ck : forall k, k < n -> consistent ev (nth k r c0)).
      { intros k K. rewrite N by assumption. unfold consistent, eval_cell. cbn. reflexivity. }
      assert (Pk : forall k, k < n -> map pair_of (firstn k r) = map (fun j => (tb j, ev (tb j) (c_w (nth (nth j (invert o) 0) r c0)))) (firstn k o)).
      { intros k K. apply (nth_ext _ _ (dT, ev dT (c_w c0)) (dT, ev dT (c_w c0))); [rewrite !map_length, !firstn_length; lia|].
        intros m M. rewrite map_length, firstn_length in M. assert (M1 : m < n) by lia.
        rewrite (nth_indep _ _ (pair_of c0)) by (rewrite map_length, firstn_length; lia). rewrite map_nth.
        rewrite (nth_indep (map _ (firstn k o)) _ ((fun j => (tb j, ev (tb j) (c_w (nth (nth j (invert o) 0) r c0)))) 0)) by (rewrite map_length, firstn_length; lia).
        rewrite (map_nth (fun j => (tb j, ev (tb j) (c_w (nth (nth j (invert o) 0) r c0))))).
        assert (Nf : forall {A} (x : list A) d, nth m (firstn k x) d = nth m x d).
        { intros A x d. rewrite <- (firstn_skipn k x) at 2. destruct (Nat.lt_ge_cases m (length (firstn k x))) as [Q|Q]; [now rewrite app_nth1|].
          rewrite firstn_length in Q. rewrite !nth_overflow; [reflexivity| |]; rewrite ?app_length, ?firstn_length, ?skipn_length; lia. }
        rewrite !Nf. unfold pair_of. rewrite Tk by assumption. rewrite Wk by assumption. rewrite (Ck m M1), Tk by assumption. reflexivity. }
      split.
      - intros i I. destruct (order_invert n o i Ho I) as (K & E). set (k := nth i (invert o) 0) in *. rewrite N at 1 by assumption. cbn [c_w eval_cell with_d fresh c_t c_d].
        destruct (H k c0 K) as (H1 & H2 & H3). rewrite H1, H2, E. f_equal. rewrite Pk by assumption. symmetry. pose proof (split_others (fun j => (tb j, ev (tb j) (c_w (nth (nth j (invert o) 0) r c0)))) k (w_new w (tb i)) K (fun _ _ => eq_refl)) as SP. rewrite E in SP. exact SP.
      - rewrite Er. split; [exact Lr|]. intros k dc K. rewrite (nth_indep _ dc c0) by lia. split; [now apply Tk|split; [|now apply Ck]]. symmetry. now apply Wk.
    Qed.
    Lemma solves_unique wf a b : solves w wf a -> solves w wf b -> forall i, i < n -> a i = b i.
    Proof.
      intros A B. assert (G : forall k, k < n -> a (nth k o 0) = b (nth k o 0)).
      { induction k as [k IH] using lt_wf_ind. intros K. assert (I : nth k o 0 < n) by now apply (perm_nth_lt n).
        rewrite (A _ I), (B _ I). f_equal. rewrite !split_others by (assumption || reflexivity). apply deltas_ext. intros j J.
        assert (L := perm_length _ _ Ho). destruct (In_nth _ _ 0 J) as (m & M & E). rewrite firstn_length in M.
        assert (E' : nth m o 0 = j). { rewrite <- E. rewrite <- (firstn_skipn k o) at 1. rewrite app_nth1; [reflexivity|]. rewrite firstn_length. lia. }
        rewrite <- E'. rewrite (IH m) by lia. reflexivity. }
      intros i I. destruct (order_invert n o i Ho I) as (K & E). rewrite <- E. now apply G.
    Qed.
  End Pass.

  Lemma run_down (ws : list wmodel) : all_down ws -> forall sd l, run_models ev ws sd false l = Ok (fold_left (fun l w => pass ev w l) ws l).
  Proof.
    intros H. induction H as [|w ws Hw Hws IH]; intros sd l; cbn [run_models fold_left]; [reflexivity|]. rewrite Hw. cbn [negb orb]. rewrite orb_true_r. cbn [andb]. apply IH.
  Qed.
  Lemma holds_ext o wf wf' l : isperm n o -> (forall i, i < n -> wf i = wf' i) -> holds o wf l -> holds o wf' l.
  Proof.
    intros P E (L & H). split; [exact L|]. intros k dc K. destruct (H k dc K) as (H1 & H2 & H3). split; [exact H1|split; [|exact H3]].
    rewrite H2. apply E. now apply (perm_nth_lt n).
  Qed.
  Lemma runs_agree o o' : forall ws : list wmodel, all_down ws -> neutral ws -> contributions_commute ws -> admissible dT ws farm o -> admissible dT ws farm o' ->
    forall wf l l', holds o wf l -> holds o' wf l' ->
    exists wf', holds o wf' (fold_left (fun l w => pass ev w l) ws l) /\ holds o' wf' (fold_left (fun l w => pass ev w l) ws l').
  Proof.
    induction ws as [|w ws IH]; intros Hd Hn Hc Ha Ha' wf l l' H H'; [exists wf; now split|]. cbn [fold_left].
    inversion Hd as [|? ? Hd1 Hd2]; subst. destruct Ha as (P & Ha), Ha' as (P' & Ha').
    destruct (pass_solves w o Hd1) with (wf := wf) (l := l) as (x & X1 & X2); auto; [intros; apply Hn; now left|intros; apply Hc; now left|intros; apply Ha; auto; now left|].
    destruct (pass_solves w o' Hd1) with (wf := wf) (l := l') as (y & Y1 & Y2); auto; [intros; apply Hn; now left|intros; apply Hc; now left|intros; apply Ha'; auto; now left|].
    assert (E : forall i, i < n -> x i = y i) by (apply (solves_unique w o) with (wf := wf); auto; [intros; apply Hc; now left|intros; apply Ha; auto; now left]).
    apply (IH Hd2) with (wf := x); auto.
    - intros w' I. apply Hn. now right.
    - intros w' I. apply Hc. now right.
    - split; [exact P|]. intros k m K M w' I. apply Ha; auto. now right.
    - split; [exact P'|]. intros k m K M w' I. apply Ha'; auto. now right.
    - apply holds_ext with (wf := y); auto. intros; symmetry; now apply E.
  Qed.
  Lemma start_holds o : isperm n o -> holds o (fun i => amb (tb i)) (start amb ev (fun _ => d0) (gather dT farm o)).
  Proof.
    intros P. assert (L := perm_length _ _ P). split; [unfold start; rewrite map_length, gather_length; exact L|]. intros k dc K. unfold start.
    rewrite (nth_indep _ dc (mkc dT (ev dT (amb dT)) (amb dT) d0)) by (rewrite map_length, gather_length; lia).
    rewrite (map_nth (fun t => mkc t (ev t (amb t)) (amb t) d0)). cbn. rewrite nth_gather by lia. repeat split.
  Qed.
  Lemma results_of o wf l : isperm n o -> holds o wf l -> gather dF (map (@c_f T F D W) l) (invert o) = map (fun i => ev (tb i) (wf i)) (seq 0 n).
  Proof.
    intros P (L & H). assert (Lo := perm_length _ _ P). apply (list_eq_nth dF); [rewrite gather_length, invert_length, map_length, seq_length; lia|].
    intros i I. rewrite gather_length, invert_length, Lo in I. rewrite nth_gather by (rewrite invert_length; lia). destruct (order_invert n o i P I) as (K & E).
    assert (c : cell) by (destruct l as [|c l0]; [exfalso; cbn in L; lia|exact c]).
    rewrite (nth_indep _ dF (c_f c)) by (rewrite map_length; lia). rewrite map_nth. destruct (H _ c K) as (H1 & H2 & H3). rewrite H3, H1, H2, E.
    rewrite (nth_indep _ dF ((fun i => ev (tb i) (wf i)) 0)) by (rewrite map_length, seq_length; lia). rewrite (map_nth (fun i => ev (tb i) (wf i))), seq_nth by lia. reflexivity.
  Qed.
  Lemma any_order (ws : list wmodel) o o' : all_down ws -> neutral ws -> contributions_commute ws -> admissible dT ws farm o -> admissible dT ws farm o' ->
    exists r, length r = n /\ calc_with amb ev dT dF d0 ws farm o = Ok r /\ calc_with amb ev dT dF d0 ws farm o' = Ok r.
  Proof.
    intros Hd Hn Hc Ha Ha'. unfold calc_with, calc_downwind. rewrite !run_down by assumption. cbn [bind].
    destruct (runs_agree o o' ws Hd Hn Hc Ha Ha' _ _ _ (start_holds o (proj1 Ha)) (start_holds o' (proj1 Ha'))) as (wf & A & B).
    rewrite (results_of o wf _ (proj1 Ha) A), (results_of o' wf _ (proj1 Ha') B). eexists. split; [|split; reflexivity]. now rewrite map_length, seq_length.
  Qed.
End P.

Section Ties.
  Context {T F D W K : Type}.
  Variable amb : T -> W.
  Variable ev : T -> W -> F.
  Variable leb : K -> K -> bool.
  Variable key : T -> K.
  Variables (dT : T) (dF : F) (d0 : D).
  Hypothesis total : forall a b, leb a b = true \/ leb b a = true.
  Hypothesis trans : forall a b c, leb a b = true -> leb b c = true -> leb a c = true.
  Notation wmodel := (@wmodel T F D W).
  Lemma sorted_admissible (ws : list wmodel) farm o : strictly_downstream leb key ws -> sorted_order dT leb key farm o -> admissible dT ws farm o.
  Proof. intros H (P & S0). split; [exact P|]. intros k l A B w I f d. apply H; [exact I|]. now apply S0. Qed.
  Lemma farm_order_sorted farm : sorted_order dT leb key farm (farm_order leb key farm).
  Proof.
    unfold farm_order. split.
    - pose proof (argsort_perm leb (map key farm)) as P. now rewrite map_length in P.
    - intros k l A B. pose proof (argsort_sorted leb total trans (map key farm) (key dT) k l A) as Q. rewrite map_length, !map_nth in Q. now apply Q.
  Qed.
  Lemma calc_farm_with (ws : list wmodel) farm : calc_farm amb ev leb key dT dF d0 ws farm = calc_with amb ev dT dF d0 ws farm (farm_order leb key farm).
  Proof. reflexivity. Qed.
  Lemma gather_perm n pi o : isperm n pi -> isperm n o -> isperm n (gather 0 pi o).
  Proof.
    intros P Q. unfold isperm in *. transitivity (gather 0 pi (seq 0 n)); [unfold gather; now apply Permutation_map|].
    rewrite <- (perm_length n pi P). rewrite gather_seq. now rewrite (perm_length n pi P).
  Qed.
  Lemma gather_gather (farm : list T) pi o : isperm (length farm) pi -> isperm (length farm) o -> gather dT (gather dT farm pi) o = gather dT farm (gather 0 pi o).
  Proof.
    intros P Q. assert (Lp := perm_length _ _ P). assert (Lo := perm_length _ _ Q). apply (list_eq_nth dT); [now rewrite !gather_length|].
    intros i I. rewrite gather_length in I. rewrite nth_gather by lia. rewrite nth_gather by (rewrite Lp; apply (perm_nth_lt _ _ _ Q); lia). rewrite nth_gather by (rewrite gather_length; lia). now rewrite nth_gather by lia.
  Qed.
  Lemma renumber_ties (ws : list wmodel) farm pi : all_down ws -> neutral ws -> contributions_commute ws -> strictly_downstream leb key ws -> isperm (length farm) pi ->
    exists r, length r = length farm /\ calc_farm amb ev leb key dT dF d0 ws farm = Ok r /\ calc_farm amb ev leb key dT dF d0 ws (gather dT farm pi) = Ok (gather dF r pi).
  Proof.
    intros Hd Hn Hc Hs P. set (o' := farm_order leb key (gather dT farm pi)). set (o2 := gather 0 pi o').
    assert (Lp := perm_length _ _ P).
    destruct (farm_order_sorted (gather dT farm pi)) as (P' & S'). fold o' in P', S'. rewrite gather_length, Lp in P', S'. assert (Lo := perm_length _ _ P').
    assert (P2 : isperm (length farm) o2) by now apply gather_perm.
    assert (A2 : sorted_order dT leb key farm o2).
    { split; [exact P2|]. intros k l A B. specialize (S' k l A B). unfold o2. rewrite !nth_gather by lia. rewrite !nth_gather in S' by (rewrite Lp; apply (perm_nth_lt _ _ _ P'); lia). exact S'. }
    destruct (any_order amb ev dT dF d0 farm ws (farm_order leb key farm) o2 Hd Hn Hc) as (r & L & E1 & E2); try (apply sorted_admissible; auto using farm_order_sorted).
    exists r. split; [exact L|split; [exact E1|]]. rewrite calc_farm_with. fold o'. unfold calc_with in *. rewrite gather_gather by assumption. fold o2.
    destruct (calc_downwind amb ev d0 ws (gather dT farm o2)) as [r1|e] eqn:C; [|discriminate]. cbn [bind] in *. injection E2 as <-. f_equal.
    assert (Li := perm_length _ _ P2). apply (list_eq_nth dF); [rewrite !gather_length, invert_length; lia|]. intros i I. rewrite gather_length, invert_length in I.
    assert (Ii : i < length farm) by lia. destruct (order_invert _ _ i P' Ii) as (B & E).
    rewrite nth_gather by (rewrite invert_length; lia). rewrite nth_gather by lia. rewrite nth_gather by (rewrite invert_length; rewrite Li; apply (perm_nth_lt _ _ _ P); lia).
    f_equal. set (k := nth i (invert o') 0) in *. rewrite <- (invert_order _ o2 k P2 B). f_equal. unfold o2. rewrite nth_gather by lia. now rewrite E.
  Qed.
  Lemma listed_sorted farm : (forall i j, i < j -> j < length farm -> leb (key (nth i farm dT)) (key (nth j farm dT)) = true) -> sorted_order dT leb key farm (listed_order farm).
  Proof. intros H. unfold listed_order. split; [apply Permutation_refl|]. intros k l A B. rewrite !seq_nth by lia. cbn. now apply H. Qed.
End Ties.
