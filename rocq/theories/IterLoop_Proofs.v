(** Proofs about the iteration loop. *)
From Verif Require Import Base IterLoop_Model IterLoop_Spec FarmWakes_Model FarmWakes_Spec FarmWakes_Proofs FarmIter_Proofs.

Section L.
  Context {R : Type}.
  Variable run : mkind -> option R -> R.
  Variable block : nat -> bool.
  Variable crit : option (option R -> R -> bool).
  Variable amb : bool.
  Notation it_ := (iterate run amb).
  Notation bf := (before run amb).
  Notation ok := (passes run block crit amb).

  Lemma stop_passes i : stop block crit i (bf i) (it_ i) = true <-> ok i.
  Proof.
    unfold stop, passes. destruct crit as [c|].
    - destruct (block i) eqn:E; split.
      + discriminate.
      + intros (c' & _ & X & _). discriminate.
      + intros H. exists c. auto.
      + intros (c' & X & _ & H). now injection X as <-.
    - split; [discriminate|]. intros (c' & X & _). discriminate.
  Qed.
  Lemma run_iterate i : run (collect i false amb) (bf i) = it_ i.
  Proof. destruct i; cbn; [reflexivity|]. now destruct amb. Qed.

  Lemma loop_spec k : forall i, exists n, i <= n /\ n <= i + k /\
    iter_loop run block crit amb k i (bf i) = (bf n, it_ n, n) /\
    (forall j, i <= j -> j < n -> ~ ok j) /\ (n = i + k \/ ok n).
  Proof.
    induction k as [|k IH]; intros i; cbn [iter_loop]; rewrite run_iterate.
    - exists i. repeat split; try lia. now destruct (stop block crit i (bf i) (it_ i)).
    - destruct (stop block crit i (bf i) (it_ i)) eqn:E.
      + exists i. repeat split; try lia. right. now apply stop_passes.
      + destruct (IH (S i)) as (n & A1 & A2 & A3 & A4 & A5). exists n. repeat split; try lia.
        * exact A3.
        * intros j H1 H2. destruct (Nat.eq_dec j i) as [->|Hne]; [|apply A4; lia].
          intros X. apply stop_passes in X. congruence.
        * destruct A5; [left; lia|now right].
  Qed.
  Lemma calc_spec max_it : exists n, n <= max_it /\
    calc_farm_iter run block crit amb max_it = (run (collect n true amb) (bf n), it_ n, n) /\
    (forall j, j < n -> ~ ok j) /\ (n = max_it \/ ok n).
  Proof.
    destruct (loop_spec max_it 0) as (n & _ & A2 & A3 & A4 & A5). exists n. split; [lia|].
    unfold calc_farm_iter. cbn [before] in A3. rewrite A3. repeat split; auto. intros j Hj. apply A4; lia.
  Qed.

  Lemma returned_spec max_it fres dwnd n : calc_farm_iter run block crit amb max_it = (fres, dwnd, n) ->
    dwnd = it_ n /\
    fres = match n with
           | O => run MFull None
           | S m => run (if amb then MFull else MReorder) (Some (it_ m))
           end.
  Proof.
    intros E. destruct (calc_spec max_it) as (n' & _ & E' & _). rewrite E in E'. injection E' as -> -> ->.
    split; [reflexivity|]. destruct n'; cbn; [reflexivity|]. now destruct amb.
  Qed.
  Lemma terminates_spec max_it fres dwnd n : calc_farm_iter run block crit amb max_it = (fres, dwnd, n) ->
    n <= max_it /\ (forall j, j < n -> ~ ok j) /\ (n = max_it \/ ok n).
  Proof.
    intros E. destruct (calc_spec max_it) as (n' & H1 & E' & H2 & H3). rewrite E in E'. injection E' as -> -> ->. auto.
  Qed.
End L.

(** The loop around the wake sweeps of one state. *)
Section Sweeps.
  Context {T F D W : Type}.
  Variable amb : T -> W.
  Variable ev : T -> W -> F.
  Variable reord : list F -> list F.
  Notation wmodel := (@wmodel T F D W).
  Lemma iterate_sweeps (ws : list wmodel) ts i : iterate (sweep_run amb ev reord ws ts) false i = sweeps amb ev ws ts (S i).
  Proof. induction i as [|i IH]; cbn [iterate]; [reflexivity|]. rewrite IH. reflexivity. Qed.

  Lemma sweeps_result (ws : list wmodel) ts block crit n fres dwnd k r d0 :
    all_down ws -> neutral ws -> no_feedback ev ws -> acts_downstream ws ts ->
    calc_downwind amb ev d0 ws ts = Ok r -> length ts = n -> 
    (forall c, crit = Some c -> forall p q, c (Some p) q = true -> p = q) ->
    (forall c, crit = Some c -> forall q, c None q = false) ->
    calc_farm_iter (sweep_run amb ev reord ws ts) block crit false (default_max_it n) = (fres, dwnd, k) ->
    dwnd = r /\ fres = reord r.
  Proof.
    intros H1 H2 H3 H4 Er Hn Hc Hc0 E.
    destruct (returned_spec _ _ _ _ _ _ _ _ E) as (E1 & E2).
    destruct (terminates_spec _ _ _ _ _ _ _ _ E) as (T1 & T2 & T3).
    destruct k as [|k].
    - exfalso. destruct T3 as [T3|(c & C1 & C2 & C3)]; [unfold default_max_it in T3; lia|]. cbn in C3. rewrite (Hc0 c C1) in C3. discriminate.
    - cbn in E2. rewrite iterate_sweeps in E1, E2. subst dwnd fres.
      assert (X : sweeps amb ev ws ts (S k) = r).
      { destruct T3 as [T3|(c & C1 & C2 & C3)].
        - eapply iterative_all; eauto. unfold default_max_it in T3. nia.
        - cbn [before] in C3. apply (Hc c C1) in C3. rewrite !iterate_sweeps in C3. symmetry in C3.
          rewrite (downwind_ideal amb ev d0 ws ts H1 H2 H3) in Er. injection Er as <-. now apply fixpoint_all. }
      split; [|now rewrite X]. change (sweeps amb ev ws ts (S (S k))) with (sweep amb ev ws ts (sweeps amb ev ws ts (S k))).
      rewrite X. rewrite (downwind_ideal amb ev d0 ws ts H1 H2 H3) in Er. injection Er as <-.
      rewrite <- (sweeps_all amb ev ws ts (length ts)) at 1 by (auto; lia).
      change (sweep amb ev ws ts (sweeps amb ev ws ts (length ts))) with (sweeps amb ev ws ts (S (length ts))).
      apply sweeps_all; auto; lia.
  Qed.
  Lemma limit_result (ws : list wmodel) ts block crit fres dwnd r d0 :
    all_down ws -> neutral ws -> no_feedback ev ws -> acts_downstream ws ts ->
    calc_downwind amb ev d0 ws ts = Ok r ->
    calc_farm_iter (sweep_run amb ev reord ws ts) block crit false (default_max_it (length ts))
      = (fres, dwnd, default_max_it (length ts)) ->
    dwnd = r /\ fres = reord r.
  Proof.
    intros H1 H2 H3 H4 Er E.
    destruct (returned_spec _ _ _ _ _ _ _ _ E) as (E1 & E2). unfold default_max_it in E1, E2. cbn in E2.
    rewrite iterate_sweeps in E1. rewrite E1, E2. clear E1 E2.
    split; [|f_equal].
    - eapply iterative_all; eauto. nia.
    - change (sweep amb ev ws ts (iterate (sweep_run amb ev reord ws ts) false (length ts * length ts)))
        with (iterate (sweep_run amb ev reord ws ts) false (S (length ts * length ts))).
      rewrite iterate_sweeps. eapply iterative_all; eauto. nia.
  Qed.
End Sweeps.
