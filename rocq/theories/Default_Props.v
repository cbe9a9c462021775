(** C256: the default engine. *)
From Coq Require Import Permutation.
From Verif Require Import RBase Chunk_Model Chunk_Spec Chunk_Proofs EngineRun_Model EngineRun_Spec EngineRun_Proofs EngineRun_Props YieldRun_Spec Flow_Spec Default_Model.
Local Open Scope R_scope.

Lemma sqrt_le_iff a b : 0 <= a -> 0 <= b -> sqrt a <= b <-> a <= b * b.
Proof.
  intros Ha Hb. split; intros H.
  - rewrite <- (sqrt_sqrt a Ha). pose proof (sqrt_pos a). nra.
  - rewrite <- (sqrt_square b Hb). now apply sqrt_le_1_alt.
Qed.
Lemma pow_15 x : 0 < x -> Rpower x 1.5 = sqrt (x * x * x).
Proof.
  intros H. rewrite <- Rpower_sqrt by (repeat apply Rmult_lt_0_compat; exact H). replace (x * x * x) with (Rpower x 3) by (replace 3 with (INR 3) by (cbn; lra); rewrite Rpower_pow by exact H; ring). rewrite Rpower_mult. f_equal. lra.
Qed.
(** The rule: a process pool if and only if n_states^2 n_turbines^3 >= n_procs 500^3, or more than 10000 values per variable are calculated at points. *)
Theorem C256_rule : forall np nt ns targets, (1 <= nt)%nat -> exists b, choose_process np nt ns targets = Ok b /\
  (b = true <-> INR np * 125000000 <= INR ns * INR ns * (INR nt * INR nt * INR nt) \/ exists m, targets = Some m /\ (ns * m > 10000)%nat).
Proof.
  intros np nt ns targets Hn. unfold choose_process. rewrite (proj2 (Nat.eqb_neq nt 0)) by lia. eexists. split; [reflexivity|]. rewrite orb_true_iff. assert (T0 : 0 < INR nt) by (apply lt_0_INR; lia). set (t := INR nt) in *. set (p := INR np). assert (P0 : 0 <= p) by apply pos_INR. set (s := INR ns). assert (S0 : 0 <= s) by apply pos_INR.
  assert (A : Rleb (sqrt p * Rpower (500 / t) 1.5) s = true <-> p * 125000000 <= s * s * (t * t * t)).
  { rewrite Rleb_true. assert (Q : 0 < 500 / t) by (apply Rdiv_lt_0_compat; lra). assert (Q3 : 0 < 500 / t * (500 / t) * (500 / t)) by (apply Rmult_lt_0_compat; [apply Rmult_lt_0_compat|]; exact Q). rewrite (pow_15 _ Q). rewrite <- sqrt_mult by (try exact P0; left; exact Q3).
    rewrite sqrt_le_iff; [|apply Rmult_le_pos; [exact P0|left; exact Q3]|exact S0].
    assert (T3 : 0 < t * t * t) by (repeat apply Rmult_lt_0_compat; exact T0). assert (E : p * (500 / t * (500 / t) * (500 / t)) * (t * t * t) = p * 125000000) by (field; lra). split; intros H.
    - rewrite <- E. apply Rmult_le_compat_r; [lra|exact H].
    - apply (Rmult_le_reg_r (t * t * t)); [exact T3|]. rewrite E. exact H. }
  rewrite A. split; (intros [H|H]; [now left|right]).
  - destruct targets as [m|]; [|discriminate]. exists m. split; [reflexivity|]. now apply Nat.ltb_lt in H.
  - destruct H as (m & -> & H). now apply Nat.ltb_lt.
Qed.
Print Assumptions C256_rule.
(** A pool that is used for a calculation is also used for one with more states, turbines or points, or fewer processes. *)
Theorem C256_monotone : forall np nt ns m np' nt' ns' m', (1 <= nt)%nat -> (np' <= np)%nat -> (nt <= nt')%nat -> (ns <= ns')%nat -> (m <= m')%nat ->
  (choose_process np nt ns None = Ok true -> choose_process np' nt' ns' None = Ok true) /\ (choose_process np nt ns (Some m) = Ok true -> choose_process np' nt' ns' (Some m') = Ok true).
Proof.
  intros np nt ns m np' nt' ns' m' Hn Hp Ht Hs Hm.
  assert (K : INR np * 125000000 <= INR ns * INR ns * (INR nt * INR nt * INR nt) -> INR np' * 125000000 <= INR ns' * INR ns' * (INR nt' * INR nt' * INR nt')).
  { intros H. apply le_INR in Hp, Ht, Hs. pose proof (pos_INR ns). pose proof (pos_INR nt). apply Rle_trans with (INR np * 125000000); [lra|]. apply Rle_trans with (1 := H). repeat apply Rmult_le_compat; try assumption; repeat apply Rmult_le_pos; assumption. }
  split; intros H.
  - destruct (C256_rule np nt ns None Hn) as (b & E & I). rewrite H in E. injection E as <-. destruct (proj1 I eq_refl) as [A|(x & A & _)]; [|discriminate]. destruct (C256_rule np' nt' ns' None ltac:(lia)) as (b' & E' & I'). rewrite E'. f_equal. apply I'. left. now apply K.
  - destruct (C256_rule np nt ns (Some m) Hn) as (b & E & I). rewrite H in E. injection E as <-. destruct (C256_rule np' nt' ns' (Some m') ltac:(lia)) as (b' & E' & I'). rewrite E'. f_equal. apply I'. destruct (proj1 I eq_refl) as [A|(x & A & B)]; [left; now apply K|]. right. injection A as <-. exists m'. split; [reflexivity|]. nia.
Qed.
Print Assumptions C256_monotone.
(** Whatever is chosen, and in whatever order the chunks of a pool are completed, the results are those of the unchunked calculation. *)
Theorem C256_same_points : forall (X Y V : Type) (calc : list X -> list (list Y) -> list (list V)) np nt css csp xs ps m sched, per_pair calc -> valid_setting (Z.of_nat np) css csp -> (1 <= nt)%nat -> xs <> [] -> (1 <= m)%nat -> shape ps (length xs) m ->
  schedule_points (Z.of_nat np) css csp (length xs) m sched -> default_points calc np nt css csp xs ps sched = Ok (calc xs ps).
Proof.
  intros X Y V calc np nt css csp xs ps m sched HC HV Hn Hx Hm Hsh HP. unfold default_points. assert (L : (1 <= length xs)%nat) by (destruct xs; [contradiction|cbn; lia]).
  assert (Hh : length (hd [] ps) = m). { destruct Hsh as [Lp Fp]. destruct ps as [|r ps]; [cbn in Lp; lia|]. now inversion Fp. } rewrite Hh. destruct (C256_rule np nt (length xs) (Some m) Hn) as (b & E & _). rewrite E. cbn [bind].
  pose proof HC as (g & Hg). assert (S1 : run_single calc xs ps = Ok (calc xs ps)) by exact (run_single_ok calc g Hg xs ps (length xs) m eq_refl Hsh L). destruct b; [|exact S1].
  destruct (C01_lemma (Z.of_nat np) css csp (Z.of_nat (length xs)) (Z.of_nat m) (length xs) HV ltac:(lia) ltac:(lia) ltac:(lia)) as (ls & lt & E1 & _). rewrite E1. cbn [bind fst snd].
  rewrite <- S1. exact (engine_points_lemma X Y V calc HC (Z.of_nat np) css csp xs ps m ls lt (length xs) sched HV L Hm Hsh (Nat.le_refl _) E1 (HP ls lt E1)).
Qed.
Print Assumptions C256_same_points.
Theorem C256_same_farm : forall (X V : Type) (calc : list X -> list V) np nt css csp xs sched, per_state calc -> valid_setting (Z.of_nat np) css csp -> (1 <= nt)%nat -> xs <> [] ->
  schedule (Z.of_nat np) css csp (length xs) sched -> default_farm calc np nt css csp xs sched = Ok (calc xs).
Proof.
  intros X V calc np nt css csp xs sched HC HV Hn Hx HP. unfold default_farm. assert (L : (1 <= length xs)%nat) by (destruct xs; [contradiction|cbn; lia]). destruct (C256_rule np nt (length xs) None Hn) as (b & E & _). rewrite E. cbn [bind]. destruct b.
  - destruct (C01_lemma (Z.of_nat np) css csp (Z.of_nat (length xs)) 0%Z (length xs) HV ltac:(lia) ltac:(lia) ltac:(lia)) as (ls & lt & E1 & _). rewrite E1. cbn [bind fst]. exact (engine_farm_lemma X V calc HC (Z.of_nat np) css csp xs ls lt (length xs) sched HV L (Nat.le_refl _) E1 (HP ls lt E1)).
  - cbn. rewrite app_nil_r. f_equal. f_equal. unfold slice. rewrite Nat.sub_0_r. apply firstn_all.
Qed.
Print Assumptions C256_same_farm.
(** 4 processes and 100 turbines: a pool from 23 states on; with 500 turbines from 2 states on; 2 turbines and 100 states at 101 points: a pool. *)
Example C256_nonvacuous : choose_process 4 100 23 None = Ok true /\ choose_process 4 100 22 None = Ok false /\ choose_process 4 500 2 None = Ok true /\ choose_process 4 2 100 (Some 101%nat) = Ok true /\ choose_process 4 2 100 (Some 100%nat) = Ok false /\ choose_process 4 0 7 None = Err ZeroDivisionError.
Proof.
  assert (B : forall b : bool, b <> true -> b = false) by (intros [|]; [now intros []|reflexivity]).
  repeat split; try reflexivity; match goal with |- choose_process ?p ?t ?s ?m = _ => destruct (C256_rule p t s m ltac:(lia)) as (b & E & I); rewrite E; f_equal end; [apply I; left|apply B; intros Q; apply I in Q as [Q|(m & Q & _)]; [revert Q|discriminate]|apply I; left|apply I; right; exists 101%nat; split; [reflexivity|apply Nat.ltb_lt; reflexivity]|apply B; intros Q; apply I in Q as [Q|(m & Q & Q')]; [revert Q|injection Q as <-; apply Nat.ltb_lt in Q'; discriminate Q']];
    rewrite !INR_IZR_INZ; cbn [Z.of_nat Pos.of_succ_nat Pos.succ]; lra.
Qed.
