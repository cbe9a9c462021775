(** Theorems about SetFarmVars for turbine positions, hub heights and rotor diameters, and its option once. *)
From Verif Require Import Base RBase SetVars_Model SetVars_Proofs.
Local Open Scope nat_scope.

(** C144: positions that are set for some states (NaN: not set) are the turbine's positions in these states, the farm's layout in the others, for chunks of
    any sizes and also if the calculation is repeated *)
Theorem C144_positions N data v : length data = N -> fits N v ->
  exists v', load_position N data v = Done v' /\ load_position N data v' = Done v' /\
    forall i0 n, i0 + n <= N -> exists x, init_position i0 n v' = Done x /\ length x = n /\
      forall k, k < n -> nth k x None = match nth (i0 + k) data None with Some p => Some p | None => old_value v (i0 + k) end.
Proof.
  intros Hn Hv. destruct (load_position_fits N data v Hn Hv) as (l & E & L & X). exists (TArr l). split; [exact E|]. split.
  - destruct (load_position_fits N data (TArr l) Hn L) as (l2 & E2 & L2 & X2). rewrite E2. f_equal. f_equal. apply (nth_ext _ _ None None); [congruence|].
    intros k Hk. rewrite X2 by lia. cbn [old_value]. rewrite X by lia. unfold overlay. now destruct (nth k data None).
  - intros i0 n H. destruct (init_slice i0 n N l L H) as (x & A & B & C). exists x. split; [exact A|]. split; [exact B|]. intros k Hk. rewrite C, X by lia.
    unfold overlay. now destruct (nth (i0 + k) data None).
Qed.
Print Assumptions C144_positions.
(** ... but they are written into the farm: without the model, a later calculation with this farm still has them, for all its states if these are no more
    than before, and a shape error else *)
Theorem C144_farm_changed_refuted N data x n : length data = N -> 2 <= N ->
  exists v', load_position N data (TNum x) = Done v' /\
    (n <= N -> exists l, init_position 0 n v' = Done l /\ forall k, k < n -> nth k l None = match nth k data None with Some p => Some p | None => x end) /\
    (N < n -> init_position 0 n v' = ShapeError).
Proof.
  intros Hn H2. destruct (load_position_fits N data (TNum x) Hn I) as (l & E & L & X). exists (TArr l). split; [exact E|]. split.
  - intros H. destruct (init_slice 0 n N l L ltac:(lia)) as (y & A & B & C). exists y. split; [exact A|]. intros k Hk. rewrite C by exact Hk. cbn [Nat.add]. rewrite X by lia.
    unfold overlay. now destruct (nth k data None).
  - intros H. cbn [init_position skipn]. rewrite firstn_all2 by lia. cbn [fill]. destruct (Nat.eqb_spec (length l) n); [lia|].
    destruct l as [|a [|b l]]; cbn in L; try reflexivity; lia.
Qed.
Print Assumptions C144_farm_changed_refuted.
Example C144_nonvacuous : load_position 3 [Some 7%R; None; Some 9%R] (TNum (Some 1%R)) = Done (TArr [Some 7%R; Some 1%R; Some 9%R]) /\
  init_position 1 2 (TArr [Some 7%R; Some 1%R; Some 9%R]) = Done [Some 1%R; Some 9%R].
Proof. split; reflexivity. Qed.

(** C145: hub heights and rotor diameters that are set for some states are used in these states, the turbine's own value in the others, if it has one and if
    all states are in one chunk *)
Theorem C145_own_value N data x dflt : length data = N ->
  exists v', load_value N data (TNum (Some x)) = Done v' /\
    exists l, init_value N dflt v' = Done l /\ forall k, k < N -> nth k l None = match nth k data None with Some p => Some p | None => Some x end.
Proof.
  intros Hn. destruct (load_value_fits N data (TNum (Some x)) Hn I) as (l & E & L & X). exists (TArr l). split; [exact E|]. exists l. split; [now apply fill_arr|].
  intros k Hk. rewrite X by exact Hk. unfold overlay. now destruct (nth k data None).
Qed.
Print Assumptions C145_own_value.
(** ... without SetFarmVars, a turbine has its own value, or its turbine type's if it has none, in all states of all chunks *)
Theorem C145_without_model n dflt x : (exists l, init_value n dflt TNone = Done l /\ length l = n /\ forall k, k < n -> nth k l None = dflt) /\
  (exists l, init_value n dflt (TNum x) = Done l /\ length l = n /\ forall k, k < n -> nth k l None = x).
Proof.
  split; [exists (repeat dflt n)|exists (repeat x n)]; (split; [reflexivity|split; [apply repeat_length|intros k Hk; now apply nth_repeat]]).
Qed.
Print Assumptions C145_without_model.
(** ... but if the turbine takes it from its turbine type (the usual case), the value is NaN in the other states, not the type's *)
Theorem C145_turbine_type_refuted N data dflt : length data = N ->
  exists v', load_value N data TNone = Done v' /\ init_value N dflt v' = Done data.
Proof.
  intros Hn. exists (TArr data). unfold load_value. cbn [fill]. rewrite <- Hn, where_repeat. split; [reflexivity|]. now apply fill_arr.
Qed.
Print Assumptions C145_turbine_type_refuted.
(** ... and with two or more chunks of states there is a shape error *)
Theorem C145_chunks_refuted N data v v' n dflt : length data = N -> 2 <= N -> n <> N -> load_value N data v = Done v' -> init_value n dflt v' = ShapeError.
Proof.
  intros Hn H2 Hne. unfold load_value. destruct (fill N v) as [x|] eqn:E; [|discriminate]. intros H. injection H as <-.
  assert (L : length (where_nan data x) = N) by (rewrite where_len; [exact Hn|]; apply fill_len in E; congruence).
  cbn [init_value fill]. destruct (Nat.eqb_spec (length (where_nan data x)) n); [congruence|].
  destruct (where_nan data x) as [|a [|b l]]; cbn in L; try reflexivity; lia.
Qed.
Print Assumptions C145_chunks_refuted.
(** the type's hub height 100 is lost in the second state; with the turbine's own it is kept *)
Example C145_nonvacuous : load_value 2 [Some 120%R; None] TNone = Done (TArr [Some 120%R; None]) /\ init_value 2 (Some 100%R) (TArr [Some 120%R; None]) = Done [Some 120%R; None] /\
  load_value 2 [Some 120%R; None] (TNum (Some 100%R)) = Done (TArr [Some 120%R; Some 100%R]) /\ init_value 1 (Some 100%R) (TArr [Some 120%R; Some 100%R]) = ShapeError.
Proof. repeat split. Qed.

(** C146: with once, the first calculation applies the settings in each chunk at the first call, and leaves the variable to the other models after that;
    [upd]: their effect, k + 1 calls per chunk *)
Theorem C146_first_calculation upd k chunks : NoDup (map fst chunks) ->
  snd (once_run true upd (S k) chunks []) = map (fun c => Nat.iter (S k) upd (snd c)) chunks.
Proof. intros H. apply once_run_first; [exact H|]. intros i []. Qed.
Print Assumptions C146_first_calculation.
(** ... but a further calculation without new initialization does not apply them: it starts from NaN *)
Theorem C146_second_calculation_refuted upd k chunks : NoDup (map fst chunks) ->
  snd (once_run true upd (S k) chunks (fst (once_run true upd (S k) chunks []))) = map (fun c => Nat.iter (S k) upd (repeat None (length (snd c)))) chunks.
Proof.
  intros H. apply once_run_later. intros i Hi. destruct (once_run_first upd k chunks [] H (fun i (F : In i []) => match F with end)) as [A _]. rewrite A, app_nil_r.
  now apply in_rev in Hi.
Qed.
Print Assumptions C146_second_calculation_refuted.
(** ... nor do states after the first of the Sequential algorithm, all of which have offset 0 (C140) *)
Theorem C146_sequential_refuted upd k d0 later : let runs := once_run true upd (S k) ((0, d0) :: map (fun d => (0, d)) later) [] in
  snd runs = Nat.iter (S k) upd d0 :: map (fun d => Nat.iter (S k) upd (repeat None (length d))) later.
Proof.
  cbn zeta. cbn [once_run]. rewrite once_first by (intros []). rewrite where_repeat.
  pose proof (once_run_later upd (S k) (map (fun d => (0, d)) later) [0]) as E.
  assert (HI : forall i, In i (map fst (map (fun d : list (option R) => (0, d)) later)) -> In i [0]).
  { intros i Hi. rewrite map_map in Hi. apply in_map_iff in Hi as (d & Hd & _). cbn in Hd. subst. now left. }
  specialize (E HI). destruct (once_run true upd (S k) (map (fun d => (0, d)) later) [0]) as [d' fs]. cbn [snd] in *. rewrite E. f_equal. now rewrite map_map.
Qed.
Print Assumptions C146_sequential_refuted.
(** without once, the settings are applied in each call *)
Theorem C146_not_once upd k i0 data s : snd (once_calls false upd (S k) i0 data s) = upd (where_nan data (snd (once_calls false upd k i0 data s))).
Proof.
  revert s. induction k as [|k IH]; intros [d f].
  - reflexivity.
  - change (once_calls false upd (S (S k)) i0 data (d, f)) with (once_calls false upd (S k) i0 data (i0 :: d, upd (where_nan data f))). rewrite IH. reflexivity.
Qed.
Print Assumptions C146_not_once.
Example C146_nonvacuous : let chunks := [(0, [Some 1%R; None]); (2, [Some 3%R])] in
  once_run true (fun x => x) 2 chunks [] = ([2; 0], [[Some 1%R; None]; [Some 3%R]]) /\ snd (once_run true (fun x => x) 2 chunks [2; 0]) = [[None; None]; [None]].
Proof. split; reflexivity. Qed.
