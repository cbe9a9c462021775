(** Theorems about turbine curves. *)
From Verif Require Import RBase Curves_Model Curves_Spec Curves_Proofs.
Local Open Scope R_scope.

(** C46 *)
Theorem C46_within_table t x hi y : sorted t -> values_in 0 hi t -> 0 <= hi -> interp t x = Ok y -> 0 <= y <= hi.
Proof. intros S V H. apply (interp_bounds t x 0 hi y S V). lra. Qed.
Print Assumptions C46_within_table.
Theorem C46_exact_at_nodes t x y : sorted t -> In (x, y) t -> interp t x = Ok y.
Proof. exact (interp_node t x y). Qed.
Print Assumptions C46_exact_at_nodes.
Theorem C46_zero_outside t x : t <> [] -> (forall x' y', In (x', y') t -> x < x') \/ (forall x' y', In (x', y') t -> x' < x) -> interp t x = Ok 0.
Proof. exact (interp_outside t x). Qed.
Print Assumptions C46_zero_outside.
Theorem C46_monotone t x x' : sorted t -> increasing t -> (forall x y, In (x, y) t -> 0 <= y) -> x <= x' -> x' <= fst (last t (0, 0)) -> t <> [] ->
  exists y y', interp t x = Ok y /\ interp t x' = Ok y' /\ y <= y'.
Proof. exact (interp_mono t x x'). Qed.
Print Assumptions C46_monotone.
Example C46_nonvacuous : let t := [(3, 0); (4, 100); (12, 3000); (25, 3000)] in sorted t /\ values_in 0 3000 t /\ interp t 8 = Ok 1550.
Proof.
  cbv zeta. split; [cbn; lra|]. split.
  - intros x y H. cbn in H. destruct H as [E|[E|[E|[E|[]]]]]; injection E as <- <-; lra.
  - unfold interp. cbn [last fst]. rdec; try lra. f_equal. cbn [interp_from]. rdec; try lra.
Qed.

(** C47 is false if power and thrust use the same wind speed variable: if all turbines share the type, the thrust
    coefficient is evaluated with the power corrections as well, and vice versa, and the wind speed kept in the farm data
    is changed; otherwise nothing of this happens. *)
Theorem C47_shared_type_refuted v fR fC fP f :
  let '(fs, cs, ps) := correct true v v fR fC fP f in let '(fo, co, po) := correct false v v fR fC fP f in
  fs v = f v * fR * fC * fP /\ cs = f v * fR * fC * fP /\ ps = f v * fR * fC * fP /\
  fo v = f v /\ co = f v * fC /\ po = f v * fR * fP.
Proof.
  pose proof (correct_same v fR fC fP f) as H. destruct (correct true v v fR fC fP f) as ((fs & cs) & ps). cbn in *. tauto.
Qed.
Print Assumptions C47_shared_type_refuted.
Example C47_shared_type_example :
  exists t fR f r1 r2, calculate true REWS REWS t t fR 1 1 f = Ok r1 /\ calculate false REWS REWS t t fR 1 1 f = Ok r2 /\ snd r1 <> snd r2.
Proof.
  exists [(0, 0); (100, 100)], (1/2), (fun _ => 10). unfold calculate. cbn [correct].
  do 2 eexists. split; [cbn [bind]; rewrite !put_same; reflexivity|]. split; [cbn; reflexivity|]. cbn. rdec; lra.
Qed.
(** With two different variables the power and thrust of one evaluation do not depend on it. *)
Theorem C47_distinct_variables_partial wsct wsp tP tC fR fC fP f r1 : wsct <> wsp ->
  calculate true wsct wsp tP tC fR fC fP f = Ok r1 -> exists r2, calculate false wsct wsp tP tC fR fC fP f = Ok r2 /\
  snd (fst r1) = snd (fst r2) /\ snd r1 = snd r2.
Proof. exact (calculate_distinct wsct wsp tP tC fR fC fP f r1). Qed.
Print Assumptions C47_distinct_variables_partial.

(** C48 is false: two turbines of one type smooth its thrust curve twice. *)
Theorem C48_cutin_once_refuted a n it t x c r : 0 <= a < 1 -> (2 <= n)%nat -> from_cutin t = (x, c) :: r -> 0 < x -> 1e-5 <= (1 - a) * c ->
  exists t1 t2, modify_times 1 a n (S it) t = Ok t1 /\ modify_times 2 a n (S it) t = Ok t2 /\ (length t1 < length t2)%nat.
Proof.
  intros H1 H2 H3 H4 H5. destruct (modify_twice a n it t x c r H1 H2 H3 H4 H5) as (t1 & t2 & A & B & C & _).
  exists t1, t2. cbn [modify_times]. rewrite A. cbn [bind]. rewrite B. auto.
Qed.
Print Assumptions C48_cutin_once_refuted.
(** One application: the table from cut-in on is kept, below it the thrust rises from 0 at wind speed 0 to at most its
    cut-in value. *)
Theorem C48_single_type_partial a n it t t' : 0 <= a <= 1 -> (0 < n)%nat -> modify_times 1 a n it t = Ok t' ->
  t' = t \/ exists x c r new, t' = new ++ (x, c) :: r /\ from_cutin t = (x, c) :: r /\ 0 < x /\ length new = n /\
    (forall y d, In (y, d) new -> 0 <= y < x /\ 0 <= d <= c) /\ nth_error new 0 = Some (0, 0) /\ increasing (new ++ [(x, c)]).
Proof.
  intros H1 H2. cbn [modify_times]. destruct (modify_cutin a n it t) as [t0|] eqn:E; cbn [bind]; [|discriminate]. intros E'. injection E' as <-.
  now apply (modify_once_ok a n it t).
Qed.
Print Assumptions C48_single_type_partial.
Example C48_nonvacuous : exists t1 t2, modify_times 1 0.55 20 100 [(3, 0); (4, 0.8); (25, 0.2)] = Ok t1 /\ modify_times 2 0.55 20 100 [(3, 0); (4, 0.8); (25, 0.2)] = Ok t2 /\ (length t1 < length t2)%nat.
Proof.
  apply (C48_cutin_once_refuted 0.55 20 99 _ 4 0.8 [(25, 0.2)]); try lra; try lia.
  cbn [from_cutin]. rdec; try lra. reflexivity.
Qed.

(** C85 is false for every unit but W: power values are in the unit of the type, the automatic nominal power is divided by
    the unit factor again, so that the capacity at the largest table value is the unit factor. *)
Theorem C85_capacity_refuted unit t x y : unit <> 0 -> In (x, y) t -> (forall x' y', In (x', y') t -> y' <= y) -> 0 < y ->
  y / auto_nominal unit t = unit.
Proof.
  intros Hu Hin Hm Hy. destruct (auto_nominal_times unit t Hu) as (m & E & A & (x' & B)); [now intros ->|].
  assert (M : m = y) by (apply Rle_antisym; [now apply (Hm x')|now apply (A x)]). rewrite <- M, <- E. field. intros Z. rewrite Z in E. lra.
Qed.
Print Assumptions C85_capacity_refuted.
Theorem C85_watts_partial t x y : In (x, y) t -> 0 < auto_nominal 1 t -> y / auto_nominal 1 t <= 1.
Proof.
  intros Hin Hp. destruct (auto_nominal_times 1 t ltac:(lra)) as (m & E & A & _); [now intros ->|].
  apply (Rmult_le_reg_r (auto_nominal 1 t)); [assumption|]. unfold Rdiv. rewrite Rmult_assoc, Rinv_l by lra. specialize (A x y Hin). lra.
Qed.
Print Assumptions C85_watts_partial.
Example C85_nonvacuous : 3000 / auto_nominal 1000 [(3, 0); (12, 3000); (25, 3000)] = 1000.
Proof.
  apply (C85_capacity_refuted 1000 _ 12 3000); [lra|right; now left| |lra].
  intros x' y' H. cbn in H. destruct H as [E|[E|[E|[]]]]; injection E as <- <-; lra.
Qed.
