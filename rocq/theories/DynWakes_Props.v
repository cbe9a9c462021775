(** Theorems about dynamic wakes (C116-C120). In all of them: M is the maximal age, L the maximal wake length, dt the durations,
    wind the wind direction and speed by state and position, rotor the rotor positions, ns the sizes of the chunks of states; a
    history lists the chunk stores (newest first) of any schedule of the chunks. *)
From Verif Require Import RBase WindDir_Model DynWakes_Model DynWakes_Spec DynWakes_Proofs DynWakes_Settle DynWakes_Coos.
Local Open Scope nat_scope.

(** C116: whatever the order in which chunks are calculated, with current or outdated copies of the other chunks' data, every
    wake point is where the ambient wind brings the air that left the rotor, and its length is the length of that path. *)
Theorem C116_wake_points_follow_the_wind : forall M L dt wind rotor ns, 1 <= M -> Forall (fun n => 1 <= n) ns ->
  forall s l, history M L dt wind rotor ns (s :: l) -> forall ord c i a p q, c < length ns ->
  wdata M L dt wind rotor ns ord c s i a = Some (p, q) ->
  a < M /\ p = traj dt wind rotor (wi0 M L dt wind rotor ns ord c s + i) a /\ q = tlen dt wind rotor (wi0 M L dt wind rotor ns ord c s + i) a.
Proof. exact wdata_sound. Qed.
Print Assumptions C116_wake_points_follow_the_wind.

(** C117: once no chunk blocks convergence, each chunk knows the wakes of all states up to its own, at least until they are
    longer than the maximal length, older than the maximal age, or the states end; so there the chunks make no difference. *)
Theorem C117_converged_wakes_are_complete : forall M L dt wind rotor ns, 1 <= M -> Forall (fun n => 1 <= n) ns ->
  forall s l, history M L dt wind rotor ns (s :: l) -> forall ord,
  (forall c, c < length ns -> blocked M L dt wind rotor ns ord c s = false) ->
  forall c st a, c < length ns -> wi0 M L dt wind rotor ns ord c s = 0 /\ wlen M L dt wind rotor ns ord c s = off ns (S c) /\
  (st < off ns (S c) -> a < M -> st + a <= off ns (length ns) -> (a = 0 \/ (tlen dt wind rotor st (a - 1) < L)%R) ->
   wdata M L dt wind rotor ns ord c s st a = Some (traj dt wind rotor st a, tlen dt wind rotor st a)).
Proof. exact wdata_complete. Qed.
Print Assumptions C117_converged_wakes_are_complete.
Theorem C117_converged_coordinates_do_not_depend_on_chunks : forall M L dt wind rotor ns ns', 1 <= M ->
  Forall (fun n => 1 <= n) ns -> Forall (fun n => 1 <= n) ns' -> off ns (length ns) = off ns' (length ns') ->
  forall s l s' l' ord ord', history M L dt wind rotor ns (s :: l) -> history M L dt wind rotor ns' (s' :: l') ->
  (forall c, c < length ns -> blocked M L dt wind rotor ns ord c s = false) ->
  (forall c, c < length ns' -> blocked M L dt wind rotor ns' ord' c s' = false) ->
  forall c c' g pt, c < length ns -> c' < length ns' -> off ns c <= g < off ns (S c) -> off ns' c' <= g < off ns' (S c') ->
  (forall a b, a <= g -> a < M -> b <= a -> b + 1 < M -> (tlen dt wind rotor (g - a) b < L)%R) ->
  dyn_coos M rotor (wdata M L dt wind rotor ns ord c s) (wlen M L dt wind rotor ns ord c s) (wi0 M L dt wind rotor ns ord c s) g pt =
  dyn_coos M rotor (wdata M L dt wind rotor ns' ord' c' s') (wlen M L dt wind rotor ns' ord' c' s') (wi0 M L dt wind rotor ns' ord' c' s') g pt.
Proof. exact chunk_independent. Qed.
Print Assumptions C117_converged_coordinates_do_not_depend_on_chunks.
(* non-vacuity: three chunks of one state, five iterations; the wake of state 1 crosses into chunk 2 *)
Example C117_case : (exists l, history 4 10 ex_dt ex_wind ex_rotor [1; 1; 1] (iterate 4 10 ex_dt ex_wind ex_rotor [1; 1; 1] ex_ord 5 :: l)) /\
  (forall c, c < 3 -> blocked 4 10 ex_dt ex_wind ex_rotor [1; 1; 1] ex_ord c (iterate 4 10 ex_dt ex_wind ex_rotor [1; 1; 1] ex_ord 5) = false) /\
  wdata 4 10 ex_dt ex_wind ex_rotor [1; 1; 1] ex_ord 2 (iterate 4 10 ex_dt ex_wind ex_rotor [1; 1; 1] ex_ord 5) 1 2 = Some ((2, 0, 0), 2)%R.
Proof.
  destruct (iterate_history 4 10 ex_dt ex_wind ex_rotor [1; 1; 1] ltac:(lia) ex_ord 5) as (l & H).
  pose proof (ex_quiet false 5 (le_n 5)) as Q. split; [eauto|]. split; [exact Q|].
  destruct (wdata_complete 4 10 ex_dt ex_wind ex_rotor [1; 1; 1] ltac:(lia) (ex_Hns false) _ l H ex_ord Q 2 1 2 ltac:(cbn; lia)) as (_ & _ & ->).
  - rewrite !ex_traj, !ex_tlen. cbn [traj tlen Nat.add ex_ws]. unfold ex_rotor, vx, vy, vz. cbn [fst snd]. f_equal. f_equal; [f_equal; f_equal|]; ring.
  - cbn. lia.
  - lia.
  - cbn. lia.
  - right. cbn [Nat.sub]. rewrite ex_tlen. cbn [tlen Nat.add ex_ws]. lra.
Qed.

(** C118: with worker processes, the wakes settle after at most 2 C iterations for C chunks ... *)
Theorem C118_wakes_settle : forall M L dt wind rotor ns, 1 <= M -> Forall (fun n => 1 <= n) ns ->
  forall ord, (forall j, j < length ns -> In j ord) ->
  forall t, 2 * length ns - 1 <= t -> 1 <= t -> forall c, c < length ns ->
  blocked M L dt wind rotor ns ord c (iterate M L dt wind rotor ns ord t) = false.
Proof. exact settles. Qed.
Print Assumptions C118_wakes_settle.
(** ... but they need about as many when the wakes pass through all chunks, ... *)
Theorem C118_wakes_do_not_settle_earlier : forall M L ns, 1 <= M -> Forall (fun n => 1 <= n) ns ->
  forall dt wind rotor ord, (forall j, j < length ns -> In j ord) -> forall t, 1 + Nat.div2 (t - 1) + 1 < length ns ->
  off ns (length ns - 1) < M -> (tlen dt wind rotor 0 (off ns (length ns - 1) - 1) < L)%R ->
  exists c, c < length ns /\ blocked M L dt wind rotor ns ord c (iterate M L dt wind rotor ns ord t) = true.
Proof. exact not_settled. Qed.
Print Assumptions C118_wakes_do_not_settle_earlier.
(** ... and the default limit of the number of iterations knows nothing about chunks: all iterations of a calculation can be
    blocked, and it ends without convergence. *)
Theorem C118_default_limit_refuted : forall n_turbines, exists M L dt wind rotor ns ord,
  1 <= M /\ Forall (fun n => 1 <= n) ns /\ (forall j, j < length ns -> In j ord) /\
  forall t, t < default_iterations n_turbines -> exists c, c < length ns /\ blocked M L dt wind rotor ns ord c (iterate M L dt wind rotor ns ord t) = true.
Proof.
  intros n. set (C := n * n + 5).
  exists C, (INR C), (fun _ => 1%R), (fun _ _ => (270, 1)%R), (fun _ => (0, 0, 0)%R), (repeat 1 C), (seq 0 C).
  assert (F : Forall (fun n => 1 <= n) (repeat 1 C)) by (apply Forall_forall; intros x Hx; apply repeat_spec in Hx; lia).
  split; [unfold C; lia|]. split; [exact F|]. rewrite repeat_length. split; [intros j Hj; apply in_seq; lia|].
  intros t Ht. unfold default_iterations in Ht.
  assert (Off : forall c, c <= C -> off (repeat 1 C) c = c).
  { induction c as [|c IH]; intros Hc; [reflexivity|]. rewrite off_S, IH by lia. unfold size. rewrite (nth_indep _ 0 1), nth_repeat by (rewrite repeat_length; lia). lia. }
  destruct (not_settled C (INR C) (repeat 1 C) ltac:(unfold C; lia) F (fun _ => 1%R) (fun _ _ => (270, 1)%R) (fun _ => (0, 0, 0)%R) (seq 0 C)) with (t := t) as (c & Hc & Hb);
    rewrite ?repeat_length; rewrite ?Off by lia.
  - intros j Hj. apply in_seq. lia.
  - pose proof (Nat.div2_div (t - 1)). pose proof (Nat.div_mod_eq (t - 1) 2). unfold C. lia.
  - unfold C. lia.
  - rewrite steady_tlen by lra. rewrite !Rmult_1_r. apply lt_INR. unfold C. lia.
  - exists c. rewrite repeat_length in Hc. auto.
Qed.
Print Assumptions C118_default_limit_refuted.

(** C119: beyond the maximal length the results do depend on the chunks: the same three states and target give another
    coordinate (no wake) when each state is a chunk. *)
Theorem C119_chunks_refuted : exists M L dt wind rotor ns ns' ord t pt,
  off ns (length ns) = off ns' (length ns') /\
  (forall c, c < length ns -> blocked M L dt wind rotor ns ord c (iterate M L dt wind rotor ns ord t) = false) /\
  (forall c, c < length ns' -> blocked M L dt wind rotor ns' ord c (iterate M L dt wind rotor ns' ord t) = false) /\
  let coos ns c := let s := iterate M L dt wind rotor ns ord t in
    dyn_coos M rotor (wdata M L dt wind rotor ns ord c s) (wlen M L dt wind rotor ns ord c s) (wi0 M L dt wind rotor ns ord c s) 2 pt in
  vx (coos ns 0) = 21%R /\ vx (coos ns' 2) = (10 ^ 20)%R.
Proof.
  exists 4, 10%R, ex_dt, ex_wind, ex_rotor, [3], [1; 1; 1], ex_ord, 5, (21, 0, 0)%R.
  split; [reflexivity|]. split; [exact (ex_quiet true 5 (le_n 5))|]. split; [exact (ex_quiet false 5 (le_n 5))|]. split.
  - exact (f_equal vx (ex_one 5 ltac:(lia))).
  - exact (ex_many 5 (le_n 5)).
Qed.
Print Assumptions C119_chunks_refuted.
(** C119: what is cut: a wake that crosses the begin of a chunk when longer than the maximal length is not continued there. *)
Theorem C119_wakes_cut_at_chunk_borders : forall M L ns, 1 <= M -> Forall (fun n => 1 <= n) ns -> forall dt wind rotor s l,
  history M L dt wind rotor ns (s :: l) -> forall ord c i a x, c < length ns -> i < wlen M L dt wind rotor ns ord c s ->
  wdata M L dt wind rotor ns ord c s i a = Some x -> let st := wi0 M L dt wind rotor ns ord c s + i in
  forall c', c' < length ns -> st < off ns c' -> off ns c' < st + a -> (tlen dt wind rotor st (off ns c' - st) <= L)%R.
Proof. exact wdata_bound. Qed.
Print Assumptions C119_wakes_cut_at_chunk_borders.

(** C120: in steady uniform wind, the coordinates agree with those of the default frame, up to the regularisation 1e-14. *)
Theorem C120_steady_wind : forall M L ns, 1 <= M -> Forall (fun n => 1 <= n) ns -> forall wd ws T r, (0 < ws * T)%R -> 2 <= M -> forall s l,
  history M L (fun _ => T) (fun _ _ => (wd, ws)) (fun _ => r) ns (s :: l) -> forall ord,
  (forall c, c < length ns -> blocked M L (fun _ => T) (fun _ _ => (wd, ws)) (fun _ => r) ns ord c s = false) ->
  forall c g A pt, c < length ns -> off ns c <= g < off ns (S c) -> A <= g -> A <= M - 1 -> (INR A * (ws * T) < L)%R ->
  let x := wake_coos r wd pt in (0 <= vx x <= INR A * (ws * T))%R ->
  let q := dyn_coos M (fun _ => r) (wdata M L (fun _ => T) (fun _ _ => (wd, ws)) (fun _ => r) ns ord c s)
             (wlen M L (fun _ => T) (fun _ _ => (wd, ws)) (fun _ => r) ns ord c s)
             (wi0 M L (fun _ => T) (fun _ _ => (wd, ws)) (fun _ => r) ns ord c s) g pt in
  (Rabs (vx q - vx x) <= / 10 ^ 14 / 2 /\ Rabs (vy q - vy x) <= Rabs (vy x) * (/ 10 ^ 14 / (ws * T)) /\ vz q = vz x)%R.
Proof. exact steady_agrees. Qed.
Print Assumptions C120_steady_wind.
(** C120: with a maximal age of one, no target is ever in a wake, ... *)
Theorem C120_age_one_has_no_wakes : forall rotor w len w0 g pt, vx (dyn_coos 1 rotor w len w0 g pt) = (10 ^ 20)%R.
Proof. exact age_one_no_wake. Qed.
Print Assumptions C120_age_one_has_no_wakes.
(** ... and this is the age chosen by default for hourly data: 20 km, 5 m/s, 3600 s. *)
Theorem C120_hourly_default_refuted : forall dt wind rotor ns ord c s g pt,
  let M := auto_max_age 20 (5 * 3600) in
  vx (dyn_coos M rotor (wdata M (20 * 10 ^ 3) dt wind rotor ns ord c s) (wlen M (20 * 10 ^ 3) dt wind rotor ns ord c s)
        (wi0 M (20 * 10 ^ 3) dt wind rotor ns ord c s) g pt) = (10 ^ 20)%R.
Proof. intros. unfold M. rewrite auto_age_one by lra. apply age_one_no_wake. Qed.
Print Assumptions C120_hourly_default_refuted.
(* non-vacuity: four states in chunks of two, wind from the west *)
Example C120_case : let ns := [2; 2] in let w := fun (_ : nat) (_ : vec3) => (270, 8)%R in let s := iterate 5 3000 (fun _ => 60%R) w (fun _ => (0, 0, 90)%R) ns [0; 1] 3 in
  (exists l, history 5 3000 (fun _ => 60%R) w (fun _ => (0, 0, 90)%R) ns (s :: l)) /\
  (forall c, c < 2 -> blocked 5 3000 (fun _ => 60%R) w (fun _ => (0, 0, 90)%R) ns [0; 1] c s = false) /\
  off ns 1 <= 3 < off ns 2 /\ (INR 3 * (8 * 60) < 3000)%R /\ (0 <= vx (wake_coos (0, 0, 90) 270 (1000, 50, 90)) <= INR 3 * (8 * 60))%R.
Proof.
  cbn zeta. split; [apply iterate_history; lia|]. split; [|split; [|split]].
  - intros c Hc. apply settles; [lia|repeat constructor|intros j Hj; cbn in *; lia|cbn; lia|lia|exact Hc].
  - cbn. lia.
  - cbn. lra.
  - destruct ex_270 as (S' & C'). unfold wake_coos, wd2uv, wd2wdvec, dot, vsub, vx, vy, vz. cbn [fst snd]. rewrite S', C'. cbn [INR]. lra.
Qed.
