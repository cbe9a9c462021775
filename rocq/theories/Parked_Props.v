(** C230: turbines without thrust. *)
From Verif Require Import Base RBase Order_Model Order_Spec FarmWakes_Model FarmWakes_Spec FarmWakes_Proofs Superp_Model Superp_Proofs PointWakes_Model Parked_Spec Parked_Proofs.

(** C230: turbines without effect in any wake model do not change the results of the others: these are the results of the farm without them, in the Downwind
    algorithm, for downwind and for upwind models, also if the calculation raises *)
Theorem C230_downwind {T F D W} (amb : T -> W) (ev : T -> W -> F) off (d0 : D) (ws : list (@wmodel T F D W)) ts : silent ev off ws -> neutral ws ->
  calc_downwind amb ev d0 ws (without off ts) = (do r <- calc_downwind amb ev d0 ws ts; Ok (others off ts r)).
Proof. apply parked_downwind. Qed.
(** ... after any number of iterations of the iterative algorithm *)
Theorem C230_iterative {T F D W} (amb : T -> W) (ev : T -> W -> F) off (ws : list (@wmodel T F D W)) ts k : silent ev off ws ->
  sweeps amb ev ws (without off ts) k = others off ts (sweeps amb ev ws ts k).
Proof. apply parked_sweeps. Qed.
(** ... and with the farm's own order of calculation, for turbines at different along-wind coordinates *)
Theorem C230_farm {T F D W K} (amb : T -> W) (ev : T -> W -> F) leb (key : T -> K) dT dF (d0 : D) off (ws : list (@wmodel T F D W)) farm r :
  (forall a b, leb a b = true \/ leb b a = true) -> (forall a b c, leb a b = true -> leb b c = true -> leb a c = true) ->
  silent ev off ws -> neutral ws -> distinct leb key dT farm -> calc_farm amb ev leb key dT dF d0 ws farm = Ok r ->
  exists r', calc_farm amb ev leb key dT dF d0 ws (without off farm) = Ok r' /\ length r' = length (without off farm) /\ length r = length farm
    /\ forall t f, off t = false -> (In (t, f) (combine farm r) <-> In (t, f) (combine (without off farm) r')).
Proof. intros H1 H2 Q N Hd. now apply parked_farm. Qed.
(** ... the conditions hold for all wind speed and turbulence superpositions but the product, with any limits around the ambient values, if the turbines contribute to no target *)
Theorem C230_superpositions {T F P} (amb : P -> R) (hub : T -> P) (ev : T -> R -> F) off (ms : list (swake T F P)) :
  (forall m, In m ms -> forall t x p, off t = true -> sm_c m t (ev t x) p = None) ->
  (forall p, 0 <= amb p)%R -> (forall m, In m ms -> forall p, (forall l, sm_low m = Some l -> l <= amb p)%R /\ (forall h, sm_high m = Some h -> amb p <= h)%R) ->
  silent ev off (map (as_wmodel amb hub) ms) /\ neutral (map (as_wmodel amb hub) ms).
Proof.
  intros Hc Ha Hl. split.
  - intros w I t x t' d O. apply in_map_iff in I. destruct I as (m & <- & I). cbn. now rewrite Hc.
  - intros w I t x. apply in_map_iff in I. destruct I as (m & <- & I). cbn. destruct (Hl m I (hub t)) as (A & B).
    unfold final_delta. rewrite raw_final_0 by apply Ha. destruct (is_ws (sm_s m)); [|lra]. rewrite clamp_id; [lra| |]; intros z E; rewrite Rplus_0_r; auto.
Qed.
(** ... and they do not change the values at points, for all wake models and superpositions but the product *)
Theorem C230_points {T F P} (amb : P -> R) off (ms : list (swake T F P)) srcs p :
  (forall m, In m ms -> forall s, In s srcs -> off (fst s) = true -> sm_c m (fst s) (snd s) p = None) ->
  point_value amb ms (filter (fun s => negb (off (fst s))) srcs) p = point_value amb ms srcs p.
Proof.
  intros H. unfold point_value. generalize (amb p). induction ms as [|m ms IH]; intros a; [reflexivity|]. cbn [fold_left].
  rewrite IH by (intros; apply H; auto; now right). f_equal. f_equal. unfold final_wake. f_equal. unfold wake_delta. generalize 0%R.
  assert (G := H m (or_introl eq_refl)). clear H IH. induction srcs as [|s srcs IH]; intros d; [reflexivity|]. cbn [filter]. destruct (off (fst s)) eqn:O; cbn [negb map fold_left].
  - rewrite (G s (or_introl eq_refl) O). cbn [add_wake]. apply IH. intros; apply G; auto. now right.
  - apply IH. intros; apply G; auto. now right.
Qed.
(** ... but in inhomogeneous wind the wind direction at such turbines changes the order of calculation, and with it the results of the others *)
Definition sheared : @wmodel (Z * Z * Z * Z) Z Z Z := {|
  w_down := true; w_new := fun _ => 0%Z;
  w_contrib := fun s _ t d => let '(x, y, u, v) := s in let '(x', y', _, _) := t in
    if (v =? 0)%Z then if (0 <? (x' - x) * u + (y' - y) * v)%Z then (d + 1)%Z else d else d;
  w_add := fun _ x d => (x - d)%Z |}.
Theorem C230_inhomogeneous_refuted : exists (off : Z * Z * Z * Z -> bool) ws (amb : Z * Z * Z * Z -> Z) (ev : Z * Z * Z * Z -> Z -> Z) farm r r' t f,
  silent ev off ws /\ neutral ws /\ calc_farm_wd amb ev 0%Z 0%Z ws farm = Ok r /\ calc_farm_wd amb ev 0%Z 0%Z ws (without off farm) = Ok r'
  /\ off t = false /\ In (t, f) (combine (without off farm) r') /\ ~ In (t, f) (combine farm r).
Proof.
  exists (fun t => negb (snd t =? 0)%Z), [sheared], (fun _ => 10%Z), (fun _ x => x), [(0, 0, 1, 0); (1, -2, 1, 0); (0, 9, 1, 3)]%Z, [10; 10; 10]%Z, [10; 9]%Z, (1, -2, 1, 0)%Z, 9%Z.
  split; [|split; [|split; [|split; [|split; [|split]]]]]; try (vm_compute; reflexivity).
  - intros w [<-|[]] (((x, y), u), v) f (((x', y'), u'), v') d O. cbn in *. destruct (v =? 0)%Z; [discriminate|reflexivity].
  - intros w [<-|[]] t x. cbn. lia.
  - right. left. reflexivity.
  - vm_compute. intros [E|[E|[E|[]]]]; discriminate.
Qed.
Print Assumptions C230_downwind.
Print Assumptions C230_iterative.
Print Assumptions C230_farm.
Print Assumptions C230_superpositions.
Print Assumptions C230_points.
Print Assumptions C230_inhomogeneous_refuted.
(** turbines (along-wind coordinate, thrust); the effect is the thrust of the source times the wind it sees *)
Definition thrusted : @wmodel (nat * nat) nat nat nat := {|
  w_down := true; w_new := fun _ => 0; w_contrib := fun s f t d => if 0 <? snd s then d + snd s * f else d; w_add := fun _ x d => x - d |}.
Example C230_witness : let off := fun t : nat * nat => snd t =? 0 in
  silent (fun _ x => x) off [thrusted] /\ neutral [thrusted] /\ distinct Nat.leb (@fst nat nat) (0, 0) [(2, 1); (0, 1); (1, 0)]
  /\ calc_farm (fun _ => 10) (fun _ x => x) Nat.leb fst (0, 0) 0 0 [thrusted] [(5, 0); (4, 1); (0, 0); (2, 1)] = Ok [0; 0; 10; 10]
  /\ calc_farm (fun _ => 10) (fun _ x => x) Nat.leb fst (0, 0) 0 0 [thrusted] [(4, 1); (2, 1)] = Ok [0; 10].
Proof.
  intros off. split; [|split; [|split; [|split]]]; try (vm_compute; reflexivity).
  - intros w [<-|[]] (k, c) x t' d O. cbn in *. destruct c; [reflexivity|discriminate].
  - intros w [<-|[]] t x. cbn. lia.
  - intros i j Hi Hj N. cbn in Hi, Hj. destruct i as [|[|[|i]]], j as [|[|[|j]]]; try lia; cbn; auto.
Qed.
