(** C247: small changes of the ambient wind speeds or of the wake model change the wind speeds of the farm by a bounded amount. *)
From Verif Require Import RBase Superp_Model Order_Model FarmWakes_Model FarmWakes_Spec PointWakes_Model PointWakes_Spec PointWakes_Proofs Contract_Spec Sens_Spec Sens_Proofs.
Local Open Scope R_scope.

(** Downwind algorithm, turbines in processing order: any numbers [e] that satisfy "own ambient change plus what the turbines in front pass on" bound the changes. *)
Theorem C247_error_propagation : forall (T P : Type) (amb amb' : P -> R) (hub : T -> P) (m m' : swake T R P) (L eta : T -> T -> R) (dT : T) ts e xs ys,
  rotor_scaled (sm_s m) -> nearly hub L eta m m' -> (forall t t', 0 <= L t t') ->
  (forall t, in_limits amb m (hub t)) -> (forall t, in_limits amb' m' (hub t)) ->
  (forall j, (j < length ts)%nat ->
     Rabs (amb (hub (nth j ts dT)) - amb' (hub (nth j ts dT))) + front_sum (fun i t t' => L t t' * nth i e 0 + eta t t') ts dT j <= nth j e 0) ->
  calc_downwind (fun t => amb (hub t)) (fun _ w => w) 0 [as_wmodel amb hub m] ts = Ok xs ->
  calc_downwind (fun t => amb' (hub t)) (fun _ w => w) 0 [as_wmodel amb' hub m'] ts = Ok ys ->
  forall j, (j < length ts)%nat -> Rabs (nth j xs 0 - nth j ys 0) <= nth j e 0.
Proof. intros T P amb amb' hub m m' L eta dT ts e xs ys H1 H2 H3 H4 H5. exact (down_close amb amb' hub m m' L eta dT H1 H2 H3 H4 H5 ts e xs ys). Qed.
Print Assumptions C247_error_propagation.

(** The whole farm calculation, farm order, one number for all turbines. *)
Theorem C247_farm_bound : forall (T P K : Type) (amb amb' : P -> R) (hub : T -> P) (m m' : swake T R P) (L eta : T -> T -> R) (dT : T) l h delta
    (leb : K -> K -> bool) (key : T -> K) farm xs ys,
  rotor_scaled (sm_s m) -> nearly hub L eta m m' -> (forall t t', 0 <= L t t' <= l) -> (forall t t', 0 <= eta t t' <= h) ->
  (forall t, in_limits amb m (hub t)) -> (forall t, in_limits amb' m' (hub t)) ->
  (forall t, In t farm -> Rabs (amb (hub t) - amb' (hub t)) <= delta) ->
  calc_farm (fun t => amb (hub t)) (fun _ w => w) leb key dT 0 0 [as_wmodel amb hub m] farm = Ok xs ->
  calc_farm (fun t => amb' (hub t)) (fun _ w => w) leb key dT 0 0 [as_wmodel amb' hub m'] farm = Ok ys ->
  forall j, (j < length farm)%nat -> Rabs (nth j xs 0 - nth j ys 0) <= (delta + INR (length farm - 1) * h) * (1 + l) ^ (length farm - 1).
Proof.
  intros T P K amb amb' hub m m' L eta dT l h delta leb key farm xs ys H1 H2 H3 H4 H5 H6.
  exact (farm_close amb amb' hub m m' L eta dT H1 H2 (fun t t' => proj1 (H3 t t')) H5 H6 l h delta (fun t t' => proj2 (H3 t t')) H4 leb key farm xs ys).
Qed.
Print Assumptions C247_farm_bound.

(** Coupled farms (iterative algorithm): if no sweep of the two calculations differs by more than D, the solutions differ by at most D/(1-q). *)
Theorem C247_coupled_farms : forall n q f g D x y, contracts n q f -> solution n f x -> solution n g y ->
  (forall z, length z = n -> within D (f z) (g z)) -> within (D / (1 - q)) x y.
Proof. exact solutions_close. Qed.
Print Assumptions C247_coupled_farms.

(** A row of turbines, each with a deficit of one third of its wind speed behind the next one in front *)
Definition third : swake nat R nat := mks _ _ _ WSLinear false None None (fun t u p => if Nat.eqb p (S t) then Some (u, - (1 / 3)) else None).
Example C247_nonvacuous : rotor_scaled (sm_s third) /\ nearly (fun t => t) (fun _ _ => 1 / 3) (fun _ _ => 0) third third /\ (forall t, in_limits (fun _ => 9) third t) /\ (forall t, in_limits (fun _ => 9.3) third t) /\
  calc_downwind (fun _ => 9) (fun _ w => w) 0 [as_wmodel (fun _ => 9) (fun t => t) third] [0; 1; 2]%nat = Ok [9; 6; 7] /\
  calc_downwind (fun _ => 9.3) (fun _ w => w) 0 [as_wmodel (fun _ => 9.3) (fun t => t) third] [0; 1; 2]%nat = Ok [9.3; 6.2; 9.3 - 6.2 / 3].
Proof.
  split; [exact I|]. split.
  { split; [reflexivity|]. split; [reflexivity|]. split; [reflexivity|]. split; [reflexivity|]. intros t t' u v. cbn [third sm_c].
    destruct (Nat.eqb t' (S t)); cbn [loss].
    - replace (u * - (1 / 3) - v * - (1 / 3)) with (- (1 / 3) * (u - v)) by field. rewrite Rabs_mult, Rabs_Ropp, (Rabs_pos_eq (1 / 3)) by lra. lra.
    - replace (0 - 0) with 0 by ring. rewrite Rabs_R0. pose proof (Rabs_pos (u - v)). lra. }
  split; [intros t; unfold in_limits; cbn; split; [lra|]; split; intros ? E; discriminate E|].
  split; [intros t; unfold in_limits; cbn; split; [lra|]; split; intros ? E; discriminate E|].
  split; unfold calc_downwind, run_models, pass, down_pass, start, fresh, contrib_cell;
    cbn [map w_down as_wmodel c_t c_f c_w c_d w_new w_contrib third sm_s sm_c Nat.eqb add_wake length down_tail eval_cell w_add bind orb andb negb final_delta is_ws raw_final sm_low sm_high sm_quad clamp contrib_cell];
    f_equal; f_equal; [f_equal; [lra|f_equal; lra]|f_equal; [lra|f_equal; lra]].
Qed.

(** Without a bound on the sensitivity nothing follows: at the cut-in of a thrust curve an arbitrarily small change of the wind moves the next turbine by more than 1 m/s. *)
Definition cutin : swake nat R nat := mks _ _ _ WSLinear false None None (fun t u p => if Rleb 4 u then Some (u, - (1 / 2)) else None).
Theorem C247_cut_in_refuted : forall delta, 0 < delta < 1 -> exists a b xs ys, Rabs (a - b) <= delta /\ 0 <= a /\ 0 <= b /\
  calc_downwind (fun _ => a) (fun _ w => w) 0 [as_wmodel (fun _ => a) (fun t => t) cutin] [0; 1]%nat = Ok xs /\
  calc_downwind (fun _ => b) (fun _ w => w) 0 [as_wmodel (fun _ => b) (fun t => t) cutin] [0; 1]%nat = Ok ys /\
  Rabs (nth 1 xs 0 - nth 1 ys 0) > 1.
Proof.
  intros delta D. exists 4, (4 - delta), [4; 4 - 2], [4 - delta; 4 - delta]. split; [replace (4 - (4 - delta)) with delta by ring; rewrite Rabs_pos_eq; lra|]. split; [lra|]. split; [lra|].
  assert (C1 : Rleb 4 4 = true) by (apply Rleb_true; lra). assert (C2 : Rleb 4 (4 - delta) = false) by (apply Rleb_false; lra).
  split; [|split].
  - unfold calc_downwind, run_models, pass, down_pass, start, fresh, contrib_cell;
    cbn [map w_down as_wmodel c_t c_f c_w c_d w_new w_contrib cutin sm_s sm_c Nat.eqb add_wake length down_tail eval_cell w_add bind orb andb negb final_delta is_ws raw_final sm_low sm_high sm_quad clamp contrib_cell].
    rewrite C1. cbn [add_wake]. f_equal; f_equal; f_equal; try field.
  - unfold calc_downwind, run_models, pass, down_pass, start, fresh, contrib_cell;
    cbn [map w_down as_wmodel c_t c_f c_w c_d w_new w_contrib cutin sm_s sm_c Nat.eqb add_wake length down_tail eval_cell w_add bind orb andb negb final_delta is_ws raw_final sm_low sm_high sm_quad clamp contrib_cell].
    rewrite C2. cbn [add_wake]. f_equal; f_equal; f_equal; try ring.
  - cbn [nth]. replace (4 - 2 - (4 - delta)) with (- (2 - delta)) by ring. rewrite Rabs_Ropp, Rabs_pos_eq; lra.
Qed.
Print Assumptions C247_cut_in_refuted.
