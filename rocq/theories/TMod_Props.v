(** Property theorems C208-C212: thrust to thrust coefficient, regularised root, profiles from data, hub data, turbine models as farm models. *)
From Coq Require Import Permutation.
From Verif Require Import RBase Curves_Model FarmWakes_Model Superp_Model PointWakes_Model TMod_Model TMod_Spec TMod_Proofs.
Local Open Scope R_scope.

(** C208: the thrust coefficients of the selected elements give the requested thrust, all other elements keep theirs *)
Theorem C208_thrust l k d : (k < length l)%nat ->
  length (thrust2ct l) = length l /\
  (e_sel (nth k l d) = false -> nth k (thrust2ct l) 0 = e_ct (nth k l d)) /\
  (e_sel (nth k l d) = true -> e_rho (nth k l d) <> 0 -> e_D (nth k l d) <> 0 -> e_ws (nth k l d) <> 0 ->
     rotor_thrust (e_rho (nth k l d)) (e_D (nth k l d)) (e_ws (nth k l d)) (nth k (thrust2ct l) 0) = e_T (nth k l d)).
Proof.
  intros K. unfold thrust2ct. split; [apply map_length|].
  match goal with |- context [map ?f l] => set (g := f) end.
  rewrite (nth_indep (map g l) 0 (g d)) by (rewrite map_length; lia). rewrite map_nth. unfold g. set (e := nth k l d). split; intros S0.
  - now rewrite S0.
  - intros A B C. rewrite S0. unfold rotor_thrust. field. repeat split; auto. apply PI_neq0.
Qed.
Print Assumptions C208_thrust.
(** ... and a thrust that was computed from a thrust coefficient gives that coefficient back *)
Theorem C208_inverse e : e_sel e = true -> e_rho e <> 0 -> e_D e <> 0 -> e_ws e <> 0 ->
  forall ct, e_T e = rotor_thrust (e_rho e) (e_D e) (e_ws e) ct -> thrust2ct [e] = [ct].
Proof.
  intros S0 A B C ct E. unfold thrust2ct. cbn [map]. rewrite S0, E. f_equal. unfold rotor_thrust. field. repeat split; auto. apply PI_neq0.
Qed.
Print Assumptions C208_inverse.

(** C209: the regularised root is the root from x0 on, positive and strictly increasing everywhere, never below the root ... *)
Theorem C209_values x0 x : 0 < x0 ->
  (x0 <= x -> sqrt_reg x0 x = sqrt x) /\ 0 < sqrt_reg x0 x /\ (0 <= x -> sqrt x <= sqrt_reg x0 x) /\ (x < x0 -> sqrt_reg x0 x < sqrt x0) /\
  forall y, x < y -> sqrt_reg x0 x < sqrt_reg x0 y.
Proof.
  intros H. rewrite !sqrt_reg_arg by assumption. pose proof (reg_arg_pos x0 x H) as P. split; [|split; [|split; [|split]]].
  - intros L. unfold reg_arg. now rewrite (proj2 (Rltb_false _ _) L).
  - now apply sqrt_lt_R0.
  - intros _. apply sqrt_le_1_alt. now apply reg_arg_ge.
  - intros L. apply sqrt_lt_1; [lra|lra|]. now apply reg_arg_below.
  - intros y L. rewrite sqrt_reg_arg by assumption. apply sqrt_lt_1; [lra|left; now apply reg_arg_pos|]. now apply reg_arg_mono.
Qed.
Print Assumptions C209_values.
(** ... and has a derivative everywhere, at x0 that of the root *)
Theorem C209_smooth x0 x : 0 < x0 -> exists l, derivable_pt_lim (sqrt_reg x0) x l /\ 0 < l /\ (x0 <= x -> l = / (2 * sqrt x)).
Proof.
  intros H. exists (/ (2 * sqrt_reg x0 x) * reg_slope x0 x). destruct (C209_values x0 x H) as (V & P & _). split; [now apply sqrt_reg_deriv|]. split.
  - apply Rmult_lt_0_compat; [apply Rinv_0_lt_compat; lra|]. unfold reg_slope. destruct (Rltb x x0); [apply exp_pos|lra].
  - intros L. rewrite V by assumption. unfold reg_slope. rewrite (proj2 (Rltb_false _ _) L). ring.
Qed.
Print Assumptions C209_smooth.

(** C210: for data with distinct heights the profile is the piecewise linear curve through the rows ... *)
Theorem C210_curve rows h v : rows <> [] -> NoDup (map fst rows) -> profile rows h = Ok v <-> on_curve rows h v.
Proof.
  intros E N. pose proof (profile_spec rows h E N) as G. split.
  - intros P. now rewrite P in G.
  - intros C. destruct (profile rows h) as [u|e]; [f_equal; now apply (on_curve_unique rows h)|]. exfalso.
    destruct C as (z0 & v0 & z1 & v1 & I0 & I1 & B & _). destruct G as (_ & [G|G]); [specialize (G _ _ I0)|specialize (G _ _ I1)]; lra.
Qed.
Print Assumptions C210_curve.
(** ... whatever the order of the rows; *)
Theorem C210_row_order rows rows' h : rows <> [] -> NoDup (map fst rows) -> Permutation rows rows' -> profile rows h = profile rows' h.
Proof.
  intros E N P. unfold profile. f_equal.
  assert (N' : NoDup (map fst rows')) by (eapply Permutation_NoDup; [apply Permutation_map; exact P|exact N]).
  destruct (prof_data_spec rows N) as (A & B), (prof_data_spec rows' N') as (A' & B'). apply sorted_unique; auto. now rewrite B, B'.
Qed.
Print Assumptions C210_row_order.
(** it has the value of each row at its height, *)
Theorem C210_rows rows h v : NoDup (map fst rows) -> In (h, v) rows -> profile rows h = Ok v.
Proof.
  intros N I. apply C210_curve; [intros X; now rewrite X in I|assumption|]. exists h, v, h, v. repeat split; try assumption; try lra. intros z w _. lra.
Qed.
Print Assumptions C210_rows.
(** and heights below or above all rows are an error *)
Theorem C210_outside rows h : rows <> [] -> NoDup (map fst rows) ->
  (profile rows h = Err ValueError <-> (forall z w, In (z, w) rows -> h < z) \/ (forall z w, In (z, w) rows -> z < h)).
Proof.
  intros E N. pose proof (profile_spec rows h E N) as G. split.
  - intros P. rewrite P in G. apply G.
  - intros O. destruct (profile rows h) as [u|e]; [|f_equal; apply G]. exfalso. destruct G as (z0 & v0 & z1 & v1 & I0 & I1 & B & _).
    destruct O as [O|O]; [specialize (O _ _ I0)|specialize (O _ _ I1)]; lra.
Qed.
Print Assumptions C210_outside.

(** C211: the values at the rotor centres reported by the turbine model are those of a point calculation at the hubs *)
Theorem C211_hub_data : forall (T F P : Type) (amb : P -> R) (hub : T -> P) (ev : T -> R -> F) (ms : list (swake T F P)) (own : bool) (ts : list T) (fs : list F),
  ms <> [] -> hubs_downstream hub ms ts -> calc_downwind (fun t => amb (hub t)) ev 0 (map (as_wmodel amb hub) ms) ts = Ok fs ->
  hub_data amb hub ev ms own ts = map (fun t => point_value amb ms (combine ts fs) (hub t)) ts.
Proof. exact @hub_data_spec. Qed.
Print Assumptions C211_hub_data.

(** C212: a turbine model wrapped as farm model acts on all turbines and states of a calculation in one chunk; with several chunks every chunk fails *)
Theorem C212_one_chunk_partial : forall (A : Type) (n_states n_turbines : nat) (g : A -> A) (chunk : list (list A)),
  length chunk = n_states -> (forall r, In r chunk -> length r = n_turbines) -> t2f n_states n_turbines g chunk = Ok (map (map g) chunk).
Proof.
  intros A n m g chunk L H. unfold t2f. rewrite L, Nat.eqb_refl. cbn [andb]. replace (forallb _ chunk) with true; [reflexivity|].
  symmetry. apply forallb_forall. intros r I. apply Nat.eqb_eq. now apply H.
Qed.
Print Assumptions C212_one_chunk_partial.
Theorem C212_chunks_refuted : forall (A : Type) (n_turbines : nat) (g : A -> A) (chunks : list (list (list A))),
  (forall c, In c chunks -> c <> []) -> (2 <= length chunks)%nat -> forall c, In c chunks -> t2f (length (concat chunks)) n_turbines g c = Err IndexError.
Proof.
  intros A m g chunks NE L c I. unfold t2f. replace (Nat.eqb (length c) (length (concat chunks))) with false; [reflexivity|]. symmetry. apply Nat.eqb_neq.
  assert (length c < length (concat chunks))%nat; [|lia]. apply in_split in I as (a & b & ->). rewrite concat_app. cbn [concat]. rewrite !app_length in *. cbn [length] in L.
  assert (P : forall x : list (list A), x <> [] -> (1 <= length x)%nat) by (intros [|? ?]; cbn; [congruence|lia]).
  destruct a as [|x a]; [destruct b as [|x b]; [cbn in L; lia|]|].
  - cbn [concat]. rewrite app_length. specialize (P x (NE x ltac:(right; now left))). lia.
  - cbn [concat]. rewrite app_length. specialize (P x (NE x ltac:(now left))). lia.
Qed.
Print Assumptions C212_chunks_refuted.

(** Non-vacuity *)
Example ex_thrust : thrust2ct [mkte true (1 / 2 * 1.2 * (PI * 5 ^ 2) * 64 * 0.8) 1.2 10 8 0.1; mkte false 1 1 1 1 0.3] = [0.8; 0.3].
Proof. unfold thrust2ct. cbn [map e_sel e_T e_rho e_D e_ws e_ct]. f_equal. pose proof PI_neq0. replace 1.2 with (6 / 5) by lra. replace 0.8 with (4 / 5) by lra. field. assumption. Qed.
Example ex_profile : profile [(100, 8); (20, 4); (60, 7)] 40 = Ok 5.5 /\ profile [(100, 8); (20, 4); (60, 7)] 10 = Err ValueError.
Proof.
  assert (N : NoDup (map fst [(100, 8); (20, 4); (60, 7)])) by (cbn; repeat constructor; cbn; intuition lra). split.
  - apply C210_curve; [discriminate|exact N|]. exists 20, 4, 60, 7. repeat split; cbn; try tauto; try lra. intros z w [E|[E|[E|[]]]]; injection E as <- <-; lra.
  - apply C210_outside; [discriminate|exact N|]. left. intros z w [E|[E|[E|[]]]]; injection E as <- <-; lra.
Qed.
(** a row of turbines at 0, 1, 2 with deficit 0.1 *)
Definition hrow : swake nat R nat := mks _ _ _ WSLinear false None None (fun t f p => if (t <? p)%nat then Some (f, - 0.1) else None).
Example ex_hub_hyps : hubs_downstream (fun t : nat => t) [hrow] [0; 1; 2]%nat.
Proof.
  intros m [<-|[]] i j t t' L A B f. cbn [hrow sm_c]. assert (t <= t')%nat.
  { destruct i as [|[|[|i]]], j as [|[|[|j]]]; cbn in A, B; try lia; try discriminate; try (now destruct i); try (now destruct j); injection A as <-; injection B as <-; lia. }
  destruct (Nat.ltb_spec t' t); [lia|reflexivity].
Qed.
Example ex_hub : calc_downwind (fun _ : nat => 10) (fun _ w => w) 0 (map (as_wmodel (fun _ => 10) (fun t : nat => t)) [hrow]) [0; 1; 2]%nat = Ok [10; 10 + (0 + 10 * - 0.1); 10 + (0 + 10 * - 0.1 + (10 + (0 + 10 * - 0.1)) * - 0.1)].
Proof. reflexivity. Qed.
