(** Theorems about wake superpositions. *)
From Coq Require Import Permutation.
From Verif Require Import RBase Superp_Model Superp_Spec Superp_Proofs.
Local Open Scope R_scope.

(** C24: every permutation of the wake causing turbines gives the same wake delta. *)
Theorem C24_order_independent s quad low high amb cs cs' : Permutation cs cs' ->
  final_wake s quad low high amb cs = final_wake s quad low high amb cs'.
Proof. intros P. unfold final_wake. now rewrite (wake_delta_perm s cs cs' P). Qed.
Print Assumptions C24_order_independent.
(** ... and a single wake has exactly the strength the wake model says. *)
Theorem C24_single_wake s quad amb scale r : is_ws s = true -> pow_ok s -> 0 <= scale -> r <= 0 ->
  final_wake s quad None None amb [Some (scale, r)] =
  match s with WSLinearLocal | WSQuadraticLocal | WSMaxLocal | WSPowLocal _ => amb * r | _ => scale * r end.
Proof. exact (single_wake s quad amb scale r). Qed.
Print Assumptions C24_single_wake.
Example C24_nonvacuous : final_wake WSQuadratic false None None 10 [Some (10, -0.3); None; Some (10, -0.4)] = -5.
Proof.
  unfold final_wake, wake_delta, final_delta. cbn. replace (0 + 10 * (-0.3) * (10 * (-0.3)) + 10 * (-0.4) * (10 * (-0.4))) with (5 * 5) by lra.
  rewrite sqrt_square; lra.
Qed.

(** C25 *)
Theorem C25_upper_limit s quad low h amb cs : is_ws s = true ->
  amb + final_wake s quad low (Some h) amb cs <= h.
Proof. intros E. unfold final_wake, final_delta. rewrite E. apply clamp_high. Qed.
Print Assumptions C25_upper_limit.
Theorem C25_lower_limit s quad l high amb cs : is_ws s = true -> (forall h, high = Some h -> l <= h) ->
  l <= amb + final_wake s quad (Some l) high amb cs.
Proof. intros E H. unfold final_wake, final_delta. rewrite E. now apply clamp_low. Qed.
Print Assumptions C25_lower_limit.
Theorem C25_product_limits l h amb d : l <= h -> l <= amb + prod_final (Some l) (Some h) amb d <= h.
Proof. intros H. split; [apply clamp_low; intros h' E; injection E as <-; exact H|apply clamp_high]. Qed.
Print Assumptions C25_product_limits.
Theorem C25_no_wake_is_ambient s quad low high amb cs : Forall (fun c => c = None) cs -> 0 <= amb ->
  (forall l, low = Some l -> l <= amb) -> (forall h, high = Some h -> amb <= h) ->
  final_wake s quad low high amb cs = 0.
Proof. exact (no_wake s quad low high amb cs). Qed.
Print Assumptions C25_no_wake_is_ambient.
(** limits do not change values that respect them *)
Theorem C25_limits_only_cut s quad low high amb cs :
  (forall l, low = Some l -> l <= amb + final_wake s quad None None amb cs) ->
  (forall h, high = Some h -> amb + final_wake s quad None None amb cs <= h) ->
  final_wake s quad low high amb cs = final_wake s quad None None amb cs.
Proof.
  unfold final_wake, final_delta. destruct (is_ws s); [|reflexivity]. intros Hl Hh. cbn [clamp] in *. rewrite clamp_id; auto.
Qed.
Print Assumptions C25_limits_only_cut.
Example C25_nonvacuous : 
  8 + final_wake WSLinear false (Some 1) (Some 20) 8 [Some (8, -0.7); Some (8, -0.6)] = 1.
Proof.
  unfold final_wake, wake_delta, final_delta, clamp. cbn. rewrite Rmax_right by lra. rewrite Rmin_left by lra. lra.
Qed.

(** C26: [good]: a deficit (non-negative scale, non-positive result) or an added turbulence. *)
Theorem C26_additional_wake_lowers_wind s quad low high amb cs c : is_ws s = true -> pow_ok s -> 0 <= amb ->
  Forall (good s) cs -> good s c ->
  final_wake s quad low high amb (cs ++ [c]) <= final_wake s quad low high amb cs.
Proof. intros E Hp Ha H Hc. pose proof (more_wakes s quad low high amb cs c Hp Ha H Hc) as M. now rewrite E in M. Qed.
Print Assumptions C26_additional_wake_lowers_wind.
Theorem C26_additional_wake_raises_ti s quad low high amb cs c : is_ws s = false -> pow_ok s -> 0 <= amb ->
  Forall (good s) cs -> good s c ->
  final_wake s quad low high amb cs <= final_wake s quad low high amb (cs ++ [c]).
Proof. intros E Hp Ha H Hc. pose proof (more_wakes s quad low high amb cs c Hp Ha H Hc) as M. now rewrite E in M. Qed.
Print Assumptions C26_additional_wake_raises_ti.
Theorem C26_never_above_ambient s quad low high amb cs : is_ws s = true -> pow_ok s -> 0 <= amb ->
  (forall l, low = Some l -> l <= amb) -> Forall (good s) cs -> final_wake s quad low high amb cs <= 0.
Proof. exact (ws_never_above s quad low high amb cs). Qed.
Print Assumptions C26_never_above_ambient.
Theorem C26_ti_never_below_ambient s quad low high amb cs : is_ws s = false -> pow_ok s -> 0 <= amb -> Forall (good s) cs ->
  0 <= final_wake s quad low high amb cs.
Proof. exact (ti_never_below s quad low high amb cs). Qed.
Print Assumptions C26_ti_never_below_ambient.
Example C26_nonvacuous : Forall (good WSMax) [Some (8, -0.5); None] /\ Forall (good TIQuadratic) [Some (0, 0.1)].
Proof. split; repeat constructor; cbn; lra. Qed.

(** C27 is false: if no wake is found in the whole array, add_wake is never called, the zero initial value
    is read as factor zero, and the wind speed drops to zero. *)
Theorem C27_unwaked_farm_refuted : exists d, nth_error (prod_run 2 [None]) 0 = Some d /\ 10 + prod_final None None 10 d = 0.
Proof. exists 0. split; [reflexivity|]. unfold prod_final, clamp. lra. Qed.
Print Assumptions C27_unwaked_farm_refuted.
(** Exactly: as soon as one call is made, and the array never becomes (almost) zero in all elements, every element is
    ambient times the product of the factors it received; an element that received none keeps the ambient value. *)
Theorem C27_product_partial n c calls i amb : (i < n)%nat -> length c = n -> Forall (fun c => length c = n) calls ->
  stays (mul_sel (repeat 1 n) c) calls ->
  exists d, nth_error (prod_run n (map Some (c :: calls))) i = Some d /\
    amb + prod_final None None amb d = amb * rprod (map (factor i) (c :: calls)).
Proof.
  intros Hi Hc F S. eexists. split; [exact (prod_correct n c calls i Hi Hc F S)|]. unfold prod_final, clamp. ring.
Qed.
Print Assumptions C27_product_partial.
(** A farm in which every target is once fully blocked forgets all wakes: the reset fires again. *)
Theorem C27_reset_forgets_refuted :
  nth_error (prod_run 1 [Some [Some (-1)]; Some [Some (-0.5)]]) 0 = Some 0.5.
Proof.
  cbn. unfold all_tiny. cbn. rewrite Rabs_R0. replace (Rltb 0 tiny) with true by (symmetry; apply Rltb_true; unfold tiny; lra). cbn.
  replace (Rltb (Rabs (1 * (1 + -1))) tiny) with true.
  - cbn. f_equal. lra.
  - symmetry. apply Rltb_true. replace (1 * (1 + -1)) with 0 by ring. rewrite Rabs_R0. unfold tiny. lra.
Qed.
Print Assumptions C27_reset_forgets_refuted.
(** C75: with linear superposition a speed-up raises the wind speed ... *)
Theorem C75_linear_speedup_partial quad amb scale r cs : 0 <= scale -> 0 <= r -> 
  final_wake WSLinear quad None None amb cs <= final_wake WSLinear quad None None amb (cs ++ [Some (scale, r)]).
Proof. intros Hs Hr. unfold final_wake. rewrite wake_delta_snoc. cbn. nra. Qed.
Print Assumptions C75_linear_speedup_partial.
(** ... but the quadratic, power and maximum superpositions count it as a deficit of the same size. *)
Theorem C75_speedup_counts_as_deficit_refuted s quad low high amb scale r cs :
  (match s with WSQuadratic | WSQuadraticLocal | WSMax | WSMaxLocal | WSPow _ | WSPowLocal _ => True | _ => False end) ->
  final_wake s quad low high amb (cs ++ [Some (scale, r)]) = final_wake s quad low high amb (cs ++ [Some (scale, - r)]).
Proof.
  intros H. unfold final_wake. rewrite !wake_delta_snoc. f_equal. destruct s; cbn in *; try contradiction;
    rewrite ?Rabs_Ropp; try ring; replace (scale * - r) with (- (scale * r)) by ring; rewrite ?Rabs_Ropp; ring.
Qed.
Print Assumptions C75_speedup_counts_as_deficit_refuted.
(** C76: with the product superposition the wake delta of a (state, target) depends on what happens in the other states
    of the same chunk: the same unwaked element gives ambient if another state of the chunk has a wake,
    and zero wind if it is alone. *)
Theorem C76_product_depends_on_chunk_refuted : exists d d',
  nth_error (prod_run 2 [Some [None; Some (-0.5)]]) 0 = Some d /\ nth_error (prod_run 1 [None]) 0 = Some d' /\
  10 + prod_final None None 10 d = 10 /\ 10 + prod_final None None 10 d' = 0.
Proof.
  exists 1, 0. repeat split.
  - cbn. unfold all_tiny. cbn. rewrite Rabs_R0. replace (Rltb 0 tiny) with true by (symmetry; apply Rltb_true; unfold tiny; lra). reflexivity.
  - unfold prod_final, clamp. lra.
  - unfold prod_final, clamp. lra.
Qed.
Print Assumptions C76_product_depends_on_chunk_refuted.

(** C82: every superposition computes the combination it is named after *)
Theorem C82_named_combination s quad amb cs : pow_ok s -> Forall (good s) cs ->
  final_wake s quad None None amb cs = combination s quad amb cs.
Proof. exact (superp_combination s quad amb cs). Qed.
Print Assumptions C82_named_combination.
(** two added turbulence intensities 0.3 and 0.4 combine to 0.5 *)
Example C82_nonvacuous : combination TIQuadratic false 0 [Some (1, 0.3); None; Some (1, 0.4)] = 0.5.
Proof.
  unfold combination, sumsq, local. cbn [covering map snd rsum]. replace (0.3 * 0.3 + (0.4 * 0.4 + 0)) with (0.5 * 0.5) by lra. apply sqrt_square. lra.
Qed.
