(** Theorems about partial wakes. *)
From Coq Require Import Permutation.
From Verif Require Import RBase Partial_Model Partial_Proofs.
Local Open Scope R_scope.

(** C122: [fin] is the final delta of any superposition as function of ambient value and accumulated delta; weights sum to one.
    Partial wakes at the rotor points themselves: the rotor mean is the same whether deltas are kept per point or averaged first. *)
Theorem C122_same_points_same_mean fin w amb delta : length w = length amb -> length delta = length amb -> rsum w = 1 ->
  wsum w (segregated_result fin w amb w delta) = wsum w (rotor_points_result fin amb delta).
Proof. exact (seg_same_points fin w amb delta). Qed.
Print Assumptions C122_same_points_same_mean.
(** the rotor mean is the ambient rotor mean plus the mean wake effect; in uniform wind [c] that is the weighted mean of the wake effects *)
Theorem C122_mean_effect fin w c n gd : length w = n -> rsum w = 1 ->
  wsum w (segregated_result fin w (repeat c n) (map fst gd) (map snd gd)) = wsum w (repeat c n) + rsum (map (fun p => fst p * fin c (snd p)) gd).
Proof. intros L S. rewrite seg_mean; [|now rewrite repeat_length|exact S]. f_equal. exact (seg_uniform fin w c n gd L S). Qed.
Print Assumptions C122_mean_effect.
(** [gd]: weight and accumulated delta of each partial wake point. Different numbers of rotor and partial wake points: enumeration of the
    partial wake points is irrelevant. *)
Theorem C122_enumeration_partial fin w amb gd gd' : length w <> length gd -> Permutation gd gd' ->
  segregated_result fin w amb (map fst gd) (map snd gd) = segregated_result fin w amb (map fst gd') (map snd gd').
Proof. exact (seg_perm fin w amb gd gd'). Qed.
Print Assumptions C122_enumeration_partial.
(** Equal numbers: the i-th partial wake point is finalised with the ambient value of the i-th rotor point, wherever that is. Two points,
    10 and 20 m/s, one of them in a wake of 50 % (local superposition): mean 12.5 or 10 m/s, depending on the enumeration. *)
Theorem C122_enumeration_refuted : exists fin w amb gd gd', Permutation gd gd' /\ length w = length amb /\ rsum w = 1 /\ rsum (map fst gd) = 1 /\
  wsum w (segregated_result fin w amb (map fst gd) (map snd gd)) = 12.5 /\ wsum w (segregated_result fin w amb (map fst gd') (map snd gd')) = 10.
Proof.
  exists (fun a d => a * d), [0.5; 0.5], [10; 20], [(0.5, -0.5); (0.5, 0)], [(0.5, 0); (0.5, -0.5)].
  split; [apply perm_swap|]. unfold segregated_result, seg_delta, seg_ares, wsum, rsum. cbn. repeat split; lra.
Qed.
Print Assumptions C122_enumeration_refuted.
Example C122_nonvacuous : wsum [0.5; 0.5] (segregated_result (fun a d => a * d) [0.5; 0.5] [10; 20] [0.5; 0.5] [-0.5; 0]) = 12.5 /\
  wsum [1] (segregated_result (fun a d => a * d) [1] [10] [0.25; 0.75] [-0.4; 0]) = 9.
Proof. unfold segregated_result, seg_delta, seg_ares, wsum, rsum. cbn. split; lra. Qed.

(** C123: ambient point results without farm results. Line 749 allows this, but the number of states is read from the farm results. *)
Theorem C123_no_farm_results_refuted ambient isel sel : exists e, calc_points_prepare None ambient isel sel = Err e /\ (ambient = true -> e = AttributeError).
Proof. destruct ambient; cbn; eexists; split; [reflexivity|reflexivity|reflexivity|discriminate]. Qed.
Print Assumptions C123_no_farm_results_refuted.
Theorem C123_with_farm_results_partial n ambient isel sel : calc_points_prepare (Some n) ambient isel sel = Ok n.
Proof. destruct ambient; reflexivity. Qed.
Print Assumptions C123_with_farm_results_partial.
