(** Concrete cases for the point and farm wakes. *)
From Verif Require Import RBase Superp_Model Superp_Spec Order_Model FarmWakes_Model FarmWakes_Spec PointWakes_Model PointWakes_Spec PointWakes_Proofs.
Local Open Scope R_scope.

(** a tenth of the wind at the causing turbine, for all turbines further down the row *)
Definition row : swake nat R nat := mks _ _ _ WSLinear false None None (fun t f p => if (t <? p)%nat then Some (f, - 0.1) else None).
(** 5 m/s *)
Definition five : swake nat R nat := mks _ _ _ WSLinear false (Some 0) None (fun t _ p => if (t <? p)%nat then Some (8, - 0.625) else None).

Lemma two_limits_witness : exists (m : swake nat R nat) (fs : list R),
  sm_s m = WSLinear /\ sm_low m = Some 0 /\ sm_high m = None /\
  (forall t, in_limits (fun _ => 8) m t) /\ downstream_only Nat.leb (fun t => t) (fun t => t) m /\
  no_feedback (fun (_ : nat) (w : R) => w) (map (as_wmodel (fun _ => 8) (fun t => t)) [m; m]) /\
  calc_farm (fun _ => 8) (fun _ w => w) Nat.leb (fun t => t) 0%nat 0 0 (map (as_wmodel (fun _ => 8) (fun t => t)) [m; m]) [0; 1]%nat = Ok fs /\
  nth 1 fs 0 = -2 /\ point_value (fun _ => 8) [m; m] (combine [0; 1]%nat fs) 1%nat = 0.
Proof.
  exists five, [8; -2]. repeat split; try reflexivity; try lra.
  - intros l E. injection E as <-. lra.
  - intros h E. discriminate.
  - intros t f t' H. cbn [five sm_c]. apply Nat.leb_le in H. destruct (Nat.ltb_spec t t'); [lia|reflexivity].
  - intros i j w w' Hij Hw Hw' t x d t' d'. cbn [map] in Hw. destruct i as [|[|[|i]]]; cbn [nth_error] in Hw; try discriminate; injection Hw as <-; reflexivity.
  - unfold calc_farm, calc_downwind. cbn - [Rmult Rplus Ropp Rmax Rinv]. unfold add_wake, final_delta, clamp. cbn - [Rmult Rplus Ropp Rmax Rinv].
    repeat (rewrite Rmax_left by lra). do 2 f_equal. f_equal. lra.
  - unfold point_value. cbn [fold_left map combine fst snd five sm_c sm_s sm_quad sm_low sm_high]. cbn [Nat.ltb Nat.leb].
    unfold final_wake, final_delta, wake_delta, clamp. cbn [is_ws raw_final fold_left add_wake].
    rewrite (Rmax_left _ (0 - 8)) by lra. rewrite Rmax_right by lra. lra.
Qed.
Lemma row_case : calc_farm (fun _ => 10) (fun _ w => w) Nat.leb (fun t => t) 0%nat 0 0 [as_wmodel (fun _ => 10) (fun t => t) row] [2; 0; 1]%nat = Ok [8.1; 10; 9] /\
  point_value (fun _ => 10) [row] (combine [2; 0; 1]%nat [8.1; 10; 9]) 2%nat = 8.1 /\
  (forall t : nat, in_limits (fun _ => 10) row t) /\ downstream_only Nat.leb (fun t => t) (fun t => t) row.
Proof.
  repeat split; try lra; try discriminate.
  - unfold calc_farm, calc_downwind. cbn - [Rmult Rplus Ropp Rmax Rinv]. unfold add_wake, final_delta, clamp. cbn - [Rmult Rplus Ropp Rmax Rinv].
    do 2 f_equal; [|f_equal; f_equal]; lra.
  - unfold point_value. cbn [fold_left map combine fst snd row sm_c sm_s sm_quad sm_low sm_high]. cbn [Nat.ltb Nat.leb].
    unfold final_wake, final_delta, wake_delta, clamp. cbn [is_ws raw_final fold_left add_wake]. lra.
  - intros t f t' H. cbn [row sm_c]. apply Nat.leb_le in H. destruct (Nat.ltb_spec t t'); [lia|reflexivity].
Qed.
