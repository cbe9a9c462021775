(** Property theorems C205-C207: the processing order of the turbines. *)
From Coq Require Import Permutation.
From Verif Require Import Base Order_Model Order_Spec FarmWakes_Model FarmWakes_Spec FarmWakes_Witness AnyOrder_Model AnyOrder_Spec AnyOrder_Proofs.

(** C205: any two orders in which no turbine acts on an earlier one give the same farm-ordered results ... *)
Theorem C205_any_admissible_order : forall (T F D W : Type) (amb : T -> W) (ev : T -> W -> F) (dT : T) (dF : F) (d0 : D)
  (farm : list T) (ws : list (@wmodel T F D W)) (o o' : list nat),
  all_down ws -> neutral ws -> contributions_commute ws -> admissible dT ws farm o -> admissible dT ws farm o' ->
  exists r, length r = length farm /\ calc_with amb ev dT dF d0 ws farm o = Ok r /\ calc_with amb ev dT dF d0 ws farm o' = Ok r.
Proof. exact @any_order. Qed.
Print Assumptions C205_any_admissible_order.
(** ... so the result is that of the stable sort, however a sort resolves equal along-wind coordinates. *)
Theorem C205_ties : forall (T F D W K : Type) (amb : T -> W) (ev : T -> W -> F) (leb : K -> K -> bool) (key : T -> K) (dT : T) (dF : F) (d0 : D),
  (forall a b, leb a b = true \/ leb b a = true) -> (forall a b c, leb a b = true -> leb b c = true -> leb a c = true) ->
  forall (ws : list (@wmodel T F D W)) (farm : list T) (o : list nat),
  all_down ws -> neutral ws -> contributions_commute ws -> strictly_downstream leb key ws -> sorted_order dT leb key farm o ->
  calc_with amb ev dT dF d0 ws farm o = calc_farm amb ev leb key dT dF d0 ws farm.
Proof.
  intros T F D W K amb ev leb key dT dF d0 t tr ws farm o Hd Hn Hc Hs So. rewrite calc_farm_with.
  destruct (any_order amb ev dT dF d0 farm ws o (farm_order leb key farm) Hd Hn Hc) as (r & _ & A & B); try (eapply sorted_admissible; eauto using farm_order_sorted).
  congruence.
Qed.
Print Assumptions C205_ties.

(** C206: renumbering, also with turbines at equal along-wind coordinates *)
Theorem C206_renumbering_with_ties : forall (T F D W K : Type) (amb : T -> W) (ev : T -> W -> F) (leb : K -> K -> bool) (key : T -> K) (dT : T) (dF : F) (d0 : D),
  (forall a b, leb a b = true \/ leb b a = true) -> (forall a b c, leb a b = true -> leb b c = true -> leb a c = true) ->
  forall (ws : list (@wmodel T F D W)) (farm : list T) (pi : list nat),
  all_down ws -> neutral ws -> contributions_commute ws -> strictly_downstream leb key ws -> isperm (length farm) pi ->
  exists r, length r = length farm /\ calc_farm amb ev leb key dT dF d0 ws farm = Ok r /\
    calc_farm amb ev leb key dT dF d0 ws (gather dT farm pi) = Ok (gather dF r pi).
Proof. exact @renumber_ties. Qed.
Print Assumptions C206_renumbering_with_ties.

(** C207: the farm order frame agrees with the default frame for turbines listed from upstream to downstream ... *)
Theorem C207_farm_order_frame : forall (T F D W K : Type) (amb : T -> W) (ev : T -> W -> F) (leb : K -> K -> bool) (key : T -> K) (dT : T) (dF : F) (d0 : D),
  (forall a b, leb a b = true \/ leb b a = true) -> (forall a b c, leb a b = true -> leb b c = true -> leb a c = true) ->
  forall (ws : list (@wmodel T F D W)) (farm : list T),
  all_down ws -> neutral ws -> contributions_commute ws -> strictly_downstream leb key ws ->
  (forall i j, i < j -> j < length farm -> leb (key (nth i farm dT)) (key (nth j farm dT)) = true) ->
  calc_with amb ev dT dF d0 ws farm (listed_order farm) = calc_farm amb ev leb key dT dF d0 ws farm.
Proof. intros. eapply C205_ties; eauto. now apply listed_sorted. Qed.
Print Assumptions C207_farm_order_frame.
(** ... and not otherwise: an upstream turbine listed second does not act on the first *)
Theorem C207_listing_matters : exists (ws : list (@wmodel nat nat nat nat)) (amb : nat -> nat) (ev : nat -> nat -> nat) (farm : list nat),
  all_down ws /\ neutral ws /\ contributions_commute ws /\ strictly_downstream Nat.leb (fun t => t) ws /\
  calc_with amb ev 0 0 0 ws farm (listed_order farm) = Ok [10; 10] /\ calc_farm amb ev Nat.leb (fun t => t) 0 0 0 ws farm = Ok [9; 10].
Proof.
  exists [row_model], row_amb, row_ev, [1; 0]. split; [repeat constructor|]. split; [apply row_hyps|]. repeat split.
  - intros w [<-|[]] s f s' f' t d. cbn [row_model w_contrib]. destruct (s <? t), (s' <? t); lia.
  - intros w [<-|[]] s f t d L. cbn [row_model w_contrib]. apply Nat.leb_le in L. destruct (Nat.ltb_spec s t); [lia|reflexivity].
Qed.
Print Assumptions C207_listing_matters.

(** Non-vacuity: a row with two turbines side by side; the two orders differ, the hypotheses hold. *)
Definition side (t : nat) : nat := t / 2.
Definition side_model : @wmodel nat nat nat nat :=
  mkw true (fun _ => 0) (fun t f t' d => if side t <? side t' then d + (11 - f) else d) (fun _ w d => w - d).
Example ex_side_hyps : all_down [side_model] /\ neutral [side_model] /\ contributions_commute [side_model] /\ strictly_downstream Nat.leb side [side_model].
Proof.
  split; [repeat constructor|]. split; [intros w [<-|[]] t x; cbn; lia|]. split.
  - intros w [<-|[]] s f s' f' t d. cbn [side_model w_contrib]. destruct (side s <? side t), (side s' <? side t); lia.
  - intros w [<-|[]] s f t d L. cbn [side_model w_contrib]. apply Nat.leb_le in L. destruct (Nat.ltb_spec (side s) (side t)); [lia|reflexivity].
Qed.
Example ex_side : sorted_order 0 Nat.leb side [4; 1; 2; 0] [3; 1; 2; 0] /\ farm_order Nat.leb side [4; 1; 2; 0] = [1; 3; 2; 0] /\
  calc_with row_amb row_ev 0 0 0 [side_model] [4; 1; 2; 0] [3; 1; 2; 0] = Ok [5; 10; 8; 10] /\
  calc_farm row_amb row_ev Nat.leb side 0 0 0 [side_model] [4; 1; 2; 0] = Ok [5; 10; 8; 10].
Proof.
  split; [|repeat split]. split.
  - unfold isperm. cbn. apply NoDup_Permutation; [repeat constructor; cbn; intuition discriminate|repeat constructor; cbn; intuition discriminate|]. intros x; cbn; tauto.
  - intros k l A B. cbn in B. destruct k as [|[|[|[|k]]]], l as [|[|[|[|l]]]]; try lia; reflexivity.
Qed.
