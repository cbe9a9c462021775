(** Property theorems C11, C12, C15, C16, C17: turbine ordering. *)
From Verif Require Import Base Order_Model Order_Spec Order_Proofs.
From Coq Require Import Permutation.

(** C11: values computed for the turbine processed at each position are reported at that turbine's
    farm index, for every value assignment [g], number of states, and per-state order. *)
Theorem C11_results_in_farm_order : forall (A : Type) (d : A) (neq : A -> A -> bool),
  (forall a b, neq a b = false -> a = b) ->
  forall (g : nat -> nat -> A) (os : list (list nat)) (n : nat), Forall (isperm n) os ->
  reorder d neq (processed g 0 os) (map invert os) = farm_view g 0 (length os) n.
Proof. intros A d neq H g os n. exact (processed_reorder d neq H g os n 0). Qed.
Print Assumptions C11_results_in_farm_order.

(** C11: ordering and re-ordering cancel, including the shortcuts for uniform arrays. *)
Theorem C11_order_reorder_cancel : forall (A : Type) (d : A) (neq : A -> A -> bool),
  (forall a b, neq a b = false -> a = b) ->
  forall (m : list (list A)) (os : list (list nat)) (n : nat),
  Forall (fun r => length r = n) m -> Forall (isperm n) os -> length m = length os ->
  reorder d neq (apply_order d neq m os) (map invert os) = m.
Proof. exact @order_reorder. Qed.
Print Assumptions C11_order_reorder_cancel.

(** C11: InitFarmData's order step puts at position k the value of the turbine processed k-th. *)
Theorem C11_order_applies : forall (A : Type) (d : A) (neq : A -> A -> bool),
  (forall a b, neq a b = false -> a = b) ->
  forall (m : list (list A)) (os : list (list nat)) (n s k : nat),
  Forall (fun r => length r = n) m -> Forall (isperm n) os -> length m = length os ->
  s < length os -> k < n ->
  nth k (nth s (apply_order d neq m os) []) d = nth (nth k (nth s os []) 0) (nth s m []) d.
Proof. exact @apply_order_nth. Qed.
Print Assumptions C11_order_applies.

(** C12: the order is a permutation of all turbines, sorted by the along-wind key, for any total
    preorder on keys. *)
Theorem C12_argsort : forall (K : Type) (leb : K -> K -> bool),
  (forall a b, leb a b = true \/ leb b a = true) ->
  (forall a b c, leb a b = true -> leb b c = true -> leb a c = true) ->
  forall (keys : list K) (dk : K),
  Permutation (argsort leb keys) (seq 0 (length keys)) /\
  forall i j, i < j -> j < length keys ->
    leb (nth (nth i (argsort leb keys) 0) keys dk) (nth (nth j (argsort leb keys) 0) keys dk) = true.
Proof. exact @argsort_spec. Qed.
Print Assumptions C12_argsort.

(** C15: the reported arrays are mutually inverse exactly when every state's order is the identity. *)
Theorem C15_reported_inverse_iff_identity_partial : forall n os, Forall (isperm n) os ->
  ((forall s k, s < length os -> k < n ->
      nth (nth k (nth s (reported_order os) []) 0) (nth s (reported_order_inv os) []) 0 = k)
   <-> (forall o, In o os -> o = seq 0 n)).
Proof. exact reported_inv_iff. Qed.
Print Assumptions C15_reported_inverse_iff_identity_partial.

Theorem C15_reported_inverse_refuted : exists n os, Forall (isperm n) os /\
  exists s k, s < length os /\ k < n /\
    nth (nth k (nth s (reported_order os) []) 0) (nth s (reported_order_inv os) []) 0 <> k.
Proof. exact reported_inverse_refuted. Qed.
Print Assumptions C15_reported_inverse_refuted.

(** C16: what the results report for turbine i after a post-rotor SetFarmVars is the setting the user
    gave for turbine order[i]; after a pre-rotor one, for turbine inv[i]. *)
Theorem C16_post_rotor_value_partial : forall V (veqb : V -> V -> bool), (forall a b, veqb a b = true -> a = b) ->
  forall n bases mdata os sels s i,
  Forall (isperm n) os -> settings n mdata -> Forall (fun r => length r = n) bases -> full n sels ->
  length mdata = length os -> length bases = length os -> length sels = length os ->
  s < length os -> i < n ->
  nth i (nth s (reorder None (oneq veqb) (set_farm_vars_post veqb bases mdata os sels) (map invert os)) []) None
  = nth (nth i (nth s os []) 0) (nth s mdata []) None.
Proof. exact @set_post_reported. Qed.
Print Assumptions C16_post_rotor_value_partial.

Theorem C16_pre_rotor_value_partial : forall V (veqb : V -> V -> bool), (forall a b, veqb a b = true -> a = b) ->
  forall n bases mdata os sels s i,
  Forall (isperm n) os -> settings n mdata -> Forall (fun r => length r = n) bases -> full n sels ->
  length mdata = length os -> length bases = length os -> length sels = length os ->
  s < length os -> i < n ->
  nth i (nth s (reorder None (oneq veqb) (set_farm_vars_pre bases mdata sels) (map invert os)) []) None
  = nth (nth i (invert (nth s os [])) 0) (nth s mdata []) None.
Proof. exact @set_pre_reported. Qed.
Print Assumptions C16_pre_rotor_value_partial.

(** C16: a setting that is missing (NaN), or whose turbine is not selected, leaves the value of the turbine as it is *)
Theorem C16_missing_keeps V (bases mdata : list (list (option V))) sels s t b x f :
  nth_error bases s = Some b -> nth_error mdata s = Some x -> nth_error sels s = Some f ->
  length b = length x -> length f = length x -> (t < length x)%nat ->
  exists r, nth_error (set_farm_vars_pre bases mdata sels) s = Some r /\ length r = length b /\
    (nth t f false = false -> nth t r None = nth t b None) /\ (nth t x None = None -> nth t r None = nth t b None) /\
    (forall y, nth t f false = true -> nth t x None = Some y -> nth t r None = Some y).
Proof.
  unfold set_farm_vars_pre. revert mdata sels s. induction bases as [|b0 bases IH]; intros [|x0 mdata] [|f0 sels] [|s] Hb Hx Hf Lb Lf Ht; try discriminate; cbn [nth_error masked_rows] in *.
  - injection Hb as ->. injection Hx as ->. injection Hf as ->. exists (masked_set b x f). split; [reflexivity|]. clear IH.
    revert b f t Lb Lf Ht. induction x as [|x0 x IH]; intros [|b0 b] [|f0 f] t Lb Lf Ht; try discriminate; cbn in Ht; [lia|].
    cbn [masked_set length].
    destruct t as [|t].
    + split; [|cbn; destruct f0, x0; repeat split; congruence].
      f_equal. clear. revert b f. induction x as [|y x IH]; intros [|b0 b] [|f0 f]; cbn; auto.
    + destruct (IH b f t ltac:(cbn in Lb; lia) ltac:(cbn in Lf; lia) ltac:(lia)) as (L & A & B & C). cbn [length nth]. split; [congruence|repeat split; assumption].
  - exact (IH mdata sels s Hb Hx Hf Lb Lf Ht).
Qed.
Print Assumptions C16_missing_keeps.

(** Two turbines processed in reverse order, settings 10 and 20: turbine 0 is reported with 20. *)
Theorem C16_user_values_refuted : exists n bases mdata os sels s i,
  Forall (isperm n) os /\ @settings nat n mdata /\ Forall (fun r => length r = n) bases /\ full n sels /\
  length mdata = length os /\ length bases = length os /\ length sels = length os /\ s < length os /\ i < n /\
  nth i (nth s (reorder None (oneq Nat.eqb) (set_farm_vars_post Nat.eqb bases mdata os sels) (map invert os)) []) None
    <> nth i (nth s mdata []) None /\
  nth i (nth s (reorder None (oneq Nat.eqb) (set_farm_vars_pre bases mdata sels) (map invert os)) []) None
    <> nth i (nth s mdata []) None.
Proof. exact user_values_refuted. Qed.
Print Assumptions C16_user_values_refuted.

(** C17: a sector rule given for turbine index [t] reads and writes turbine order[t], and no other. *)
Theorem C17_sector_rule_acts_partial : forall V (veqb : V -> V -> bool), (forall a b, veqb a b = true -> a = b) ->
  forall B (d : B) n t cond x (rf : list (list B)) (tf : list (list (option V))) os s i,
  Forall (isperm n) os -> Forall (fun r => length r = n) rf -> Forall (fun r => length r = n) tf ->
  length rf = length os -> length tf = length os -> t < n -> s < length os -> i < n ->
  nth i (nth s (reorder None (oneq veqb) (sector_rule d t cond x (take_rows d rf os) (take_rows None tf os)) (map invert os)) []) None
  = if (i =? nth t (nth s os []) 0) && cond (nth (nth t (nth s os []) 0) (nth s rf []) d)
    then Some x else nth i (nth s tf []) None.
Proof. exact @sector_reported. Qed.
Print Assumptions C17_sector_rule_acts_partial.

(** C17: the power mask decides for turbine i with the rated power of index inv[i]. *)
Theorem C17_power_mask_partial : forall n p_lim o Pf Mf R i,
  isperm n o -> length Pf = n -> length Mf = n -> length R = n -> i < n ->
  nth (nth i (invert o) 0) (power_mask_sel p_lim (gather 0%Z Pf o) (gather None Mf o) R) false =
  match nth i Mf None with
  | None => false
  | Some m => let pr := nth (nth i (invert o) 0) R 0%Z in
     ((m <? pr) && (m <? nth i Pf 0) || (pr <? m) && (pr - p_lim <? nth i Pf 0))%Z
  end.
Proof. exact power_mask_turbine. Qed.
Print Assumptions C17_power_mask_partial.

(** C17 refuted: with two turbines in reverse order a rule for turbine 0 changes turbine 1 instead,
    and the power mask curtails a turbine whose own rated power would not curtail it. *)
Theorem C17_named_turbine_refuted :
  (exists (os : list (list nat)) (rf : list (list nat)) (tf : list (list (option nat))),
     Forall (isperm 2) os /\ length os = 1 /\ rf = [[5; 5]] /\ tf = [[Some 1; Some 2]] /\
     reorder None (oneq Nat.eqb) (sector_rule 0 0 (fun r => r =? 5) 9 (take_rows 0 rf os) (take_rows None tf os)) (map invert os)
       = [[Some 1; Some 9]]) /\
  (exists o Pf Mf R, isperm 2 o /\ length Pf = 2 /\ length Mf = 2 /\ length R = 2 /\
     nth 0 (power_mask_sel 100 Pf Mf R) false = false /\
     nth (nth 0 (invert o) 0) (power_mask_sel 100 (gather 0%Z Pf o) (gather None Mf o) R) false = true).
Proof. exact named_turbine_refuted. Qed.
Print Assumptions C17_named_turbine_refuted.

(** Non-vacuity: two states with a 3-cycle and a swap. *)
Example ex_orders : Forall (isperm 3) [[2; 0; 1]; [1; 0; 2]].
Proof.
  constructor; [|constructor; [apply perm_swap|constructor]].
  unfold isperm. cbn. apply Permutation_sym, (Permutation_cons_app [2] [1]). apply perm_swap.
Qed.
Example ex_inverse : invert [2; 0; 1] = [1; 2; 0].
Proof. reflexivity. Qed.
Example ex_settings : settings 3 [[Some 1; Some 2; Some 3]; [Some 4; Some 5; Some 6]] /\ full 3 [[true; true; true]; [true; true; true]].
Proof. split; repeat constructor; discriminate. Qed.
