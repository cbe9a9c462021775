(** Theorems about the wake growth parameter. *)
From Verif Require Import RBase Data_Model GetData_Model GetData_Proofs GetData_Props WakeK_Model.
Local Open Scope R_scope.
Local Notation length := List.length.

(** C62: which combinations are rejected *)
Theorem C62_rejected k ka kb : new_wake_k k ka kb = Err ValueError <->
  (exists x, k = Some x) /\ ((exists y, ka = Some y) \/ (exists z, kb = Some z)) \/
  k = None /\ (exists z, kb = Some z) /\ (ka = None \/ ka = Some 0).
Proof.
  unfold new_wake_k. destruct k as [x|], ka as [y|], kb as [z|]; cbn [isnone negb andb orb]; try (rdec; subst);
    (split; [intros H; try discriminate; try (left; split; eauto; fail); try (right; split; [reflexivity|split; [eauto|auto]])|intros H; try reflexivity; exfalso]);
    repeat match goal with H : _ /\ _ |- _ => destruct H | H : _ \/ _ |- _ => destruct H | H : exists _, _ |- _ => destruct H end; try congruence.
Qed.
Print Assumptions C62_rejected.
Theorem C62_otherwise_accepted k ka kb : new_wake_k k ka kb <> Err ValueError -> new_wake_k k ka kb = Ok {| par_k := k; par_ka := ka; par_kb := kb |}.
Proof. unfold new_wake_k. destruct (negb (isnone k) && (negb (isnone ka) || negb (isnone kb))); [congruence|]. destruct (isnone k && negb (isnone kb) && _); congruence. Qed.
Print Assumptions C62_otherwise_accepted.
(** the value: constant, or linear in TI, or (if nothing is given) the farm data's variable of the wake causing turbine *)
Theorem C62_value_partial c t i k ka kb w ti fk idx : t <> STurbine -> new_wake_k k ka kb = Ok w -> shp ti = tshape c t -> inside (tshape c t) idx ->
  (k = None -> ka = None -> exists f, fk = Some (f, ["state"; "turbine"]%string) /\ shp f = [n_states c; n_turbines c]) ->
  exists out, call_wake_k c t (Some i) w ti fk None = Ok out /\
    bget out idx = match k, ka with
                   | Some x, _ => x
                   | None, Some a => a * val ti idx + match kb with Some b => b | None => 0 end
                   | None, None => match fk with Some (f, _) => val f [nth 0 idx 0%nat; i] | None => 0 end
                   end.
Proof.
  intros Ht Hw Hti Hi Hk. assert (W : w = {| par_k := k; par_ka := ka; par_kb := kb |}).
  { unfold new_wake_k in Hw. destruct (negb (isnone k) && _); [discriminate|]. destruct (isnone k && negb (isnone kb) && _); [discriminate|]. now injection Hw. }
  assert (Fs : forall x, fitting (shp (scalar x)) (tshape c t)) by (intros x; split; [cbn; lia|reflexivity]).
  assert (Ft : fitting (tshape c t) (tshape c t)) by (split; [lia|]; generalize (tshape c t); intros l; clear; induction l as [|n l IH]; [reflexivity|]; cbn; rewrite Nat.eqb_refl, orb_true_r; exact IH).
  unfold call_wake_k. subst w. destruct k as [x|].
  - assert (ka = None /\ kb = None) as (-> & ->) by (unfold new_wake_k in Hw; destruct ka, kb; cbn in Hw; try discriminate; auto). cbn [k_attr par_ka par_kb par_k option_map].
    destruct (C94_own_parameter_partial c t (Some i) {| self_attr := Some (scalar x); msrc := None; fsrc := fk; tsrc := None; has_tdata := true |} (scalar x) [Lw] idx Ht eq_refl (Fs x) Hi) as (out & E & V).
    exists out. split; [exact E|]. rewrite V. reflexivity.
  - destruct ka as [a|].
    + cbn [k_attr par_ka par_kb]. set (b := match kb with None => 0 | Some b => b end).
      set (at_ := {| shp := shp ti; val := fun idx0 => a * val ti idx0 + b |}).
      destruct (C94_own_parameter_partial c t (Some i) {| self_attr := Some at_; msrc := None; fsrc := fk; tsrc := None; has_tdata := true |} at_ [Lw] idx Ht eq_refl) as (out & E & V); [cbn [at_ shp]; rewrite Hti; exact Ft|exact Hi|].
      exists out. split; [exact E|]. rewrite V. cbn [at_ shp val]. rewrite Hti, bidx_inside by exact Hi. reflexivity.
    + assert (kb = None) as -> by (unfold new_wake_k in Hw; destruct kb; cbn in Hw; [discriminate|reflexivity]). destruct (Hk eq_refl eq_refl) as (f & -> & Hf). cbn [k_attr par_ka par_kb par_k option_map].
      destruct (C57_farm_data_partial c t i {| self_attr := None; msrc := None; fsrc := Some (f, ["state"; "turbine"]%string); tsrc := None; has_tdata := true |} Lw f true idx Ht) as (out & E & V); try reflexivity; [auto|exact Hf|exact Hi|].
      exists out. split; [|exact V]. rewrite <- E. reflexivity.
Qed.
Print Assumptions C62_value_partial.
(** False under dynamic wakes, if the farm data has a variable of that name: then the given constants are ignored. *)
Theorem C62_dynamic_refuted c t i w ti f ds o g idx x : t <> STurbine -> par_k w = Some x -> par_ka w = None -> par_kb w = None -> inside (tshape c t) idx -> prev o = Some g ->
  exists out, call_wake_k c t (Some i) w ti (Some (f, ds)) (Some o) = Ok out /\
    bget out idx = (let st := source_state c o t idx in if (st <? i0 o)%nat then g st i else val f [st - i0 o; i]%nat).
Proof.
  intros Ht Hk Ha Hb Hi Hp. unfold call_wake_k, k_attr. rewrite Ha, Hb, Hk. cbn [option_map].
  set (s := {| self_attr := Some (scalar x); msrc := None; fsrc := Some (f, ds); tsrc := None; has_tdata := true |}).
  destruct (C94_own_parameter_refuted c t i s (scalar x) f ds o g [Lw] idx Ht eq_refl) as (out & E & V); try assumption; try reflexivity; [split; [cbn; lia|reflexivity]|].
  assert (S : shp out = tshape c t). { unfold get_data in E. cbn [find_source try_source s self_attr] in E. destruct (match_shape (tshape c t) (scalar x)) as [b|]; [|destruct t; discriminate]. cbn in E. destruct t; [contradiction| |]; injection E as <-; reflexivity. }
  exists (upcast (tshape c t) out). split.
  - unfold get_data in E |- *. destruct (find_source c t (Some i) s [Ls; Lw]) as [[b|]|]; [|destruct t; discriminate|destruct t; discriminate]. cbn [s fsrc] in E |- *. destruct t; [contradiction| |]; injection E as <-; reflexivity.
  - rewrite upcast_get by exact Hi. rewrite bget_inside by (rewrite S; exact Hi). exact V.
Qed.
Print Assumptions C62_dynamic_refuted.
Example C62_nonvacuous : exists w, new_wake_k None (Some (1/2)) (Some (1/10)) = Ok w /\ new_wake_k None (Some 0) (Some 1) = Err ValueError /\ new_wake_k (Some 1) None None <> Err ValueError.
Proof.
  eexists. split; [|split]; unfold new_wake_k; cbn; try discriminate.
  - unfold Reqb. destruct (Req_EM_T (1 / 2) 0); [exfalso; lra|reflexivity].
  - unfold Reqb. destruct (Req_EM_T 0 0); [reflexivity|contradiction].
Qed.
