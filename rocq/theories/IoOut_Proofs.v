From Coq Require Import String Lra Sorted.
From Flocq Require Import Core.
From Verif Require Import RBase Data_Model IoOut_Model IoOut_Spec.
From Verif Require Lookup_Model Lookup_Proofs Grid_Model Grid_Proofs WindIO_Model WindIO_Props NcOut_Model NcOut_Props.
Local Open Scope string_scope.
Local Open Scope R_scope.
Local Open Scope list_scope.
Local Notation length := List.length.

Lemma need_ok {A} (o : option A) x : need o = Ok x -> o = Some x.
Proof. destruct o; cbn; congruence. Qed.
Lemma turb_mapped vs fvs : mapped turb_vmap vs = Ok fvs -> Forall2 turb_meaning vs fvs.
Proof.
  revert fvs; induction vs as [|v vs IH]; intros fvs H; cbn [mapped] in H; [injection H as <-; constructor|].
  apply bind_ok in H; destruct H as (x & Hx & H). apply bind_ok in H; destruct H as (y & Hy & H). injection H as <-.
  constructor; [|apply IH, Hy]. apply need_ok in Hx. cbn in Hx.
  destruct (String.eqb_spec v "power") as [-> |]; [injection Hx as <-; constructor|].
  destruct (String.eqb_spec v "rotor_effective_velocity") as [-> |]; [injection Hx as <-; constructor|discriminate].
Qed.
Lemma flow_mapped vs fvs : mapped flow_vmap vs = Ok fvs -> Forall2 flow_meaning vs fvs.
Proof.
  revert fvs; induction vs as [|v vs IH]; intros fvs H; cbn [mapped] in H; [injection H as <-; constructor|].
  apply bind_ok in H; destruct H as (x & Hx & H). apply bind_ok in H; destruct H as (y & Hy & H). injection H as <-.
  constructor; [|apply IH, Hy]. apply need_ok in Hx. cbn in Hx.
  destruct (String.eqb_spec v "wind_speed") as [-> |]; [injection Hx as <-; constructor|].
  destruct (String.eqb_spec v "wind_direction") as [-> |]; [injection Hx as <-; constructor|discriminate].
Qed.
Lemma mapped_bad vmap vs v : In v vs -> lookup v vmap = None -> mapped vmap vs = Err KeyError.
Proof.
  induction vs as [|w vs IH]; intros Hin Hl; [destruct Hin|]. cbn [mapped]. destruct (lookup w vmap) eqn:E; [|reflexivity].
  destruct Hin as [-> | Hin]; [congruence|]. cbn. rewrite (IH Hin Hl). reflexivity.
Qed.
Lemma at_index_ok {A} (l : list A) i x : at_index l i = Ok x ->
  let n := Z.of_nat (length l) in (- n <= i < n)%Z /\ nth_error l (Z.to_nat (i mod n)) = Some x.
Proof.
  unfold at_index. intros H; cbv zeta in H; cbv zeta; set (n := Z.of_nat (length l)) in *. set (k := (if (i <? 0)%Z then (i + n)%Z else i)) in *.
  destruct (k <? 0)%Z eqn:E; [discriminate|]. apply Z.ltb_ge in E.
  destruct (nth_error l (Z.to_nat k)) as [y|] eqn:En; [|discriminate]. injection H as ->.
  assert (Hk : (k < n)%Z). { assert (Z.to_nat k < length l)%nat by (apply nth_error_Some; congruence). unfold n; lia. }
  assert (Hm : (i mod n = k)%Z).
  { unfold k in *. destruct (Z.ltb_spec i 0); [|apply Z.mod_small; lia]. symmetry. apply (Z.mod_unique i n (-1)); [left; lia|lia]. }
  rewrite Hm. split; [|exact En]. unfold k in *. destruct (Z.ltb_spec i 0); lia.
Qed.
Lemma at_index_some {A} (l : list A) i : let n := Z.of_nat (length l) in (- n <= i < n)%Z -> exists x, at_index l i = Ok x.
Proof.
  intros n H. unfold at_index. fold n. set (k := (if (i <? 0)%Z then (i + n)%Z else i)).
  assert (0 <= k < n)%Z by (unfold k; destruct (Z.ltb_spec i 0); lia).
  destruct (Z.ltb_spec k 0); [lia|]. destruct (nth_error l (Z.to_nat k)) eqn:E; [eexists; reflexivity|].
  apply nth_error_None in E. unfold n in *; lia.
Qed.
Lemma isel_entries {A} (l : list A) idx l' : isel_all l idx = Ok l' -> entries l idx l'.
Proof.
  unfold entries. revert l'; induction idx as [|i idx IH]; intros l' H; cbn [isel_all] in H; [injection H as <-; constructor|].
  apply bind_ok in H; destruct H as (x & Hx & H). apply bind_ok in H; destruct H as (y & Hy & H). injection H as <-.
  constructor; [apply at_index_ok, Hx|apply IH, Hy].
Qed.
Lemma isel_total {A} (l : list A) idx : Forall (fun i => - Z.of_nat (length l) <= i < Z.of_nat (length l))%Z idx -> exists l', isel_all l idx = Ok l'.
Proof.
  induction 1 as [|i idx H _ (l' & IH)]; [eexists; reflexivity|]. destruct (at_index_some l i H) as (x & Hx). cbn. rewrite Hx. cbn. rewrite IH. eexists; reflexivity.
Qed.
(** the result of reading, part by part *)
Lemma read_parts hubs r dir outs : read_outputs hubs r = Ok (dir, outs) -> exists c al isel ts fs,
  r_cases r = Some c /\ c_all c = Some al /\ (if al then isel = None else exists idx, c_subset c = Some idx /\ isel = Some idx) /\
  read_turbine (r_turb r) isel = Ok ts /\ read_flow hubs (r_flow r) isel = Ok fs /\ outs = ts ++ fs.
Proof.
  unfold read_outputs. intros H. apply bind_ok in H; destruct H as (al & Ha & H). apply need_ok in Ha.
  destruct (r_cases r) as [c|]; [|discriminate]. apply bind_ok in H; destruct H as (isel & Hi & H).
  apply bind_ok in H; destruct H as (ts & Ht & H). apply bind_ok in H; destruct H as (fs & Hf & H). injection H as _ <-.
  exists c, al, isel, ts, fs. split; [reflexivity|split; [exact Ha|split; [|split; [exact Ht|split; [exact Hf|reflexivity]]]]].
  destruct al; [congruence|]. apply bind_ok in Hi; destruct Hi as (l & Hl & Hi). apply need_ok in Hl. exists l. split; congruence.
Qed.
Lemma shown_rows d x : shown d x (NcOut_Model.round_dec (Z.of_nat d) x).
Proof.
  unfold shown. pose proof (NcOut_Props.round_dec_err (Z.of_nat d) x) as H. rewrite <- pow_powerRZ in H. exact H.
Qed.
Lemma shown_all d rows : Forall2 (Forall2 (shown d)) rows (map (map (NcOut_Model.round_dec (Z.of_nat d))) rows).
Proof. induction rows as [|row rows IH]; constructor; [|exact IH]. induction row; constructor; [apply shown_rows|assumption]. Qed.
(** the digits that the file gives to a variable *)
Definition places (n : string) : nat := if String.eqb n "power" then 3 else 4.
Definition digs := map (fun kv => (fst kv, NcOut_Model.default_digits (snd kv))) turb_vmap.
Lemma table_vars_ok fr isel vs : forall names tab, Forall2 turb_meaning names vs -> table_vars fr turb_ivmap digs isel vs = Ok tab ->
  Forall2 (fun n e => fst e = n /\ exists v rows sel, turb_meaning n v /\ lookup v (fvars fr) = Some rows /\ isel_opt rows isel = Ok sel /\
    Forall2 (Forall2 (shown (places n))) sel (snd e)) names tab.
Proof.
  induction vs as [|v vs IH]; intros names tab HF H; inversion HF as [|n' ? ns ? Hm HF']; subst; cbn [table_vars] in H; [injection H as <-; constructor|].
  apply bind_ok in H; destruct H as (rows & Hr & H). apply need_ok in Hr. apply bind_ok in H; destruct H as (sel & Hs & H).
  apply bind_ok in H; destruct H as (rest & Hrest & H). cbv zeta in H. injection H as <-.
  constructor; [|apply IH; assumption]. destruct Hm; cbn [fst snd].
  - split; [reflexivity|]. exists "P", rows, sel. split; [constructor|split; [exact Hr|split; [exact Hs|]]]. exact (shown_all 3 sel).
  - split; [reflexivity|]. exists "REWS", rows, sel. split; [constructor|split; [exact Hr|split; [exact Hs|]]]. exact (shown_all 4 sel).
Qed.
Lemma table_vars_total fr isel vs names : Forall2 turb_meaning names vs ->
  (forall n v, turb_meaning n v -> exists rows, lookup v (fvars fr) = Some rows /\ exists sel, isel_opt rows isel = Ok sel) ->
  exists tab, table_vars fr turb_ivmap digs isel vs = Ok tab.
Proof.
  intros HF H. revert names HF. induction vs as [|v vs IH]; intros names HF; inversion HF as [|n' ? ns ? Hm HF']; subst; [eexists; reflexivity|].
  destruct (H _ _ Hm) as (rows & Hr & sel & Hs). destruct (IH _ HF') as (rest & Hrest). cbn [table_vars]. rewrite Hr. cbn [need bind]. rewrite Hs. cbn [bind]. rewrite Hrest. eexists; reflexivity.
Qed.
Lemma sorted_asc l : StronglySorted (fun a b => Rltb a b = true) l -> ascending l.
Proof.
  induction 1 as [|a l S IH F]; [exact Logic.I|]. destruct l as [|b l]; [exact Logic.I|]. split; [|exact IH]. inversion F; subst. now apply Rltb_true.
Qed.
Lemma hubs_sorted l : ascending (Lookup_Model.sort_u Rltb Reqb l) /\ forall z, In z (Lookup_Model.sort_u Rltb Reqb l) <-> In z l.
Proof.
  assert (Eq : forall a b, Reqb a b = true <-> a = b) by (intros; apply Reqb_true).
  split; [|intros z; apply Lookup_Proofs.sort_in, Eq]. apply sorted_asc.
  apply Lookup_Proofs.sort_srt.
  - intros a. apply Rltb_false. lra.
  - intros a b c. rewrite !Rltb_true. lra.
  - exact Eq.
  - intros a b. rewrite Rltb_false, Rltb_true. intros H1 H2. destruct (Req_dec a b) as [E|E]; [apply Eq in E; congruence|lra].
Qed.
