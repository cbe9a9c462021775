From Coq Require Import String Lra.
From Verif Require Import RBase Data_Model Data_Proofs ModelList_Model ModelList_Proofs Mirror_Model PointMod_Model PointMod_Spec.
Local Open Scope string_scope.
Local Open Scope R_scope.
Local Open Scope list_scope.
Local Notation length := List.length.

Lemma no_tke pdata p : tke2ti_calc pdata p = Err AttributeError.
Proof. reflexivity. Qed.
Lemma run_some {V} dflt (ms : list (@model V)) : forall ps fd fd', length ps = length ms -> run_seq dflt ms ps fd = Ok fd' ->
  forall m, In m ms -> exists p f r, calculate dflt m p f = Ok r.
Proof.
  induction ms as [|a ms IH]; intros ps fd fd' HL H m Hm; [destruct Hm|].
  destruct ps as [|p ps]; [discriminate|]. cbn in H. destruct (calculate dflt a p fd) as [[f1 r1]|e] eqn:E; [|discriminate].
  destruct Hm as [<- | Hm]; [exists p, fd; eexists; exact E|]. eapply IH; [|exact H|exact Hm]. cbn in HL; lia.
Qed.
Lemma mlist_run {V} dflt (ms : list (@model V)) p fd r : calculate dflt (MList ms) p fd = Ok r ->
  exists ps, length ps = length ms /\ run_seq dflt ms ps fd = Ok (fst r) /\ collect (fst r) (outputs (MList ms)) = Ok (snd r).
Proof.
  intros H.
  assert (G : exists ps, calculate dflt (MList ms) (PList (Some ps)) fd = Ok r).
  { destruct p as [|k|[l|]].
    - destruct dflt as [l|]; [exists l; exact H|]. exists (repeat PEmpty (length ms)). exact H.
    - discriminate H.
    - exists l; exact H.
    - exists (repeat PEmpty (length ms)). exact H. }
  destruct G as (ps & G). assert (HL : length ps = length ms).
  { cbn [calculate] in G. destruct (length ps =? length ms)%nat eqn:E; [apply Nat.eqb_eq, E|discriminate]. }
  rewrite (calculate_list _ _ _ _ HL) in G. exists ps. split; [exact HL|].
  destruct (run_seq dflt ms ps fd) as [f|]; [|discriminate]. destruct (collect f _) as [c|] eqn:Ec; [|discriminate].
  injection G as <-. split; [reflexivity|exact Ec].
Qed.
Lemma uses_never {V} dflt (x : @model V) : (forall p fd r, calculate dflt x p fd <> Ok r) ->
  forall m, uses x m -> forall p fd r, calculate dflt m p fd <> Ok r.
Proof.
  intros Hx m U. induction U as [|m ms Hin _ IH]; [exact Hx|]. intros p fd r H.
  apply mlist_run in H. destruct H as (ps & HL & H & _). destruct (run_some _ _ _ _ _ HL H m Hin) as (p' & f & r' & E). exact (IH _ _ _ E).
Qed.
Lemma collect_total {V} (fd : @vars V) vs : (forall v, In v vs -> lookup v fd <> None) -> exists r, collect fd vs = Ok r.
Proof.
  induction vs as [|v vs IH]; intros H; [eexists; reflexivity|]. cbn. destruct (lookup v fd) eqn:E; [|destruct (H v (or_introl eq_refl) E)].
  destruct IH as (r & ->); [intros w Hw; apply H; right; exact Hw|]. eexists; reflexivity.
Qed.
(** a chain that ends with a model of one output *)
Lemma chain_last {V} dflt (ms : list (@model V)) o calc ps fd f c x : length ps = length ms ->
  calculate dflt (MList ms) (PList (Some ps)) fd = Ok (f, c) -> calc f PEmpty = Ok [(o, x)] ->
  exists f' c', calculate dflt (MList (ms ++ [Elem [o] calc])) (PList (Some (ps ++ [PEmpty]))) fd = Ok (f', c') /\
    lookup o c' = Some x /\ f' = store o x f /\ forall v, v <> o -> In v (outputs (MList ms)) -> lookup v c' = lookup v c.
Proof.
  intros HL H Hc. rewrite (calculate_list _ _ _ _ HL) in H. destruct (run_seq dflt ms ps fd) as [f0|] eqn:Er; [|discriminate].
  destruct (collect f0 (outputs (MList ms))) as [c0|] eqn:Ec; [|discriminate]. injection H as -> ->.
  rewrite calculate_list by (rewrite !app_length; cbn; lia). rewrite run_seq_app, Er by exact HL. cbn [run_seq calculate].
  rewrite Hc. cbn [update fold_left fst snd].
  destruct (collect_ok _ _ _ Ec) as [_ Hout].
  assert (Hall : forall v, In v (outputs (MList (ms ++ [Elem [o] calc]))) -> v = o \/ In v (outputs (MList ms))).
  { cbn [outputs]. intros v Hv. rewrite fromkeys_in in Hv. destruct Hv as [Hv _]. rewrite flat_map_app in Hv. apply in_app_or in Hv.
    destruct Hv as [Hv|Hv]; [right; apply fromkeys_in; split; [exact Hv|tauto]|left; cbn in Hv; destruct Hv as [Hv|[]]; congruence]. }
  destruct (collect_total (store o x f) (outputs (MList (ms ++ [Elem [o] calc])))) as (c' & Ec').
  { intros v Hv. destruct (string_dec v o) as [-> | Hn]; [rewrite lookup_store_eq; discriminate|]. rewrite lookup_store_ne by exact Hn.
    destruct (Hall v Hv) as [? | Hi]; [contradiction|]. exact (proj2 (Hout v Hi)). }
  rewrite Ec'. exists (store o x f), c'. split; [reflexivity|].
  destruct (collect_ok _ _ _ Ec') as [_ Hout']. split; [|split; [reflexivity|]].
  - assert (Ho : In o (outputs (MList (ms ++ [Elem [o] calc])))).
    { cbn [outputs]. apply fromkeys_in. split; [|tauto]. rewrite flat_map_app. apply in_or_app. right. left. reflexivity. }
    rewrite (proj1 (Hout' o Ho)). apply lookup_store_eq.
  - intros v Hn Hv. assert (Hv' : In v (outputs (MList (ms ++ [Elem [o] calc])))).
    { cbn [outputs] in *. apply fromkeys_in. apply fromkeys_in in Hv. split; [|tauto]. rewrite flat_map_app. apply in_or_app. left. tauto. }
    rewrite (proj1 (Hout' v Hv')), lookup_store_ne by exact Hn. symmetry. exact (proj1 (Hout v Hv)).
Qed.
Lemma iso_formula k ws ti : isotropic k ws ti -> tke2ti k ws = 3 / 2 * ti.
Proof.
  intros (s & Hs & -> & ->). unfold tke2ti. replace (3 / 2 * (/ 2 * (s ^ 2 + s ^ 2 + s ^ 2))) with ((3 / 2 * s) ^ 2) by field.
  rewrite <- Rsqr_pow2, sqrt_Rsqr by lra. unfold Rdiv; ring.
Qed.
