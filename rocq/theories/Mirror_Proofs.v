From Verif Require Import RBase Circles_Model Circles_Spec Circles_Proofs Circles_Props Mirror_Model Data_Model.
Local Open Scope R_scope.
Lemma reflect_twice h x : reflect h (reflect h x) = x.
Proof. unfold reflect. ring. Qed.
Definition same_heights (f g : farm) : Prop := forall s t, th f s t = th g s t.
Definition mirror_farm (f : farm) (di : nat) (h : R) : farm := set_heights f di (fun s => reflect h (hvar f s di)).
Section M.
Context {D : Type} (direct mirrored : farm -> D -> D).
Hypothesis mirrored_heights : forall f g d, same_heights f g -> mirrored f d = mirrored g d.
Lemma mirrors_deltas heights f di d : snd (contribute_mirrors heights direct mirrored f di d) = fold_left (fun d h => mirrored (mirror_farm f di h) d) heights (direct f d).
Proof.
  unfold contribute_mirrors. set (step := fun (fd : farm * D) (h : R) => _).
  assert (G : forall hs f1 d1, (forall s t, t <> di -> th f1 s t = th f s t) -> snd (fold_left step hs (f1, d1)) = fold_left (fun d h => mirrored (mirror_farm f di h) d) hs d1).
  { induction hs as [|h hs IH]; intros f1 d1 H1; [reflexivity|]. cbn [fold_left]. unfold step at 2. cbn [fst snd]. rewrite IH.
    - f_equal. apply mirrored_heights. intros s t. unfold mirror_farm, set_heights. cbn [th]. destruct (t =? di)%nat eqn:E; [reflexivity|]. apply H1. now apply Nat.eqb_neq.
    - intros s t Ht. cbn [th set_heights]. apply Nat.eqb_neq in Ht. rewrite Ht. apply H1. now apply Nat.eqb_neq. }
  specialize (G heights f (direct f d)). destruct (fold_left step heights (f, direct f d)) as (f', d'). cbn [snd] in *. apply G. reflexivity.
Qed.
End M.
Lemma mirrors_farm {D} (direct mirrored : farm -> D -> D) heights f di d : let f' := fst (contribute_mirrors heights direct mirrored f di d) in
  own_h f' = own_h f /\ forall s t, th f' s t = if (t =? di)%nat then hvar f s di else th f s t.
Proof.
  cbv zeta. unfold contribute_mirrors. set (step := fun (fd : farm * D) (h : R) => _).
  assert (G : forall hs f1 d1, (forall s t, t <> di -> th f1 s t = th f s t) -> own_h f1 = own_h f -> let r := fst (fold_left step hs (f1, d1)) in own_h r = own_h f /\ forall s t, t <> di -> th r s t = th f s t).
  { induction hs as [|h hs IH]; intros f1 d1 H1 H2; [cbn; auto|]. cbn [fold_left]. unfold step at 2. cbn [fst snd]. apply IH; [|exact H2].
    intros s t Ht. cbn [th set_heights]. apply Nat.eqb_neq in Ht. rewrite Ht. apply H1. now apply Nat.eqb_neq. }
  specialize (G heights f (direct f d)). destruct (fold_left step heights (f, direct f d)) as (f', d'). cbn [fst] in *. destruct G as (G1 & G2); [reflexivity|reflexivity|].
  split; [exact G1|]. intros s t. cbn [th set_heights]. destruct (t =? di)%nat eqn:E; [reflexivity|]. apply G2. now apply Nat.eqb_neq.
Qed.
Lemma small_wake_weight D wr : 0 < wr -> wr <= D / 2 -> top_hat_weight D wr 0 = (wr / (D / 2)) * (wr / (D / 2)).
Proof.
  intros H1 H2. pose proof PI_RGT_0 as P. unfold top_hat_weight. destruct (Rltb (0 - D / 2) wr) eqn:E; [|apply Rltb_false in E; lra].
  unfold calc_area. destruct (Rltb 0 (D / 2 + wr)) eqn:E1; [|apply Rltb_false in E1; lra]. destruct (Rleb wr (D / 2)) eqn:E2; [|apply Rleb_false in E2; lra].
  destruct (Rleb 0 (D / 2 - wr)) eqn:E3; [|apply Rleb_false in E3; lra]. field. lra.
Qed.
Lemma delta_not_var v vars (pt : string -> R) : (forall w, In w vars -> v <> delta_name w) -> lookup v (map (fun w => (delta_name w, pt w)) vars) = None.
Proof.
  induction vars as [|w vars IH]; intros H; [reflexivity|]. cbn [map lookup]. destruct (v =? delta_name w)%string eqn:E; [apply String.eqb_eq in E; exfalso; apply (H w); [now left|exact E]|]. apply IH. intros x Hx. apply H. now right.
Qed.
