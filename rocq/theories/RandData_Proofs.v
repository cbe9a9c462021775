(** Proofs for RandData_Model. *)
From Coq Require Import String.
From Verif Require Import RBase NcOut_Model NcOut_Props RandData_Model RandData_Spec.
Local Open Scope R_scope.
Section P.
  Context {G : Type}.
  Variable draw : G -> R * G.
  Hypothesis Hg : generator draw.
  Lemma draws_spec n : forall g, length (fst (draws draw n g)) = n /\ Forall (fun u => 0 <= u < 1) (fst (draws draw n g)).
  Proof.
    induction n as [|n IH]; intros g; cbn; [split; [reflexivity|constructor]|]. pose proof (Hg g) as B. destruct (draw g) as [u g1]. specialize (IH g1).
    destruct (draws draw n g1) as [l g2]. cbn in *. split; [now rewrite (proj1 IH)|]. constructor; [exact B|apply IH].
  Qed.
  Lemma uniform_spec lo hi n g : lo <= hi -> length (fst (uniform draw lo hi n g)) = n /\ Forall (fun x => lo <= x <= hi) (fst (uniform draw lo hi n g)).
  Proof.
    intros H. unfold uniform. pose proof (draws_spec n g) as (L & F). destruct (draws draw n g) as [l g']. cbn in *. split; [now rewrite map_length|].
    apply Forall_map. eapply Forall_impl; [|exact F]. cbn. intros u U. nra.
  Qed.
  Definition good (n : nat) (lo hi : R) (l : list (option R)) : Prop := length l = n /\ numbers_in lo hi l.
  Lemma gen_cols_spec n cols : (forall v lo hi, In (v, (lo, hi)) cols -> lo <= hi) -> forall g,
    map fst (fst (gen_cols draw n cols g)) = map fst cols /\
    Forall2 (fun c p => fst c = fst p /\ good n (fst (snd c)) (snd (snd c)) (snd p)) cols (fst (gen_cols draw n cols g)).
  Proof.
    induction cols as [|[v [lo hi]] cols IH]; intros H g; [split; [reflexivity|constructor]|]. cbn [gen_cols].
    pose proof (uniform_spec lo hi n g (H v lo hi ltac:(now left))) as (L & F). destruct (uniform draw lo hi n g) as [l g1].
    destruct (IH ltac:(intros; eapply H; right; eassumption) g1) as (I1 & I2). destruct (gen_cols draw n cols g1) as [r g2]. cbn in *. split; [now rewrite I1|]. constructor; [|exact I2].
    cbn. split; [reflexivity|]. split; [now rewrite map_length|]. apply Forall_map. eapply Forall_impl; [|exact F]. cbn. intros x X. now exists x.
  Qed.
  Lemma gen_cols_in n cols : (forall v lo hi, In (v, (lo, hi)) cols -> lo <= hi) -> NoDup (map fst cols) -> forall g v lo hi l, In (v, (lo, hi)) cols -> In (v, l) (fst (gen_cols draw n cols g)) -> good n lo hi l.
  Proof.
    intros H N g v lo hi l I J. destruct (gen_cols_spec n cols H g) as (_ & F). remember (fst (gen_cols draw n cols g)) as d eqn:Ed. clear Ed H. revert N I J.
    induction F as [|[c [a b]] [p q] cols d (E & Q) F IH]; intros N I J; [destruct I|]. cbn in E, Q. inversion N as [|? ? N1 N2]; subst. clear N.
    assert (K : map fst d = map fst cols). { clear -F. induction F as [|x y a b (E & _) F IH]; cbn; [reflexivity|]. now rewrite IH, E. }
    destruct I as [I|I], J as [J|J].
    - injection I as <- <- <-. injection J as <-. exact Q.
    - injection I as <- <- <-. exfalso. apply N1. cbn. rewrite <- K. apply in_map_iff. exists (p, l). auto.
    - injection J as <- <-. exfalso. apply N1. cbn. apply in_map_iff. exists (p, (lo, hi)). auto.
    - apply IH; auto.
  Qed.
  Lemma on_col_in c f d v l : In (v, l) (on_col c f d) <-> exists l0, In (v, l0) d /\ l = if String.eqb v c then f l0 else l0.
  Proof.
    unfold on_col. rewrite in_map_iff. split.
    - intros ([v0 l0] & E & I). cbn in E. exists l0. destruct (String.eqb v0 c) eqn:Q; injection E as <- <-; rewrite Q; auto.
    - intros (l0 & I & ->). exists (v, l0). cbn. destruct (String.eqb v c); auto.
  Qed.
  Lemma on_col_names c f d : map fst (on_col c f d) = map fst d.
  Proof. unfold on_col. rewrite map_map. apply map_ext. intros [v l]. cbn. now destruct (String.eqb v c). Qed.
  Lemma osum_values l : osum l = rsum (values l).
  Proof. unfold osum, values. induction l as [|[y|] l IH]; cbn; [reflexivity| |]; unfold rsum in *; cbn; rewrite IH; lra. Qed.
  Lemma normalised_values l : values (normalised l) = map (fun y => / osum l * y) (values l).
  Proof.
    unfold normalised. generalize (osum l) as s. intros s. unfold values. induction l as [|[y|] l IH]; cbn; [reflexivity| |exact IH]. rewrite IH. f_equal. unfold Rdiv. ring.
  Qed.
  Lemma values_in lo hi l : numbers_in lo hi l -> Forall (fun y => lo <= y <= hi) (values l) /\ length (values l) = length l.
  Proof. induction 1 as [|x l (y & -> & B) F IH]; cbn; [split; [constructor|reflexivity]|]. split; [now constructor|]. f_equal. apply IH. Qed.
  Lemma rsum_pos l : l <> [] -> (forall x, In x l -> 0 < x) -> 0 < rsum l.
  Proof.
    intros N H. destruct l as [|x l]; [congruence|]. unfold rsum. cbn. assert (0 < x) by (apply H; now left). assert (0 <= rsum l) by (apply rsum_nonneg; intros y Y; left; apply H; now right). unfold rsum in *. lra.
  Qed.
  Lemma normalised_sum l : osum l <> 0 -> rsum (values (normalised l)) = 1.
  Proof. intros H. rewrite normalised_values, rsum_scale, <- osum_values. field. exact H. Qed.
End P.
