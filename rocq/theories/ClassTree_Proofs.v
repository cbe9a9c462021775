(** Proofs for C248. *)
From Coq Require Import String.
From Verif Require Import Base ClassTree_Model ClassTree_Spec.

Lemma sub_in tr c d : In d (subclasses tr c) <-> In c (bases_of tr d).
Proof.
  unfold subclasses. rewrite filter_In, existsb_exists. split.
  - intros (_ & x & Hx & E). apply Nat.eqb_eq in E. now subst.
  - intros H. split; [|exists c; split; [exact H|apply Nat.eqb_refl]]. apply in_seq. split; [lia|]. cbn. unfold bases_of in H.
    destruct (nth_error tr d) eqn:E; [|destruct H]. apply nth_error_Some. congruence.
Qed.
Lemma all_sub_sound k : forall tr c d, In d (all_sub k tr c) -> inherits tr d c.
Proof.
  induction k as [|k IH]; intros tr c d H; [destruct H|]. cbn [all_sub] in H. apply in_app_or in H. destruct H as [H|H].
  - apply inh_direct. now apply sub_in.
  - apply in_flat_map in H. destruct H as (b & Hb & H). apply IH in H. apply sub_in in Hb. clear IH.
    induction H as [d b H|d b' b H H' IH]; [eapply inh_step; [exact H|now apply inh_direct]|]. eapply inh_step; [exact H|]. now apply IH.
Qed.
Lemma inherits_lt tr c d : well_founded_tree tr -> inherits tr d c -> c < d.
Proof. intros W. induction 1 as [d c H|d b c H _ IH]; [now apply W|]. apply W in H. lia. Qed.
Lemma inherits_def tr d c : inherits tr d c -> d < List.length tr.
Proof.
  intros H. assert (G : bases_of tr d <> []) by (destruct H as [d c H|d b c H _]; intros E; rewrite E in H; destruct H).
  unfold bases_of in G. destruct (nth_error tr d) eqn:E; [|congruence]. apply nth_error_Some. congruence.
Qed.
(** along a chain from the top *)
Lemma inherits_top tr d c : inherits tr d c -> In c (bases_of tr d) \/ exists b, In c (bases_of tr b) /\ inherits tr d b.
Proof.
  induction 1 as [d c H|d b c H H' IH]; [now left|]. right. destruct IH as [IH|(x & Hx & IH)]; [exists b; split; [exact IH|now apply inh_direct]|].
  exists x. split; [exact Hx|]. now apply inh_step with b.
Qed.
Lemma all_sub_complete k : forall tr c d, well_founded_tree tr -> inherits tr d c -> List.length tr <= k + c + 1 -> In d (all_sub k tr c).
Proof.
  induction k as [|k IH]; intros tr c d W H Hk.
  - pose proof (inherits_lt _ _ _ W H). pose proof (inherits_def _ _ _ H). lia.
  - cbn [all_sub]. apply in_or_app. destruct (inherits_top _ _ _ H) as [G|(b & Hb & G)]; [left; now apply sub_in|]. right. apply in_flat_map.
    exists b. split; [now apply sub_in|]. apply IH; auto. pose proof (W _ _ Hb). lia.
Qed.
Lemma all_subclasses_spec tr c d : well_founded_tree tr -> In d (all_subclasses tr c) <-> inherits tr d c.
Proof. intros W. split; [apply all_sub_sound|]. intros H. apply all_sub_complete; auto. lia. Qed.

Lemma named_spec tr n c : named tr n c = true <-> name_of tr c = Some n.
Proof. unfold named. destruct (name_of tr c); [|split; discriminate]. rewrite String.eqb_eq. split; congruence. Qed.
Lemma new_cls_spec tr base it n : well_founded_tree tr -> iterates it (fun x => In x (all_subclasses tr base)) ->
  match new_cls tr it (Some n) with
  | Ok (Some d) => inherits tr d base /\ name_of tr d = Some n
  | Ok None => False
  | Err e => e = KeyError /\ forall d, inherits tr d base -> name_of tr d <> Some n
  end.
Proof.
  intros W I. cbn [new_cls]. destruct (existsb (named tr n) it) eqn:E.
  - destruct (find (named tr n) it) as [d|] eqn:F.
    + apply find_some in F. destruct F as (F1 & F2). split; [apply all_subclasses_spec; auto; now apply I|now apply named_spec].
    + apply existsb_exists in E. destruct E as (x & Hx & E). pose proof (find_none _ _ F x Hx). congruence.
  - split; [reflexivity|]. intros d Hd Hn. assert (existsb (named tr n) it = true); [|congruence]. apply existsb_exists. exists d. split; [|now apply named_spec].
    apply I. now apply all_subclasses_spec.
Qed.
Lemma new_cls_unique tr base it n d : well_founded_tree tr -> iterates it (fun x => In x (all_subclasses tr base)) -> one_name tr base n ->
  inherits tr d base -> name_of tr d = Some n -> new_cls tr it (Some n) = Ok (Some d).
Proof.
  intros W I O Hd Hn. pose proof (new_cls_spec tr base it n W I) as S. destruct (new_cls tr it (Some n)) as [[e|]|e].
  - destruct S as (S1 & S2). now rewrite (O e d S1 Hd S2 Hn). - destruct S. - destruct S as (_ & S). now destruct (S d Hd).
Qed.

(** later definitions *)
Lemma bases_app tr ext c : c < List.length tr -> bases_of (tr ++ ext) c = bases_of tr c.
Proof. intros H. unfold bases_of. now rewrite nth_error_app1. Qed.
Lemma name_app tr ext c : c < List.length tr -> name_of (tr ++ ext) c = name_of tr c.
Proof. intros H. unfold name_of. now rewrite nth_error_app1. Qed.
Lemma bases_def tr c b : In b (bases_of tr c) -> c < List.length tr.
Proof. intros H. unfold bases_of in H. destruct (nth_error tr c) eqn:E; [apply nth_error_Some; congruence|destruct H]. Qed.
Lemma wf_app tr ext : well_founded_tree (tr ++ ext) -> well_founded_tree tr.
Proof. intros W c b H. apply (W c b). now rewrite bases_app by (eapply bases_def; eassumption). Qed.
Lemma inherits_app tr ext d c : well_founded_tree (tr ++ ext) -> d < List.length tr -> inherits (tr ++ ext) d c <-> inherits tr d c.
Proof.
  intros W. split.
  - intros H0. revert H. induction H0 as [d c H|d b c H _ IH]; intros Hd; rewrite bases_app in H by exact Hd; [now apply inh_direct|].
    apply inh_step with b; [exact H|]. apply IH. pose proof (W d b). rewrite bases_app in H0 by exact Hd. specialize (H0 H). lia.
  - intros H0. induction H0 as [d c H0|d b c H0 _ IH]; [apply inh_direct|apply inh_step with b]; rewrite ?bases_app; auto.
    apply IH. pose proof (wf_app _ _ W _ _ H0). lia.
Qed.
