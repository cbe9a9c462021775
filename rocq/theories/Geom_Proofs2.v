(** Proofs about distances to compound geometries and about bounding boxes. *)
From Verif Require Import RBase Geom_Model Geom_Spec Geom_Proofs.
Local Open Scope R_scope.

Section GeoInd.
  Variable P : geo -> Prop.
  Hypothesis H1 : forall c n, P (HP c n).
  Hypothesis H2 : forall c r, P (Circ c r).
  Hypothesis H3 : forall q i, P (Poly q i).
  Hypothesis H4 : forall c r, P (InvCirc c r).
  Hypothesis H5 : forall q i, P (InvPoly q i).
  Hypothesis H6 : forall gs, Forall P gs -> P (Union gs).
  Hypothesis H7 : forall gs, Forall P gs -> P (InvU gs).
  Fixpoint geo_ind2 (g : geo) : P g :=
    match g with
    | HP c n => H1 c n
    | Circ c r => H2 c r
    | Poly q i => H3 q i
    | InvCirc c r => H4 c r
    | InvPoly q i => H5 q i
    | Union gs => H6 gs ((fix go l : Forall P l := match l with [] => Forall_nil _ | a :: l' => Forall_cons a (geo_ind2 a) (go l') end) gs)
    | InvU gs => H7 gs ((fix go l : Forall P l := match l with [] => Forall_nil _ | a :: l' => Forall_cons a (geo_ind2 a) (go l') end) gs)
    end.
End GeoInd.
Lemma all_Forall {A} (P : A -> Prop) l : (fix all l := match l with [] => True | g :: l' => P g /\ all l' end) l <-> Forall P l.
Proof.
  induction l as [|a l IH]; [split; auto|]. split.
  - intros (H1 & H2). constructor; [assumption|now apply IH].
  - intros H. inversion H; subst. split; [assumption|now apply IH].
Qed.

(** * Union distances *)
Definition fold_u ds st := fold_left union_step ds st.
(** d1 <= d2 *)
Definition ople (a b : option R) : Prop := match b with None => True | Some y => match a with None => False | Some x => x <= y end end.
Lemma ople_refl a : ople a a.
Proof. destruct a; cbn; [lra|exact I]. Qed.
Lemma ople_trans a b c : ople a b -> ople b c -> ople a c.
Proof. destruct a, b, c; cbn; try tauto; lra. Qed.
Lemma olt_true a b : olt a b = true -> ople a b.
Proof. destruct a, b; cbn; try discriminate; auto. intros H. apply Rltb_true in H. lra. Qed.
Lemma olt_false a b : olt a b = false -> ople b a.
Proof. destruct a, b; cbn; try discriminate; auto. intros H. apply Rltb_false in H. lra. Qed.
Lemma ole_ople a b x : ople a b -> ole b x -> ole a x.
Proof. destruct a, b; cbn; try tauto; lra. Qed.
(** once inside: the largest distance of the containing members *)
Lemma fold_inside : forall ds d, exists d', fold_left union_step ds (d, true) = (d', true) /\ ople d d' /\
  (forall x, In (x, true) ds -> ople x d') /\ (d' = d \/ In (d', true) ds).
Proof.
  induction ds as [|(x, b) ds IH]; intros d; cbn [fold_left].
  - exists d. split; [reflexivity|]. split; [apply ople_refl|]. split; [intros x []|now left].
  - cbn [union_step negb andb orb]. destruct b; cbn [andb].
    + destruct (olt d x) eqn:E.
      * destruct (IH x) as (d' & E' & A & B & C). exists d'. split; [assumption|].
        split; [eapply ople_trans; [apply olt_true, E|assumption]|]. split; [|destruct C as [C|C]; [right; left; now subst|right; right; assumption]].
        intros y [Hy|Hy]; [inversion Hy; subst; assumption|now apply B].
      * destruct (IH d) as (d' & E' & A & B & C). exists d'. split; [assumption|]. split; [assumption|].
        split; [|destruct C as [C|C]; [now left|right; right; assumption]].
        intros y [Hy|Hy]; [inversion Hy; subst; eapply ople_trans; [apply olt_false, E|assumption]|now apply B].
    + destruct (IH d) as (d' & E' & A & B & C). exists d'. split; [assumption|]. split; [assumption|].
      split; [|destruct C as [C|C]; [now left|right; right; assumption]].
      intros y [Hy|Hy]; [inversion Hy|now apply B].
Qed.
Lemma fold_outside : forall ds d, (forall x b, In (x, b) ds -> b = false) -> exists d', fold_left union_step ds (d, false) = (d', false) /\
  ople d' d /\ (forall x, In (x, false) ds -> ople d' x) /\ (d' = d \/ In (d', false) ds).
Proof.
  induction ds as [|(x, b) ds IH]; intros d H; cbn [fold_left].
  - exists d. split; [reflexivity|]. split; [apply ople_refl|]. split; [intros x []|now left].
  - rewrite (H x b) by now left. cbn [union_step negb andb orb].
    assert (H' : forall x b, In (x, b) ds -> b = false) by (intros; apply (H x0); now right).
    destruct (olt x d) eqn:E.
    + destruct (IH x H') as (d' & E' & A & B & C). exists d'. split; [assumption|].
      split; [eapply ople_trans; [eassumption|apply olt_true, E]|].
      split; [|destruct C as [C|C]; [right; left; now subst|right; right; assumption]].
      intros y [Hy|Hy]; [inversion Hy; subst; assumption|now apply B].
    + destruct (IH d H') as (d' & E' & A & B & C). exists d'. split; [assumption|]. split; [assumption|].
      split; [|destruct C as [C|C]; [now left|right; right; assumption]].
      intros y [Hy|Hy]; [inversion Hy; subst; eapply ople_trans; [eassumption|apply olt_false, E]|now apply B].
Qed.
Lemma fold_mixed : forall ds d, (exists x, In (x, true) ds) -> exists d', fold_left union_step ds (d, false) = (d', true) /\
  (forall x, In (x, true) ds -> ople x d') /\ In (d', true) ds.
Proof.
  induction ds as [|(x, b) ds IH]; intros d (x0 & H); [contradiction|]. cbn [fold_left]. destruct b; cbn [union_step negb andb orb].
  - destruct (olt x x) eqn:E; [destruct x; cbn in E; [apply Rltb_true in E; lra|discriminate]|].
    destruct (fold_inside ds x) as (d' & E' & A & B & C). exists d'. split; [assumption|]. split.
    + intros y [Hy|Hy]; [inversion Hy; subst; assumption|now apply B].
    + destruct C as [C|C]; [left; now subst|now right].
  - destruct H as [H|H]; [inversion H|].
    destruct (IH (if olt x d then x else d) (ex_intro _ x0 H)) as (d' & E' & A & B). exists d'. split; [assumption|]. split.
    + intros y [Hy|Hy]; [inversion Hy|now apply A].
    + now right.
Qed.
Lemma union_distance_fold ds : (forall x b, ds <> [(x, b)]) -> union_distance ds = fst (fold_left union_step ds (None, false)).
Proof. intros H. destruct ds as [|(x, b) [|? ?]]; [reflexivity| |reflexivity]. now contradiction (H x b). Qed.
(** the specification of the loop: inside, the largest distance of the containing members; outside, the smallest *)
Lemma union_distance_inside ds : (exists x, In (x, true) ds) ->
  (forall x, In (x, true) ds -> ople x (union_distance ds)) /\ In (union_distance ds, true) ds.
Proof.
  intros H. destruct ds as [|(x, b) [|y ds]].
  - destruct H as (? & []).
  - destruct H as (y & [Hy|[]]). inversion Hy; subst. cbn [union_distance]. split; [|now left].
    intros z [Hz|[]]; inversion Hz; subst. apply ople_refl.
  - destruct (fold_mixed ((x, b) :: y :: ds) None H) as (d & E & A & B). rewrite union_distance_fold by discriminate. rewrite E. now split.
Qed.
Lemma union_distance_outside ds : (forall x b, In (x, b) ds -> b = false) ->
  (forall x, In (x, false) ds -> ople (union_distance ds) x) /\ (union_distance ds = None \/ In (union_distance ds, false) ds).
Proof.
  intros H. destruct ds as [|(x, b) [|y ds]].
  - cbn. split; [intros ? []|now left].
  - cbn [union_distance]. rewrite (H x b) by now left. split; [|right; now left].
    intros z [Hz|[]]; inversion Hz; subst. apply ople_refl.
  - destruct (fold_outside ((x, b) :: y :: ds) None H) as (d & E & _ & A & B).
    rewrite union_distance_fold by discriminate. rewrite E. now split.
Qed.

(** atoms *)
Lemma hp_flip c n p q : pdot n n = 1 -> inside (HP c n) p <> inside (HP c n) q -> Rabs (pdot (psub p c) n) <= pdist p q.
Proof.
  intros Hn H. cbn [inside] in H.
  assert (N1 : pnorm n = 1) by (apply pnorm_eq; lra).
  assert (N2 : pnorm (- fst n, - snd n) = 1) by (apply pnorm_eq; [lra|]; unfold pdot in *; cbn; lra).
  pose proof (cauchy (psub p q) n) as C1. pose proof (cauchy (psub p q) (- fst n, - snd n)) as C2. rewrite N1 in C1. rewrite N2 in C2.
  rewrite pdot_neg in C2. unfold pdist.
  assert (E : pdot (psub p q) n = pdot (psub p c) n - pdot (psub q c) n) by (unfold pdot, psub; cbn; ring).
  rdecin H; try (now contradiction H); unfold Rabs; destruct (Rcase_abs _); lra.
Qed.
Lemma circ_flip c r p q : Rleb (pnorm (psub p c)) r <> Rleb (pnorm (psub q c)) r -> circ_distance c r p <= pdist p q.
Proof.
  intros H. unfold circ_distance. change (pnorm (psub p c)) with (pdist p c) in *. change (pnorm (psub q c)) with (pdist q c) in *.
  pose proof (pdist_triangle p q c). pose proof (pdist_triangle q p c). rewrite (pdist_sym q p) in *.
  rdecin H; try (now contradiction H); unfold Rabs; destruct (Rcase_abs _); lra.
Qed.
Lemma segment_dist p q x : on_segment p q x -> pdist p x <= pdist p q.
Proof.
  intros (t & Ht & ->). unfold pdist. replace (psub p (padd p (pscale t (psub q p)))) with (pscale t (psub p q)).
  - rewrite pnorm_scale by lra. pose proof (pnorm_nonneg (psub p q)). nra.
  - unfold psub, padd, pscale; cbn. f_equal; ring.
Qed.
Lemma poly_flip q ins p x : traces q ins -> ins p <> ins x ->
  ole (match poly_distance q p with Ok (d, _) => Some d | Err _ => None end) (pdist p x).
Proof.
  intros ((v & w & Hv & Hw & N) & Hc & _) H. destruct (poly_distance_ok q p v w Hv Hw N) as (d & y & -> & _ & _ & M). cbn.
  destruct (Hc p x H) as (z & Hz & Hs). specialize (M z Hz). pose proof (segment_dist p x z Hs). lra.
Qed.
Lemma existsb_flip_out gs p q : existsb (fun g => inside g p) gs = false -> existsb (fun g => inside g q) gs = true ->
  exists g, In g gs /\ inside g p = false /\ inside g q = true.
Proof.
  intros H1 H2. apply existsb_exists in H2. destruct H2 as (g & Hg & E). exists g. split; [assumption|]. split; [|assumption].
  apply Bool.not_true_iff_false. intros A. assert (existsb (fun g => inside g p) gs = true); [|congruence].
  apply existsb_exists. now exists g.
Qed.
Lemma union_flip gs p q :
  (forall g, In g gs -> inside g p <> inside g q -> ole (gdist g p) (pdist p q)) ->
  existsb (fun g => inside g p) gs <> existsb (fun g => inside g q) gs ->
  ole (union_distance (map (fun g => (gdist g p, inside g p)) gs)) (pdist p q).
Proof.
  intros IH H. set (ds := map (fun g => (gdist g p, inside g p)) gs).
  destruct (existsb (fun g => inside g p) gs) eqn:E1, (existsb (fun g => inside g q) gs) eqn:E2; try (now contradiction H).
  - assert (A : exists x, In (x, true) ds).
    { apply existsb_exists in E1. destruct E1 as (g & Hg & E). exists (gdist g p). apply in_map_iff. exists g. now rewrite E. }
    destruct (union_distance_inside ds A) as (_ & B). apply in_map_iff in B. destruct B as (g & Eg & Hg). injection Eg as Ed Ei.
    unfold ds in Ed |- *. rewrite <- Ed. apply IH; [assumption|]. rewrite Ei.
    assert (inside g q = false); [|congruence]. apply Bool.not_true_iff_false. intros C.
    assert (existsb (fun g => inside g q) gs = true); [|congruence]. apply existsb_exists. now exists g.
  - assert (A : forall x b, In (x, b) ds -> b = false).
    { intros x b Hx. apply in_map_iff in Hx. destruct Hx as (g & Eg & Hg). inversion Eg; subst.
      apply Bool.not_true_iff_false. intros C. assert (existsb (fun g => inside g p) gs = true); [|congruence].
      apply existsb_exists. now exists g. }
    destruct (existsb_flip_out gs p q E1 E2) as (g & Hg & I1 & I2).
    destruct (union_distance_outside ds A) as (B & _). apply (ole_ople _ (gdist g p)).
    + apply B. apply in_map_iff. exists g. now rewrite I1.
    + apply IH; [assumption|congruence].
Qed.
(** the reported distance is a safe radius, for every nested geometry *)
Theorem safe_radius g p q : wf g -> inside g p <> inside g q -> ole (gdist g p) (pdist p q).
Proof.
  induction g using geo_ind2; cbn [wf gdist]; intros W H'.
  - cbn [ole]. now apply hp_flip.
  - now apply circ_flip.
  - now apply (poly_flip q0 i).
  - apply circ_flip. cbn [inside] in H'. intros E. apply H'. now rewrite E.
  - apply (poly_flip q0 i); [assumption|]. cbn [inside] in H'. intros E. apply H'. now rewrite E.
  - apply union_flip; [|exact H']. intros g Hg. apply all_Forall in W. rewrite Forall_forall in W, H. auto.
  - apply union_flip.
    + intros g Hg. apply all_Forall in W. rewrite Forall_forall in W, H. auto.
    + cbn [inside] in H'. intros E. apply H'. now rewrite E.
Qed.

(** exact outside positive geometries *)
Lemma odist_union gs p :
  (forall g, In g gs -> odist (fun q => inside g q = true) p (gdist g p)) -> existsb (fun g => inside g p) gs = false ->
  odist (fun q => existsb (fun g => inside g q) gs = true) p (union_distance (map (fun g => (gdist g p, inside g p)) gs)).
Proof.
  intros IH E. set (ds := map (fun g => (gdist g p, inside g p)) gs).
  assert (A : forall x b, In (x, b) ds -> b = false).
  { intros x b Hx. apply in_map_iff in Hx. destruct Hx as (g & Eg & Hg). inversion Eg; subst.
    apply Bool.not_true_iff_false. intros C. assert (existsb (fun g => inside g p) gs = true); [|congruence].
    apply existsb_exists. now exists g. }
  destruct (union_distance_outside ds A) as (B1 & B2).
  assert (B1' : forall g, In g gs -> ople (union_distance ds) (gdist g p)).
  { intros g Hg. apply B1. replace false with (inside g p); [apply in_map_iff; now exists g|].
    apply (A (gdist g p)). apply in_map_iff. now exists g. }
  destruct (union_distance ds) as [d|] eqn:Ed.
  - destruct B2 as [B2|B2]; [discriminate|]. apply in_map_iff in B2. destruct B2 as (g & Eg & Hg). injection Eg as Ex Ei.
    cbn [odist]. split.
    + intros q Hq. apply existsb_exists in Hq. destruct Hq as (h & Hh & Hi). specialize (IH h Hh). specialize (B1' h Hh).
      destruct (gdist h p) as [e|]; cbn in *; [|now contradiction (IH q)]. destruct IH as (I1 & _). specialize (I1 q Hi). lra.
    + intros eps He. specialize (IH g Hg). rewrite Ex in IH. destruct IH as (_ & I2). destruct (I2 eps He) as (q & Q1 & Q2).
      exists q. split; [|assumption]. apply existsb_exists. now exists g.
  - intros q Hq. apply existsb_exists in Hq. destruct Hq as (h & Hh & Hi). specialize (IH h Hh). specialize (B1' h Hh).
    destruct (gdist h p) as [e|]; cbn in *; [contradiction|now contradiction (IH q)].
Qed.
Theorem outside_exact g p : wf g -> positive g -> inside g p = false -> odist (fun q => inside g q = true) p (gdist g p).
Proof.
  induction g using geo_ind2; intros W Hp E; cbn [wf positive] in *; try contradiction.
  - cbn [gdist odist inside] in *. destruct (hp_distance_ok c n p W) as (A & B & C). split.
    + intros q Hq. change (Rabs (pdot (psub p c) n) <= pdist p q). apply hp_flip; [assumption|]. cbn [inside]. congruence.
    + intros eps He. exists (snd (hp_distance c n p)). split; [apply Rleb_true; rewrite A; lra|]. rewrite B. lra.
  - cbn [gdist odist inside] in *. split.
    + intros q Hq. apply circ_flip. congruence.
    + intros eps He. assert (Hpos : 0 < pnorm (psub p c)) by (apply Rleb_false in E; lra).
      destruct (circ_proj c r p W Hpos) as (A & B). exists (proj_circle c r p). split; [|lra].
      apply Rleb_true. unfold on_circle, pdist in A. rewrite A. lra.
  - cbn [gdist inside] in *. assert (T := W). destruct W as ((v & w & Hv & Hw & N) & Hc & Ha).
    destruct (poly_distance_ok q p v w Hv Hw N) as (d & y & Ed & S1 & S2 & S3). rewrite Ed. split.
    + intros x Hx. pose proof (poly_flip q i p x T) as F. rewrite Ed in F. cbn in F. apply F. congruence.
    + intros eps He. destruct (Ha y eps S1 He) as (z & Z1 & Z2). exists z. split; [assumption|].
      pose proof (pdist_triangle p y z). lra.
  - cbn [gdist]. apply (odist_union gs p); [|exact E]. intros g Hg. apply all_Forall in W. apply all_Forall in Hp.
    rewrite Forall_forall in H, W, Hp. apply H; auto. apply Bool.not_true_iff_false. intros C.
    cbn [inside] in E. assert (existsb (fun g => inside g p) gs = true); [|congruence]. apply existsb_exists. now exists g.
Qed.

(** * Boxes *)
Lemma above_emin a b x : above a x \/ above b x -> a <> PInf -> b <> PInf -> above (emin a b) x.
Proof.
  destruct a, b; cbn; try tauto. intros [H|H] _ _; [eapply Rle_trans; [apply Rmin_l|assumption]|eapply Rle_trans; [apply Rmin_r|assumption]].
Qed.
Lemma emins_above l x e : In e l -> above e x -> (forall e', In e' l -> e' <> PInf) -> above (emins l) x.
Proof.
  induction l as [|a l IH]; intros Hin Ha Hb; [contradiction|]. cbn [emins].
  destruct Hin as [Hin|Hin].
  - subst a. destruct l as [|b l]; [destruct e; cbn; auto|].
    assert (Hn : emins (b :: l) <> PInf).
    { cbn. assert (b <> PInf) by (apply Hb; right; now left). destruct b, (emins l); cbn; congruence. }
    apply above_emin; auto. apply Hb; now left.
  - assert (A : above (emins l) x) by (apply IH; auto; intros e' He'; apply Hb; now right).
    apply above_emin; auto; [apply Hb; now left|]. intros C. rewrite C in A. exact A.
Qed.
Lemma emins_cases l : emins l = PInf \/ In (emins l) l.
Proof.
  induction l as [|a l IH]; [now left|]. cbn [emins]. destruct a as [|r|]; cbn.
  - right; left; reflexivity.
  - destruct IH as [IH|IH]; [rewrite IH; right; left; reflexivity|]. destruct (emins l) as [|s|] eqn:E; cbn.
    + right; right; assumption.
    + unfold Rmin. destruct (Rle_dec r s); [right; left; reflexivity|right; right; assumption].
    + right; left; reflexivity.
  - destruct IH as [IH|IH]; [rewrite IH; left; reflexivity|]. destruct (emins l) as [|s|] eqn:E; cbn; auto.
Qed.
Lemma emin_PInf_r a : emin a PInf = a.
Proof. now destruct a. Qed.
Lemma inside_false_inverse g p : inside g p = false -> inside (inverse g) p = true.
Proof.
  destruct g; cbn [inside inverse]; intros H; try (now rewrite H).
  - rewrite pdot_neg. apply Rleb_false in H. apply Rleb_true. lra.
  - now apply Bool.negb_false_iff in H.
  - now apply Bool.negb_false_iff in H.
  - apply Bool.negb_false_iff in H. exact H.
Qed.
Definition pol (b : bool) (g : geo) : geo := if b then inverse g else g.
Lemma near_true n e : near n e = true <-> pdist n e < 1e-13.
Proof. apply Rltb_true. Qed.
Lemma coord_le_norm (i : bool) p c : coord i c - pdist p c <= coord i p.
Proof.
  assert (coord i c - coord i p <= pdist p c); [|lra]. apply le_pnorm. unfold pdot, psub; destruct i; cbn.
  - pose proof (Rle_0_sqr (fst p - fst c)) as Q. unfold Rsqr in Q. lra.
  - pose proof (Rle_0_sqr (snd p - snd c)) as Q. unfold Rsqr in Q. lra.
Qed.
Lemma axes_neg e : In e [(1, 0); (-1, 0); (0, 1); (0, -1)] -> In (- fst e, - snd e) [(1, 0); (-1, 0); (0, 1); (0, -1)].
Proof.
  assert (E0 : - 0 = 0) by lra. assert (E1 : - -1 = 1) by lra. assert (E2 : -1 = - (1)) by lra.
  cbn [In]. intros [<-|[<-|[<-|[<-|[]]]]]; cbn [fst snd]; rewrite ?E0, ?E1, ?E2; tauto.
Qed.
Lemma hp_min_ok c n p i : (forall e, In e [(1, 0); (-1, 0); (0, 1); (0, -1)] -> pdist n e < 1e-13 -> n = e) ->
  inside (HP c n) p = true -> above (bget i (hp_min c n)) (coord i p).
Proof.
  intros Hn H. cbn [inside] in H. apply Rleb_true in H. unfold hp_min.
  destruct (near n (1, 0)) eqn:E1; [apply near_true, Hn in E1; [|cbn; tauto]|].
  { subst n. unfold pdot, psub in H; cbn in H. destruct i; cbn; [exact I|lra]. }
  destruct (near n (-1, 0)) eqn:E2; [destruct i; exact I|].
  destruct (near n (0, 1)) eqn:E3; [apply near_true, Hn in E3; [|cbn; tauto]|].
  { subst n. unfold pdot, psub in H; cbn in H. destruct i; cbn; [lra|exact I]. }
  destruct (near n (0, -1)) eqn:E4; destruct i; exact I.
Qed.
Lemma lmin_le : forall l x y, In y (x :: l) -> lmin x l <= y.
Proof.
  induction l as [|a l IH]; intros x y H; cbn [lmin]; [destruct H as [H|[]]; subst; lra|].
  destruct H as [H|H]; [subst; apply Rmin_l|]. eapply Rle_trans; [apply Rmin_r|now apply IH].
Qed.
Lemma poly_min_ok q ins p i : (forall p, ins p = true -> forall i, (exists v, In v q /\ coord i v <= coord i p) /\ (exists v, In v q /\ coord i p <= coord i v)) ->
  ins p = true -> above (bget i (poly_min q)) (coord i p).
Proof.
  intros H Hp. destruct (H p Hp i) as ((v & Hv & Hl) & _). destruct q as [|w q]; [contradiction|].
  destruct i; cbn in *.
  - eapply Rle_trans; [|exact Hl]. apply lmin_le. destruct Hv as [Hv|Hv]; [subst; now left|right; now apply in_map].
  - eapply Rle_trans; [|exact Hl]. apply lmin_le. destruct Hv as [Hv|Hv]; [subst; now left|right; now apply in_map].
Qed.
Lemma bget_union_min i bs : bget i (union_min bs) = emins (map (bget i) bs).
Proof. destruct i; reflexivity. Qed.
Lemma inv_axis_ok i pmi is x : inv_axis i pmi is <> PInf -> (forall e, In e (map (bget i) is) -> above e x) -> above (inv_axis i pmi is) x.
Proof.
  unfold inv_axis. destruct (isinf (bget i pmi)); intros H A; [|exact I].
  destruct (emins_cases (filter (fun e => negb (isinf e)) (map (bget i) is))) as [C|C]; [contradiction|].
  apply filter_In in C. now apply A.
Qed.
Lemma invu_min_ok i bs is x : bget i (invu_min bs is) <> PInf -> (forall e, In e (map (bget i) is) -> above e x) -> above (bget i (invu_min bs is)) x.
Proof.
  unfold invu_min. destruct is as [|b [|b' is]].
  - destruct (isinf _ || isinf _); [|destruct i; intros; exact I].
    destruct i; cbn [bget fst snd]; apply inv_axis_ok.
  - intros _ A. apply A. now left.
  - destruct (isinf _ || isinf _); [|destruct i; intros; exact I].
    destruct i; cbn [bget fst snd]; apply inv_axis_ok.
Qed.
Theorem pmin_ok i : forall g b p, atoms_ok g -> honest (fun b g => bget i (pmin b g)) PInf b g -> inside (pol b g) p = true ->
  above (bget i (pmin b g)) (coord i p).
Proof.
  assert (U : forall gs p, (forall g, In g gs -> inside g p = true -> above (bget i (pmin false g)) (coord i p)) ->
    (forall g, In g gs -> bget i (pmin false g) <> PInf) ->
    inside (Union gs) p = true -> above (bget i (union_min (map (pmin false) gs))) (coord i p)).
  { intros gs p IH Hh H. rewrite inside_union in H. apply existsb_exists in H. destruct H as (g & Hg & Hi).
    rewrite bget_union_min, map_map. eapply emins_above.
    - apply in_map_iff. exists g. split; [reflexivity|assumption].
    - now apply IH.
    - intros e He. apply in_map_iff in He. destruct He as (h & <- & Hh'). now apply Hh. }
  assert (V : forall gs p, (forall g, In g gs -> inside (inverse g) p = true -> above (bget i (pmin true g)) (coord i p)) ->
    bget i (invu_min (map (pmin false) gs) (map (pmin true) gs)) <> PInf ->
    inside (InvU gs) p = true -> above (bget i (invu_min (map (pmin false) gs) (map (pmin true) gs))) (coord i p)).
  { intros gs p IH Hh H. apply invu_min_ok; [assumption|]. intros e He. rewrite map_map in He. apply in_map_iff in He.
    destruct He as (g & <- & Hg). apply IH; [assumption|]. apply inside_false_inverse.
    cbn [inside] in H. apply Bool.negb_true_iff in H. apply Bool.not_true_iff_false. intros C.
    assert (existsb (fun g => inside g p) gs = true); [|congruence]. apply existsb_exists. now exists g. }
  intros g. induction g using geo_ind2; intros b p HA Hh Hi; cbn [atoms_ok honest pmin] in *.
  - destruct b; cbn [pol inverse] in Hi.
    + apply hp_min_ok; [|exact Hi]. intros e He Hd. destruct n as (n1, n2); cbn [fst snd] in *.
      assert (D : pdist (n1, n2) (- fst e, - snd e) = pdist (- n1, - n2) e) by (unfold pdist, pnorm; f_equal; unfold pdot, psub; cbn; ring).
      rewrite <- D in Hd. apply HA in Hd.
      * destruct e as (e1, e2); cbn in Hd. injection Hd as -> ->. now rewrite !Ropp_involutive.
      * now apply axes_neg.
    + now apply hp_min_ok.
  - destruct b; [destruct i; exact I|]. cbn [pol inside] in Hi. apply Rleb_true in Hi. pose proof (coord_le_norm i p c).
    unfold pdist in H. destruct i; cbn [bget fst snd coord above] in *; lra.
  - destruct b; [destruct i; exact I|]. apply (poly_min_ok q i0); assumption.
  - destruct b; [|destruct i; exact I]. cbn [pol inverse inside] in Hi. apply Rleb_true in Hi. pose proof (coord_le_norm i p c).
    unfold pdist in H. destruct i; cbn [bget fst snd coord above] in *; lra.
  - destruct b; [|destruct i; exact I]. apply (poly_min_ok q i0); assumption.
  - apply all_Forall in HA. destruct Hh as (Hh & Hs). apply all_Forall in Hs. rewrite Forall_forall in *.
    destruct b; cbn [pol inverse] in Hi.
    + apply V; [|assumption|assumption]. intros g Hg Hgi. exact (H g Hg true p (HA g Hg) (Hs g Hg) Hgi).
    + apply U; [|intros g Hg; specialize (Hs g Hg); destruct g; apply Hs|assumption]. intros g Hg Hgi. exact (H g Hg false p (HA g Hg) (Hs g Hg) Hgi).
  - apply all_Forall in HA. destruct Hh as (Hh & Hs). apply all_Forall in Hs. rewrite Forall_forall in *.
    destruct b; cbn [pol inverse negb] in *.
    + apply U; [|intros g Hg; specialize (Hs g Hg); destruct g; apply Hs|assumption]. intros g Hg Hgi. exact (H g Hg false p (HA g Hg) (Hs g Hg) Hgi).
    + apply V; [|assumption|assumption]. intros g Hg Hgi. exact (H g Hg true p (HA g Hg) (Hs g Hg) Hgi).
Qed.

(** upper corners by reflection at the origin *)
Definition mpt (p : pt) : pt := (- fst p, - snd p).
Fixpoint mirror (g : geo) : geo :=
  match g with
  | HP c n => HP (mpt c) (mpt n)
  | Circ c r => Circ (mpt c) r
  | Poly q i => Poly (map mpt q) (fun p => i (mpt p))
  | InvCirc c r => InvCirc (mpt c) r
  | InvPoly q i => InvPoly (map mpt q) (fun p => i (mpt p))
  | Union gs => Union (map mirror gs)
  | InvU gs => InvU (map mirror gs)
  end.
Definition eneg (e : ext) : ext := match e with NInf => PInf | Fin x => Fin (- x) | PInf => NInf end.
Definition bneg (b : box) : box := (eneg (fst b), eneg (snd b)).
Lemma mpt_mpt p : mpt (mpt p) = p.
Proof. destruct p; unfold mpt; cbn. now rewrite !Ropp_involutive. Qed.
Lemma inside_mirror g p : inside (mirror g) (mpt p) = inside g p.
Proof.
  assert (E : forall c, pnorm (psub (mpt p) (mpt c)) = pnorm (psub p c)) by (intros; unfold pnorm; f_equal; unfold pdot, psub, mpt; cbn; ring).
  assert (L : forall gs, Forall (fun g => inside (mirror g) (mpt p) = inside g p) gs ->
     existsb (fun g => inside g (mpt p)) (map mirror gs) = existsb (fun g => inside g p) gs).
  { intros gs H. induction H as [|h gs Hg Hs IH]; [reflexivity|]. cbn [map existsb]. now rewrite Hg, IH. }
  induction g using geo_ind2; cbn [mirror inside]; rewrite ?E, ?mpt_mpt, ?L by assumption; try reflexivity.
  f_equal. unfold pdot, psub, mpt; cbn; ring.
Qed.
Lemma eneg_emax a b : eneg (emax a b) = emin (eneg a) (eneg b).
Proof. destruct a, b; cbn; try reflexivity. f_equal. unfold Rmax, Rmin. destruct (Rle_dec x x0), (Rle_dec (- x) (- x0)); lra. Qed.
Lemma eneg_emaxs l : eneg (emaxs l) = emins (map eneg l).
Proof. induction l as [|a l IH]; [reflexivity|]. cbn [emaxs map emins]. now rewrite eneg_emax, IH. Qed.
Lemma isinf_eneg e : isinf (eneg e) = isinf e.
Proof. now destruct e. Qed.
Lemma bneg_union bs : bneg (union_max bs) = union_min (map bneg bs).
Proof. unfold bneg, union_max, union_min; cbn. rewrite !eneg_emaxs, !map_map. reflexivity. Qed.
Lemma bget_bneg i b : bget i (bneg b) = eneg (bget i b).
Proof. now destruct i. Qed.
Lemma eneg_inv_axis i pma is : eneg (inv_axis_max i pma is) = inv_axis i (bneg pma) (map bneg is).
Proof.
  unfold inv_axis_max, inv_axis. rewrite bget_bneg, isinf_eneg. destruct (isinf (bget i pma)); [|reflexivity].
  rewrite eneg_emaxs, map_map. f_equal. induction is as [|b is IH]; [reflexivity|]. cbn [map filter].
  rewrite bget_bneg, isinf_eneg. destruct (negb (isinf (bget i b))); cbn [map]; now rewrite IH.
Qed.
Lemma bneg_invu bs is : bneg (invu_max bs is) = invu_min (map bneg bs) (map bneg is).
Proof.
  assert (G : bneg (if isinf (fst (union_max bs)) || isinf (snd (union_max bs)) then
                      (inv_axis_max false (union_max bs) is, inv_axis_max true (union_max bs) is) else (PInf, PInf)) =
    if isinf (fst (union_min (map bneg bs))) || isinf (snd (union_min (map bneg bs))) then
      (inv_axis false (union_min (map bneg bs)) (map bneg is), inv_axis true (union_min (map bneg bs)) (map bneg is)) else (NInf, NInf)).
  { rewrite <- bneg_union. unfold bneg at 2 3. cbn [fst snd]. rewrite !isinf_eneg. destruct (_ || _); [|reflexivity].
    unfold bneg at 1. cbn [fst snd]. now rewrite !eneg_inv_axis. }
  destruct is as [|b [|b' is]]; [exact G|reflexivity|exact G].
Qed.
Lemma near_mpt n e e' : e' = mpt e -> near (mpt n) e = near n e'.
Proof.
  intros ->. unfold near. f_equal. unfold pdist, pnorm. f_equal. unfold pdot, psub, mpt; cbn. ring.
Qed.
Lemma bneg_hp c n : bneg (hp_max c n) = hp_min (mpt c) (mpt n).
Proof.
  unfold hp_max, hp_min.
  rewrite (near_mpt n (1, 0) (-1, 0)) by (unfold mpt; cbn; f_equal; lra).
  rewrite (near_mpt n (-1, 0) (1, 0)) by (unfold mpt; cbn; f_equal; lra).
  rewrite (near_mpt n (0, 1) (0, -1)) by (unfold mpt; cbn; f_equal; lra).
  rewrite (near_mpt n (0, -1) (0, 1)) by (unfold mpt; cbn; f_equal; lra).
  assert (D : forall e e', pnorm (psub e e') <= pdist n e + pdist n e') by
    (intros; change (pnorm (psub e e')) with (pdist e e'); rewrite (pdist_sym n e); apply pdist_triangle).
  assert (X : forall e e', 1 <= pdot (psub e e') (psub e e') -> near n e = true -> near n e' = true -> False).
  { intros e e' H H1 H2. apply near_true in H1. apply near_true in H2. specialize (D e e').
    assert (1 <= pnorm (psub e e')) by (apply le_pnorm; lra). lra. }
  destruct (near n (1, 0)) eqn:E1, (near n (-1, 0)) eqn:E2; try reflexivity;
    [exfalso; apply (X (1, 0) (-1, 0)); auto; unfold pdot, psub; cbn; lra|].
  destruct (near n (0, 1)) eqn:E3, (near n (0, -1)) eqn:E4; try reflexivity.
  exfalso; apply (X (0, 1) (0, -1)); auto; unfold pdot, psub; cbn; lra.
Qed.
Lemma lmax_neg : forall l x, - lmax x l = lmin (- x) (map Ropp l).
Proof.
  induction l as [|a l IH]; intros x; [reflexivity|]. cbn [lmax map lmin]. rewrite <- IH.
  unfold Rmax, Rmin. destruct (Rle_dec x (lmax a l)), (Rle_dec (- x) (- lmax a l)); lra.
Qed.
Lemma bneg_poly q : bneg (poly_max q) = poly_min (map mpt q).
Proof. destruct q as [|p q]; [reflexivity|]. unfold bneg; cbn. rewrite !lmax_neg, !map_map. reflexivity. Qed.
Lemma pmax_mirror g b : bneg (pmax b g) = pmin b (mirror g).
Proof.
  revert b. induction g using geo_ind2; intros b; cbn [pmax pmin mirror].
  - destruct b; rewrite bneg_hp; [|reflexivity]. reflexivity.
  - destruct b; [reflexivity|]. unfold bneg, mpt; cbn. f_equal; f_equal; ring.
  - destruct b; [reflexivity|]. apply bneg_poly.
  - destruct b; [|reflexivity]. unfold bneg, mpt; cbn. f_equal; f_equal; ring.
  - destruct b; [|reflexivity]. apply bneg_poly.
  - rewrite Forall_forall in H. assert (M : forall b, map bneg (map (pmax b) gs) = map (pmin b) (map mirror gs)).
    { intros b'. rewrite !map_map. apply map_ext_in. intros g Hg. now apply H. }
    destruct b; [rewrite bneg_invu|rewrite bneg_union]; now rewrite !M.
  - rewrite Forall_forall in H. assert (M : forall b, map bneg (map (pmax b) gs) = map (pmin b) (map mirror gs)).
    { intros b'. rewrite !map_map. apply map_ext_in. intros g Hg. now apply H. }
    destruct b; [rewrite bneg_union|rewrite bneg_invu]; now rewrite !M.
Qed.
Lemma atoms_ok_mirror g : atoms_ok g -> atoms_ok (mirror g).
Proof.
  assert (PL : forall q (ins : pt -> bool), (forall p, ins p = true -> forall i, (exists v, In v q /\ coord i v <= coord i p) /\ (exists v, In v q /\ coord i p <= coord i v)) ->
    (forall p, ins (mpt p) = true -> forall i, (exists v, In v (map mpt q) /\ coord i v <= coord i p) /\ (exists v, In v (map mpt q) /\ coord i p <= coord i v))).
  { intros q ins H p Hp i. destruct (H _ Hp i) as ((v & Hv & Lv) & (w & Hw & Lw)). split.
    - exists (mpt w). split; [now apply in_map|]. destruct i; cbn in *; lra.
    - exists (mpt v). split; [now apply in_map|]. destruct i; cbn in *; lra. }
  induction g using geo_ind2; cbn [mirror atoms_ok]; intros A; auto.
  - intros e He Hd.
    assert (D : pdist n (mpt e) = pdist (mpt n) e) by (unfold pdist, pnorm; f_equal; unfold pdot, psub, mpt; cbn; ring).
    rewrite <- D in Hd. apply A in Hd; [rewrite Hd; apply mpt_mpt|].
    now apply axes_neg.
  - now apply PL.
  - now apply PL.
  - apply all_Forall. apply all_Forall in A. rewrite Forall_forall in *. intros g Hg. apply in_map_iff in Hg.
    destruct Hg as (h & <- & Hh). auto.
  - apply all_Forall. apply all_Forall in A. rewrite Forall_forall in *. intros g Hg. apply in_map_iff in Hg.
    destruct Hg as (h & <- & Hh). auto.
Qed.
Lemma honest_mirror i g : forall b, honest (fun b g => bget i (pmax b g)) NInf b g -> honest (fun b g => bget i (pmin b g)) PInf b (mirror g).
Proof.
  assert (T : forall g b, bget i (pmax b g) <> NInf -> bget i (pmin b (mirror g)) <> PInf).
  { intros h b H. rewrite <- pmax_mirror, bget_bneg. destruct (bget i (pmax b h)); cbn; congruence. }
  induction g using geo_ind2; intros b (A & B); (split; [apply T in A; exact A|]); try exact I; cbn [mirror honest] in *.
  - apply all_Forall. apply all_Forall in B. rewrite Forall_forall in *. intros g Hg. apply in_map_iff in Hg.
    destruct Hg as (h & <- & Hh). auto.
  - apply all_Forall. apply all_Forall in B. rewrite Forall_forall in *. intros g Hg. apply in_map_iff in Hg.
    destruct Hg as (h & <- & Hh). auto.
Qed.
Theorem pmax_ok i g p : atoms_ok g -> honest (fun b g => bget i (pmax b g)) NInf false g -> inside g p = true ->
  below (bget i (pmax false g)) (coord i p).
Proof.
  intros A H I. pose proof (pmin_ok i (mirror g) false (mpt p) (atoms_ok_mirror g A) (honest_mirror i g false H)) as M.
  cbn [pol] in M. rewrite inside_mirror in M. specialize (M I). rewrite <- pmax_mirror, bget_bneg in M.
  destruct (bget i (pmax false g)); destruct i; cbn in *; auto; lra.
Qed.
(** a bounded intersection without a box: the diamond |3x|+|4y| <= 5 *)
Definition diamond : geo := build (EInter [EHalf (3/5, 4/5) (-3/5, -4/5); EHalf (-3/5, 4/5) (3/5, -4/5);
                                           EHalf (3/5, -4/5) (-3/5, 4/5); EHalf (-3/5, -4/5) (3/5, 4/5)]).
Lemma not_near a b x y : 1/100 <= (a - x) * (a - x) + (b - y) * (b - y) -> near (a, b) (x, y) = false.
Proof.
  intros H. apply Bool.not_true_iff_false. intros C. apply near_true in C. unfold pdist in C.
  assert (1/10 <= pnorm (psub (a, b) (x, y))) by (apply le_pnorm; unfold pdot, psub; cbn; lra). lra.
Qed.
Lemma diamond_boxes : pmin false diamond = (PInf, PInf) /\ pmax false diamond = (NInf, NInf).
Proof.
  assert (X : forall a b, (a = 3/5 \/ a = -(3/5)) -> (b = 4/5 \/ b = -(4/5)) ->
    near (a, b) (1, 0) = false /\ near (a, b) (-1, 0) = false /\ near (a, b) (0, 1) = false /\ near (a, b) (0, -1) = false).
  { intros a b [->| ->] [->| ->]; repeat split; apply not_near; lra. }
  assert (Y : forall c a b, (a = 3/5 \/ a = -(3/5)) -> (b = 4/5 \/ b = -(4/5)) -> hp_min c (a, b) = (NInf, NInf) /\ hp_max c (a, b) = (PInf, PInf)).
  { intros c a b Ha Hb. destruct (X a b Ha Hb) as (E1 & E2 & E3 & E4). unfold hp_min, hp_max. rewrite E1, E2, E3, E4. now split. }
  unfold diamond, inter. cbn [build map]. unfold inter. cbn [map inverse fst snd pmin pmax].
  repeat match goal with |- context [hp_min ?c (?a, ?b)] => destruct (Y c a b ltac:(lra) ltac:(lra)) as (-> & ->) end.
  split; reflexivity.
Qed.
Lemma diamond_bounded p : inside diamond p = true -> Rabs (fst p) <= 5/3 /\ Rabs (snd p) <= 5/4.
Proof.
  unfold diamond. cbn [build map]. unfold inter. cbn [map inverse inside existsb].
  rewrite Bool.negb_true_iff, !Bool.orb_false_iff. intros (H1 & H2 & H3 & H4 & _).
  apply Rleb_false in H1, H2, H3, H4. unfold pdot, psub in *; cbn in *.
  unfold Rabs; split; destruct (Rcase_abs _); lra.
Qed.
Lemma diamond_origin : inside diamond (0, 0) = true.
Proof.
  unfold diamond. cbn [build map]. unfold inter. cbn [map inverse inside existsb].
  rewrite Bool.negb_true_iff, !Bool.orb_false_iff.
  repeat split; apply Rleb_false; unfold pdot, psub; cbn; lra.
Qed.

(** a concrete polygon: the unit square *)
Definition sq : list pt := [(0, 0); (1, 0); (1, 1); (0, 1)].
Definition sq_in (p : pt) : bool := Rleb 0 (fst p) && Rleb (fst p) 1 && Rleb 0 (snd p) && Rleb (snd p) 1.
Lemma sq_in_true p : sq_in p = true <-> 0 <= fst p <= 1 /\ 0 <= snd p <= 1.
Proof. unfold sq_in. rewrite !Bool.andb_true_iff, !Rleb_true. lra. Qed.
Lemma clip : forall fs : list (R * R), (forall f, In f fs -> 0 <= fst f) -> exists s, 0 <= s <= 1 /\
  (forall f, In f fs -> 0 <= fst f + s * snd f) /\ (s = 1 \/ exists f, In f fs /\ fst f + s * snd f = 0).
Proof.
  induction fs as [|(a, b) fs IH]; intros H.
  - exists 1. split; [lra|]. split; [intros ? []|now left].
  - destruct IH as (s & S1 & S2 & S3); [intros f Hf; apply H; now right|].
    assert (Ha : 0 <= a) by (apply (H (a, b)); now left).
    destruct (Rle_or_lt 0 (a + s * b)) as [C|C].
    + exists s. split; [assumption|]. split; [intros f [<-|Hf]; auto|].
      destruct S3 as [S3|(f & Hf & E)]; [now left|right; exists f; split; [now right|assumption]].
    + assert (Hsb : s * b < 0) by lra. assert (Hb : b < 0) by nra.
      assert (E : a + (- a / b) * b = 0) by (field; lra).
      assert (R : 0 <= - a / b <= s).
      { split.
        - unfold Rdiv. replace (- a * / b) with (a * / (- b)) by (field; lra). apply Rmult_le_pos; [assumption|]. left. apply Rinv_0_lt_compat. lra.
        - nra. }
      exists (- a / b). split; [lra|]. split.
      * intros f [<-|Hf]; [cbn; lra|]. assert (F0 : 0 <= fst f) by (apply H; now right). specialize (S2 f Hf).
        destruct (Rle_or_lt 0 (snd f)); nra.
      * right. exists (a, b). split; [now left|exact E].
Qed.
Lemma sq_close : close_pts sq = sq ++ [(0, 0)].
Proof. unfold close_pts, sq. cbn [last fst snd]. rewrite Reqb_refl. replace (Reqb 0 1) with false; [reflexivity|]. symmetry. apply Reqb_false. lra. Qed.
Lemma sq_path p : on_path (close_pts sq) p <-> (0 <= fst p <= 1 /\ 0 <= snd p <= 1 /\ (fst p = 0 \/ fst p = 1 \/ snd p = 0 \/ snd p = 1)).
Proof.
  rewrite sq_close. unfold sq. cbn [app on_path]. unfold on_segment, padd, pscale, psub; cbn [fst snd]. destruct p as (x, y); cbn [fst snd]. split.
  - intros [(t & Ht & E)|[(t & Ht & E)|[(t & Ht & E)|[(t & Ht & E)|[]]]]]; injection E as -> ->; lra.
  - intros (Hx & Hy & [->|[->|[->| ->]]]).
    + right; right; right; left. exists (1 - y). split; [lra|]. f_equal; ring.
    + right; left. exists y. split; [lra|]. f_equal; ring.
    + left. exists x. split; [lra|]. f_equal; ring.
    + right; right; left. exists (1 - x). split; [lra|]. f_equal; ring.
Qed.
Lemma sq_cross a b : sq_in a = true -> sq_in b = false -> exists x, on_path (close_pts sq) x /\ on_segment a b x.
Proof.
  intros Ha Hb. apply sq_in_true in Ha. destruct a as (a1, a2), b as (b1, b2); cbn [fst snd] in *.
  destruct (clip [(a1, b1 - a1); (1 - a1, - (b1 - a1)); (a2, b2 - a2); (1 - a2, - (b2 - a2))]) as (s & S1 & S2 & S3).
  { intros f Hf. cbn in Hf. destruct Hf as [<-|[<-|[<-|[<-|[]]]]]; cbn; lra. }
  assert (S2a := S2 _ (or_introl eq_refl)). assert (S2b := S2 _ (or_intror (or_introl eq_refl))).
  assert (S2c := S2 _ (or_intror (or_intror (or_introl eq_refl)))). assert (S2d := S2 _ (or_intror (or_intror (or_intror (or_introl eq_refl))))).
  cbn [fst snd] in *.
  exists (padd (a1, a2) (pscale s (psub (b1, b2) (a1, a2)))). split; [|now exists s].
  apply sq_path. unfold padd, pscale, psub; cbn [fst snd]. split; [lra|]. split; [lra|].
  destruct S3 as [->|(f & Hf & E)].
  - exfalso. apply Bool.not_true_iff_false in Hb. apply Hb. apply sq_in_true. cbn. lra.
  - cbn in Hf. destruct Hf as [<-|[<-|[<-|[<-|[]]]]]; cbn in E; lra.
Qed.
Lemma segment_sym a b x : on_segment a b x -> on_segment b a x.
Proof. intros (t & Ht & ->). exists (1 - t). split; [lra|]. unfold padd, pscale, psub; cbn. f_equal; ring. Qed.
Lemma sq_traces : traces sq sq_in.
Proof.
  split; [|split].
  - exists (0, 0), (1, 0). split; [now left|]. split; [right; now left|]. intros E. injection E. lra.
  - intros a b H. destruct (sq_in a) eqn:Ea, (sq_in b) eqn:Eb; try (now contradiction H).
    + now apply sq_cross.
    + destruct (sq_cross b a Eb Ea) as (x & Hx & Hs). exists x. split; [assumption|now apply segment_sym].
  - intros x eps Hx He. exists x. split; [|rewrite pdist_refl; assumption]. apply sq_path in Hx. apply sq_in_true. tauto.
Qed.
Lemma sq_atoms p : sq_in p = true -> forall i, (exists v, In v sq /\ coord i v <= coord i p) /\ (exists v, In v sq /\ coord i p <= coord i v).
Proof.
  intros H i. apply sq_in_true in H. split.
  - exists (0, 0). split; [now left|]. destruct i; cbn; lra.
  - exists (1, 1). split; [cbn; tauto|]. destruct i; cbn; lra.
Qed.
(** inside a union the distance is not exact: two half planes covering the plane *)
Lemma cover_inside p : inside (Union [HP (0, 0) (1, 0); HP (1, 0) (-1, 0)]) p = true.
Proof.
  cbn [inside existsb]. rewrite Bool.orb_true_iff, Bool.orb_false_r. unfold pdot, psub; cbn. destruct (Rle_or_lt 0 (fst p)); [left|right]; apply Rleb_true; lra.
Qed.
Lemma cover_dist : exists d, gdist (Union [HP (0, 0) (1, 0); HP (1, 0) (-1, 0)]) (1/2, 0) = Some d /\ d = 1/2.
Proof.
  assert (A : fst (hp_distance (0, 0) (1, 0) (1/2, 0)) = 1/2) by (unfold hp_distance, pdot, psub; cbn; rewrite Rabs_pos_eq by lra; lra).
  assert (B : fst (hp_distance (1, 0) (-1, 0) (1/2, 0)) = 1/2) by (unfold hp_distance, pdot, psub; cbn; rewrite Rabs_pos_eq by lra; lra).
  assert (I : In (gdist (Union [HP (0, 0) (1, 0); HP (1, 0) (-1, 0)]) (1/2, 0), true)
    (map (fun g => (gdist g (1/2, 0), inside g (1/2, 0))) [HP (0, 0) (1, 0); HP (1, 0) (-1, 0)])).
  { apply union_distance_inside. exists (Some (1/2)). cbn [map]. left. cbn [gdist]. rewrite A. f_equal.
    cbn. apply Rleb_true. unfold pdot; cbn; lra. }
  remember (gdist (Union [HP (0, 0) (1, 0); HP (1, 0) (-1, 0)]) (1/2, 0)) as D eqn:HD. clear HD.
  apply in_map_iff in I. destruct I as (g & Eg & [<-|[<-|[]]]); apply (f_equal fst) in Eg; cbn [fst gdist] in Eg; rewrite ?A, ?B in Eg;
    exists (1/2); now split.
Qed.
