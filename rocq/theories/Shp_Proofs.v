(** Proofs about areas from shape files. *)
From Coq Require Import Reals.
From Verif Require Import Base RBase Geom_Model Geom_Spec Geom_Proofs Shp_Model Shp_Spec.

Section NestInd.
  Variable P : nest -> Prop.
  Hypothesis HR : forall r, P (Ring r).
  Hypothesis HN : forall l, Forall P l -> P (Nest l).
  Fixpoint nest_induction (n : nest) : P n :=
    match n with
    | Ring r => HR r
    | Nest l => HN l ((fix go l : Forall P l := match l with [] => Forall_nil P | x :: q => Forall_cons x (nest_induction x) (go q) end) l)
    end.
End NestInd.

(** all rings with points, in order *)
Fixpoint flat (n : nest) : list ring :=
  match n with
  | Ring [] => []
  | Ring r => [r]
  | Nest l => flat_map flat l
  end.

Section P.
Context {Z : Type}.
Variable zone_of : ring -> Z.
Variable proj : Z -> ring -> ring.
Variable ins : ring -> pt -> bool.
Hypothesis proj_len : forall z r, length (proj z r) = length r.

(** lists of nests *)
Definition go_numpy (apply : bool) := fix go (z : option Z) (l : list nest) : option Z * list nest :=
  match l with
  | [] => (z, [])
  | x :: q => let (z1, x') := to_numpy zone_of proj apply z x in let (z2, q') := go z1 q in (z2, x' :: q')
  end.
Lemma numpy_nest : forall apply z l, to_numpy zone_of proj apply z (Nest l) = let (z', l') := go_numpy apply z l in (z', Nest l').
Proof. reflexivity. Qed.

Definition go_create := fix go (l : list nest) : list geo :=
  match l with [] => [] | x :: q => match create ins x with Some g => g :: go q | None => go q end end.
Lemma create_nest : forall l, create ins (Nest l) = match go_create l with [] => None | _ => Some (Union (go_create l)) end.
Proof. reflexivity. Qed.

(** coordinates that fit to a zone *)
Definition fits (apply : bool) (z : option Z) (c : ring -> ring) : Prop :=
  if apply then match z with Some z0 => c = proj z0 | None => True end else c = (fun r => r).

Lemma numpy_spec : forall apply n z, let (z', n') := to_numpy zone_of proj apply z n in
  (forall c, fits apply z' c -> fits apply z c /\ flat n' = map c (flat n)) /\
  (apply = true -> z' = None -> flat n = [] /\ z = None) /\
  (apply = false -> z' = z) /\ (forall z0, z = Some z0 -> z' = Some z0).
Proof.
  intros apply n. induction n as [r|l IH] using nest_induction; intros z.
  - destruct r as [|p r]; cbn [to_numpy flat].
    + repeat split; auto.
    + destruct apply; [|split; [intros c F; split; [exact F|]; cbn in F; subst c; reflexivity|split; [discriminate|auto]]].
      assert (F1 : forall z0, flat (Ring (proj z0 (p :: r))) = [proj z0 (p :: r)]).
      { intros z0. pose proof (proj_len z0 (p :: r)) as L. destruct (proj z0 (p :: r)); [discriminate L|reflexivity]. }
      destruct z as [z0|]; cbn [to_utm]; split.
      * intros c F. split; [exact F|]. cbn in F. subst c. rewrite F1. reflexivity.
      * split; [discriminate|split; [discriminate|auto]].
      * intros c F. split; [exact Logic.I|]. cbn in F. subst c. rewrite F1. reflexivity.
      * split; [discriminate|split; [discriminate|discriminate]].
  - rewrite numpy_nest.
    assert (G : let (z', l') := go_numpy apply z l in
      (forall c, fits apply z' c -> fits apply z c /\ flat_map flat l' = map c (flat_map flat l)) /\
      (apply = true -> z' = None -> flat_map flat l = [] /\ z = None) /\
      (apply = false -> z' = z) /\ (forall z0, z = Some z0 -> z' = Some z0)).
    { revert z. induction l as [|x q IHl]; intros z; cbn [go_numpy flat_map].
      - repeat split; auto.
      - inversion IH as [|? ? IHx IHq]; subst. specialize (IHl IHq). specialize (IHx z).
        destruct (to_numpy zone_of proj apply z x) as [z1 x']. specialize (IHl z1).
        destruct (go_numpy apply z1 q) as [z2 q']. cbn [flat_map].
        destruct IHx as [A1 [A2 [A3 A4]]], IHl as [B1 [B2 [B3 B4]]]. split; [|split; [|split]].
        + intros c F. destruct (B1 c F) as [F1 E1]. destruct (A1 c F1) as [F2 E2]. split; [exact F2|].
          rewrite E1, E2, map_app. reflexivity.
        + intros Ea Ez. destruct (B2 Ea Ez) as [E1 E2]. destruct (A2 Ea E2) as [E3 E4]. rewrite E1, E3. auto.
        + intros Ea. rewrite (B3 Ea). auto.
        + intros z0 E. auto. }
    destruct (go_numpy apply z l) as [z' l']. exact G.
Qed.

Lemma create_flat : forall n p, match create ins n with
  | Some g => inside g p = existsb (fun r => ins r p) (flat n) /\ offg g p
  | None => flat n = []
  end.
Proof.
  intros n p. induction n as [r|l IH] using nest_induction.
  - destruct r as [|x r]; cbn [create flat]; [reflexivity|]. cbn [inside existsb offg]. rewrite Bool.orb_false_r. auto.
  - rewrite create_nest.
    assert (G : existsb (fun g => inside g p) (go_create l) = existsb (fun r => ins r p) (flat_map flat l) /\
      Forall (fun g => offg g p) (go_create l) /\ (go_create l = [] -> flat_map flat l = [])).
    { induction l as [|x q IHl]; cbn [go_create flat_map existsb]; [auto|].
      inversion IH as [|? ? IHx IHq]; subst. destruct (IHl IHq) as [A [B C]].
      destruct (create ins x) as [g|].
      - destruct IHx as [E O]. cbn [existsb]. rewrite E, A, existsb_app. split; [reflexivity|]. split; [constructor; assumption|discriminate].
      - rewrite IHx. cbn [app]. auto. }
    destruct G as [A [B C]]. destruct (go_create l) as [|g gs] eqn:E; [apply C; reflexivity|].
    cbn [flat]. rewrite inside_union, A. split; [reflexivity|].
    clear - B. cbn [offg]. induction B as [|x q Hx Hq IH]; cbn; auto.
Qed.

(** dictionaries *)
Lemma put_in : forall n v d m w, In (m, w) (put n v d) -> (m = n /\ w = v) \/ In (m, w) d.
Proof.
  induction d as [|[k u] q IH]; intros m w I1; cbn [put] in I1; [destruct I1 as [E|[]]; left; split; congruence|].
  destruct (Nat.eqb k n) eqn:K.
  - apply Nat.eqb_eq in K. subst k. destruct I1 as [E|I1]; [left; split; congruence|right; right; exact I1].
  - destruct I1 as [E|I1]; [right; left; exact E|]. destruct (IH m w I1) as [A|A]; [left; exact A|right; right; exact A].
Qed.
Lemma put_has : forall n v d, In (n, v) (put n v d).
Proof.
  induction d as [|[k u] q IH]; cbn [put]; [left; reflexivity|].
  destruct (Nat.eqb k n) eqn:K; [apply Nat.eqb_eq in K; subst; left; reflexivity|right; exact IH].
Qed.
Lemma put_keys : forall n v d m, (exists w, In (m, w) d) -> exists w, In (m, w) (put n v d).
Proof.
  induction d as [|[k u] q IH]; intros m [w I1]; [destruct I1|]. cbn [put].
  destruct (Nat.eqb k n) eqn:K.
  - destruct I1 as [E|I1]; [exists v; left; congruence|exists w; right; exact I1].
  - destruct I1 as [E|I1]; [exists w; left; exact E|]. destruct (IH m (ex_intro _ w I1)) as [w' I2]. exists w'. right. exact I2.
Qed.

Lemma row_first : forall t n f, row_of n t = Some f <-> first_row t n f.
Proof.
  intros t n f. split.
  - induction t as [|[[m|] g] q IH]; intros E; cbn [row_of] in E; [discriminate| |].
    + destruct (Nat.eqb m n) eqn:K.
      * apply Nat.eqb_eq in K. subst. injection E as ->. exists [], q. split; [reflexivity|intros ? []].
      * destruct (IH E) as [pre [post [-> U]]]. exists ((Some m, g) :: pre), post. split; [reflexivity|].
        intros g' [X|X]; [injection X as -> ->; rewrite Nat.eqb_refl in K; discriminate|exact (U g' X)].
    + destruct (IH E) as [pre [post [-> U]]]. exists ((None, g) :: pre), post. split; [reflexivity|].
      intros g' [X|X]; [discriminate|exact (U g' X)].
  - intros [pre [post [-> U]]]. induction pre as [|[[m|] g] q IH]; cbn [app row_of].
    + rewrite Nat.eqb_refl. reflexivity.
    + destruct (Nat.eqb m n) eqn:K; [apply Nat.eqb_eq in K; subst; exfalso; apply (U g); left; reflexivity|].
      apply IH. intros g' X. apply (U g'). right. exact X.
    + apply IH. intros g' X. apply (U g'). right. exact X.
Qed.

Lemma row_none : forall t n, row_of n t = None <-> forall f, ~ In (Some n, f) t.
Proof.
  induction t as [|[[m|] g] q IH]; intros n; cbn [row_of].
  - split; [intros _ f []|reflexivity].
  - destruct (Nat.eqb m n) eqn:K.
    + apply Nat.eqb_eq in K. subst. split; [discriminate|]. intros U. exfalso. apply (U g). left. reflexivity.
    + rewrite IH. split; intros U f X; [destruct X as [X|X]; [injection X as -> ->; rewrite Nat.eqb_refl in K; discriminate|exact (U f X)]|apply (U f); right; exact X].
  - rewrite IH. split; intros U f X; [destruct X as [X|X]; [discriminate|exact (U f X)]|apply (U f); right; exact X].
Qed.

(** an entry holds the rings of its geometry, in the coordinates [c] *)
Definition entry_ok (t : table) (c : ring -> ring) (e : nat * (nest * nest)) : Prop :=
  exists f e0 i0, row_of (fst e) t = Some f /\ extract f = Ok (e0, i0) /\
    flat (fst (snd e)) = map c (flat e0) /\ flat (snd (snd e)) = map c (flat i0).

Lemma read_spec : forall t apply names z d z' d',
  (forall c, fits apply z c -> Forall (entry_ok t c) d) ->
  (apply = true -> z = None -> Forall (fun e : nat * (nest * nest) => flat (fst (snd e)) = [] /\ flat (snd (snd e)) = []) d) ->
  read_names zone_of proj t apply z names d = Ok (z', d') ->
  (forall c, fits apply z' c -> Forall (entry_ok t c) d') /\
  (apply = true -> z' = None -> Forall (fun e : nat * (nest * nest) => flat (fst (snd e)) = [] /\ flat (snd (snd e)) = []) d') /\
  (forall z0, z = Some z0 -> z' = Some z0) /\
  (forall n, In (Some n) names \/ (exists w, In (n, w) d) -> exists w, In (n, w) d') /\
  (forall n w, In (n, w) d' -> In (Some n) names \/ exists w, In (n, w) d).
Proof.
  intros t apply. induction names as [|[n|] q IH]; intros z d z' d' D0 D1 E; cbn [read_names] in E.
  - injection E as <- <-. split; [exact D0|]. split; [exact D1|]. split; [auto|]. split; [intros n [[]|X]; exact X|intros n w X; right; exists w; exact X].
  - destruct (row_of n t) as [f|] eqn:RW; [|discriminate].
    destruct (extract f) as [[e0 i0]|] eqn:EX; [|discriminate]. cbn [bind fst snd] in E.
    pose proof (numpy_spec apply e0 z) as N1. destruct (to_numpy zone_of proj apply z e0) as [z1 e].
    pose proof (numpy_spec apply i0 z1) as N2. destruct (to_numpy zone_of proj apply z1 i0) as [z2 i].
    destruct N1 as [A1 [A2 [A3 A4]]], N2 as [B1 [B2 [B3 B4]]].
    destruct (IH z2 (put n (e, i) d) z' d') as [C1 [C2 [C3 [C4 C5]]]]; [| |exact E|].
    + intros c F. destruct (B1 c F) as [F1 E1]. destruct (A1 c F1) as [F2 E2]. specialize (D0 c F2).
      rewrite Forall_forall in *. intros [m w] X. apply put_in in X. destruct X as [[-> ->]|X]; [|apply D0; exact X].
      exists f, e0, i0. cbn [fst snd]. auto.
    + intros Ea Ez. destruct (B2 Ea Ez) as [E1 E2]. destruct (A2 Ea E2) as [E3 E4]. specialize (D1 Ea E4).
      rewrite Forall_forall in *. intros [m w] X. apply put_in in X. destruct X as [[-> ->]|X]; [|apply D1; exact X]. cbn [fst snd].
      assert (exists c, fits apply z2 c) as [c F] by (rewrite Ea, Ez; exists (fun r => r); exact Logic.I).
      destruct (B1 c F) as [F1 G1]. destruct (A1 c F1) as [_ G2]. rewrite G1, G2, E1, E3. auto.
    + split; [exact C1|]. split; [exact C2|]. split; [intros z0 X; auto|]. split.
      * intros m X. apply C4. destruct X as [[X|X]|X]; [injection X as ->; right; exists (e, i); apply put_has|left; exact X|right; apply put_keys; exact X].
      * intros m w X. destruct (C5 m w X) as [Y|[w' Y]]; [left; right; exact Y|]. apply put_in in Y.
        destruct Y as [[-> _]|Y]; [left; left; reflexivity|right; exists w'; exact Y].
  - destruct (IH z d z' d' D0 D1 E) as [C1 [C2 [C3 [C4 C5]]]]. split; [exact C1|]. split; [exact C2|]. split; [exact C3|]. split.
    + intros m [[X|X]|X]; [discriminate|apply C4; left; exact X|apply C4; right; exact X].
    + intros m w X. destruct (C5 m w X) as [Y|Y]; [left; right; exact Y|right; exact Y].
Qed.

(** rings of a geometry *)
Lemma flat_rings : forall (l : list ring) r, In r (flat_map flat (map Ring l)) <-> In r l /\ r <> [].
Proof.
  induction l as [|x q IH]; intros r; cbn [map flat_map In]; [tauto|]. rewrite in_app_iff, IH.
  destruct x as [|p x]; cbn [flat In].
  - split; [intros [[]|[A B]]; auto|intros [[<-|A] B]; [congruence|auto]].
  - split; [intros [[<-|[]]|[A B]]; split; auto; discriminate|intros [[<-|A] B]; auto].
Qed.

Lemma extract_ext : forall f e0 i0 r, extract f = Ok (e0, i0) ->
  (In r (flat e0) <-> exists q, has_part f q /\ p_ext q = r /\ r <> []).
Proof.
  intros [q|qs|] e0 i0 r E; cbn [extract] in E; [| |discriminate]; injection E as <- <-; cbn [has_part].
  - destruct (p_ext q) as [|p x] eqn:Q; cbn [flat In].
    + split; [intros []|intros [q' [-> [A B]]]; congruence].
    + split; [intros [<-|[]]; exists q; split; [reflexivity|split; [exact Q|discriminate]]|intros [q' [-> [A B]]]; left; congruence].
  - cbn [flat]. rewrite <- (map_map p_ext Ring), flat_rings, in_map_iff. split.
    + intros [[q [A B]] C]. exists q. auto.
    + intros [q [A [B C]]]. split; [exists q; auto|exact C].
Qed.

Lemma extract_int : forall f e0 i0 r, extract f = Ok (e0, i0) ->
  (In r (flat i0) <-> exists q, has_part f q /\ In r (p_holes q) /\ r <> []).
Proof.
  intros [q|qs|] e0 i0 r E; cbn [extract] in E; [| |discriminate]; injection E as <- <-; cbn [has_part flat].
  - rewrite flat_rings. split; [intros [A B]; exists q; auto|intros [q' [-> X]]; exact X].
  - rewrite in_flat_map. split.
    + intros [n [A B]]. apply in_map_iff in A. destruct A as [q [<- A]]. cbn [flat] in B. apply flat_rings in B. exists q. auto.
    + intros [q [A B]]. exists (Nest (map Ring (p_holes q))). split; [apply in_map_iff; exists q; auto|]. cbn [flat]. apply flat_rings. exact B.
Qed.

Lemma wanted_names : forall t names n,
  (In (Some n) (match names with Some l => map Some l | None => map fst t end) <-> wanted t names n).
Proof.
  intros t [l|] n; cbn [wanted]; rewrite in_map_iff; split.
  - intros [x [A B]]. congruence.
  - intros X. exists n. auto.
  - intros [[m f] [A B]]. cbn in A. subst m. exists f. exact B.
  - intros [f X]. exists (Some n, f). auto.
Qed.

Lemma shp_exact : forall t names utm g zone, shp2geom zone_of proj ins t names utm = Ok (Some g, zone) ->
  exists c, coordinates proj utm zone c /\
    forall p, inside g p = true <->
      (exists q, chosen t names q /\ in_outer ins c q p) /\ ~ (exists q, chosen t names q /\ in_hole ins c q p).
Proof.
  intros t names utm g zone E. unfold shp2geom in E.
  set (nms := match names with Some l => map Some l | None => map fst t end) in E.
  set (apply := match utm with Some _ => true | None => false end) in E.
  set (z0 := match utm with Some z => z | None => None end) in E.
  destruct (read_names zone_of proj t apply z0 nms []) as [[z' d]|] eqn:RD; [|discriminate]. cbn [bind fst snd] in E.
  destruct (read_spec t apply nms z0 [] z' d) as [C1 [C2 [C3 [C4 C5]]]]; [intros; constructor|intros; constructor|exact RD|].
  set (Ne := Nest (map (fun nv => fst (snd nv)) d)) in E. set (Ni := Nest (map (fun nv => snd (snd nv)) d)) in E.
  assert (Z' : zone = z').
  { destruct (create ins Ne), (create ins Ni); congruence. }
  subst zone.
  assert (GE : exists e, create ins Ne = Some e).
  { destruct (create ins Ne) as [e|]; [exists e; reflexivity|]. destruct (create ins Ni); discriminate. }
  destruct GE as [e GE].
  assert (NEMP : flat Ne <> []).
  { clear E. unfold Ne in GE. rewrite create_nest in GE. cbn [flat]. intros X.
    assert (Y : go_create (map (fun nv => fst (snd nv)) d) = []).
    { clear - X. induction d as [|x q IH]; cbn [map go_create flat_map] in *; [reflexivity|].
      apply app_eq_nil in X. destruct X as [X1 X2]. rewrite IH by exact X2.
      assert (N : forall n, flat n = [] -> create ins n = None).
      { clear. intros n. induction n as [r|l IH] using nest_induction; intros F.
        - destruct r; [reflexivity|discriminate].
        - rewrite create_nest. assert (go_create l = []) as ->; [|reflexivity].
          cbn [flat] in F. induction l as [|x q IHl]; cbn [go_create flat_map] in *; [reflexivity|].
          apply app_eq_nil in F. destruct F as [F1 F2]. inversion IH as [|? ? I1 I2]; subst. rewrite (I1 F1). apply IHl; assumption. }
      rewrite (N _ X1). reflexivity. }
    rewrite Y in GE. discriminate. }
  assert (exists c, coordinates proj utm z' c /\ fits apply z' c) as [c [CO F]].
  { unfold apply, z0 in *. destruct utm as [want|]; cbn [coordinates fits].
    - destruct z' as [z|].
      + exists (proj z). split; [|reflexivity]. exists z. split; [reflexivity|]. split; [reflexivity|].
        intros z1 ->. specialize (C3 z1 eq_refl). congruence.
      + exfalso. specialize (C2 eq_refl eq_refl). apply NEMP. unfold Ne. cbn [flat]. clear - C2.
        induction C2 as [|x q [A B] H IH]; cbn [map flat_map]; [reflexivity|]. rewrite A, IH. reflexivity.
    - exists (fun r => r). split; [reflexivity|reflexivity]. }
  exists c. split; [exact CO|]. specialize (C1 c F). intros p.
  (* rings *)
  assert (FE : existsb (fun r => ins r p) (flat Ne) = true <-> exists q, chosen t names q /\ in_outer ins c q p).
  { rewrite existsb_exists. unfold Ne. cbn [flat]. split.
    - intros [r [A B]]. apply in_flat_map in A. destruct A as [n [A1 A2]]. apply in_map_iff in A1. destruct A1 as [[m w] [<- A1]].
      rewrite Forall_forall in C1. destruct (C1 _ A1) as [f [e0 [i0 [R1 [R2 [R3 R4]]]]]]. cbn [fst snd] in *.
      rewrite R3 in A2. apply in_map_iff in A2. destruct A2 as [r0 [<- A2]].
      apply (extract_ext f e0 i0 r0 R2) in A2. destruct A2 as [q [Q1 [Q2 Q3]]]. exists q. split.
      + exists m, f. split; [apply wanted_names; destruct (C5 m w A1) as [X|[w' []]]; exact X|]. split; [apply row_first; exact R1|exact Q1].
      + subst r0. split; assumption.
    - intros [q [[m [f [W [R1 Q1]]]] [Q2 Q3]]]. apply wanted_names in W. destruct (C4 m (or_introl W)) as [w A1].
      rewrite Forall_forall in C1. destruct (C1 _ A1) as [f' [e0 [i0 [R1' [R2 [R3 R4]]]]]]. cbn [fst snd] in *.
      apply row_first in R1. assert (f' = f) by congruence. subst f'.
      exists (c (p_ext q)). split; [|exact Q3]. apply in_flat_map. exists (fst w). split; [apply in_map_iff; exists (m, w); auto|].
      rewrite R3. apply in_map. apply (extract_ext f e0 i0 _ R2). exists q. auto. }
  assert (FI : existsb (fun r => ins r p) (flat Ni) = true <-> exists q, chosen t names q /\ in_hole ins c q p).
  { rewrite existsb_exists. unfold Ni. cbn [flat]. split.
    - intros [r [A B]]. apply in_flat_map in A. destruct A as [n [A1 A2]]. apply in_map_iff in A1. destruct A1 as [[m w] [<- A1]].
      rewrite Forall_forall in C1. destruct (C1 _ A1) as [f [e0 [i0 [R1 [R2 [R3 R4]]]]]]. cbn [fst snd] in *.
      rewrite R4 in A2. apply in_map_iff in A2. destruct A2 as [r0 [<- A2]].
      apply (extract_int f e0 i0 r0 R2) in A2. destruct A2 as [q [Q1 [Q2 Q3]]]. exists q. split.
      + exists m, f. split; [apply wanted_names; destruct (C5 m w A1) as [X|[w' []]]; exact X|]. split; [apply row_first; exact R1|exact Q1].
      + exists r0. split; [exact Q2|]. split; assumption.
    - intros [q [[m [f [W [R1 Q1]]]] [r0 [Q2 [Q3 Q4]]]]]. apply wanted_names in W. destruct (C4 m (or_introl W)) as [w A1].
      rewrite Forall_forall in C1. destruct (C1 _ A1) as [f' [e0 [i0 [R1' [R2 [R3 R4]]]]]]. cbn [fst snd] in *.
      apply row_first in R1. assert (f' = f) by congruence. subst f'.
      exists (c r0). split; [|exact Q4]. apply in_flat_map. exists (snd w). split; [apply in_map_iff; exists (m, w); auto|].
      rewrite R4. apply in_map. apply (extract_int f e0 i0 _ R2). exists q. auto. }
  pose proof (create_flat Ne p) as K1. pose proof (create_flat Ni p) as K2. rewrite GE in K1, E. destruct K1 as [K1 O1].
  destruct (create ins Ni) as [i|] eqn:GI.
  - injection E as <-. destruct K2 as [K2 O2]. unfold diff. rewrite inside_inter by (constructor; [exact O1|constructor; [apply offg_inverse; exact O2|constructor]]).
    cbn [forallb]. rewrite (inside_inverse i p O2), K1, K2, Bool.andb_true_r, Bool.andb_true_iff, Bool.negb_true_iff, <- FE, <- FI, Bool.not_true_iff_false. reflexivity.
  - injection E as <-. rewrite K1, FE. rewrite <- FI, K2. cbn [existsb]. split; [intros X; split; [exact X|discriminate]|intros [X _]; exact X].
Qed.

Lemma read_error : forall t apply names z d,
  (forall n f, In (Some n, f) t -> f <> FOther) ->
  match read_names zone_of proj t apply z names d with
  | Ok _ => forall n, In (Some n) names -> exists f, In (Some n, f) t
  | Err x => x = KeyError /\ exists n, In (Some n) names /\ forall f, ~ In (Some n, f) t
  end.
Proof.
  intros t apply names z d H. revert z d. induction names as [|[n|] q IH]; intros z d; cbn [read_names].
  - intros n [].
  - destruct (row_of n t) as [f|] eqn:RW.
    + assert (TF : In (Some n, f) t).
      { apply row_first in RW. destruct RW as [pre [post [-> _]]]. apply in_or_app. right. left. reflexivity. }
      assert (exists ei, extract f = Ok ei) as [ei EX] by (pose proof (H n f TF); destruct f; cbn [extract]; [eauto|eauto|congruence]).
      rewrite EX. cbn [bind]. destruct (to_numpy zone_of proj apply z (fst ei)) as [z1 e]. destruct (to_numpy zone_of proj apply z1 (snd ei)) as [z2 i].
      specialize (IH z2 (put n (e, i) d)). destruct (read_names zone_of proj t apply z2 q (put n (e, i) d)).
      * intros m [X|X]; [injection X as <-; exists f; exact TF|apply IH; exact X].
      * destruct IH as [A [m [B C]]]. split; [exact A|]. exists m. split; [right; exact B|exact C].
    + split; [reflexivity|]. exists n. split; [left; reflexivity|]. apply row_none. exact RW.
  - specialize (IH z d). destruct (read_names zone_of proj t apply z q d).
    + intros m [X|X]; [discriminate|apply IH; exact X].
    + destruct IH as [A [m [B C]]]. split; [exact A|]. exists m. split; [right; exact B|exact C].
Qed.
End P.
