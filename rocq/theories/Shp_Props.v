(** C224, C225: areas from shape files. *)
From Coq Require Import Reals Lra.
From Verif Require Import Base RBase Geom_Model Shp_Model Shp_Spec Shp_Proofs.
Local Open Scope R_scope.

(** C224, what is always so: the area consists of the points that are in the outer ring of one of the
    chosen polygons and in no hole of any of them, with all coordinates in one and the same UTM zone
    (the one asked for, or the one which is reported), or as in the file. *)
Theorem C224_area : forall (Z : Type) (zone_of : ring -> Z) proj ins t names utm g zone,
  (forall z r, length (proj z r) = length r) ->
  shp2geom zone_of proj ins t names utm = Ok (Some g, zone) ->
  exists c, coordinates proj utm zone c /\
    forall p, inside g p = true <->
      (exists q, chosen t names q /\ in_outer ins c q p) /\ ~ (exists q, chosen t names q /\ in_hole ins c q p).
Proof. intros Z zone_of proj ins t names utm g zone L. apply shp_exact. exact L. Qed.

(** C224: if no chosen polygon reaches into a hole of another chosen polygon, the area is the union of
    the chosen polygons. *)
Theorem C224_union_partial : forall (Z : Type) (zone_of : ring -> Z) proj ins t names utm g zone,
  (forall z r, length (proj z r) = length r) ->
  shp2geom zone_of proj ins t names utm = Ok (Some g, zone) ->
  exists c, coordinates proj utm zone c /\
    ((forall q q' p, chosen t names q -> chosen t names q' -> in_part ins c q p -> ~ in_hole ins c q' p) ->
     forall p, inside g p = true <-> exists q, chosen t names q /\ in_part ins c q p).
Proof.
  intros Z zone_of proj ins t names utm g zone L E. destruct (C224_area Z zone_of proj ins t names utm g zone L E) as [c [C H]].
  exists c. split; [exact C|]. intros A p. rewrite H. split.
  - intros [[q [Q1 Q2]] N]. exists q. split; [exact Q1|]. split; [exact Q2|]. intros X. apply N. exists q. auto.
  - intros [q [Q1 Q2]]. split; [exists q; split; [exact Q1|apply Q2]|]. intros [q' [Q3 Q4]]. exact (A q q' p Q1 Q3 Q2 Q4).
Qed.

(** squares about the origin *)
Definition square (w : R) : ring := [(w, w); (- w, w); (- w, - w); (w, - w)].
Definition in_square (r : ring) (p : pt) : bool :=
  match r with (w, _) :: _ => Rleb (Rabs (fst p)) w && Rleb (Rabs (snd p)) w | [] => false end.
Lemma origin_in : forall w, 0 <= w -> in_square (square w) (0, 0) = true.
Proof. intros w H. cbn. rewrite Rabs_R0. apply Bool.andb_true_iff. split; apply Rleb_true; exact H. Qed.

(** an island in a lake: the second polygon lies in the hole of the first *)
Definition lake : table := [(Some 0%nat, FMulti [mkpart (square 3) [square 2]; mkpart (square 1) []])].

(** C224 REFUTED: a polygon that lies in the hole of another one is not part of the area. *)
Theorem C224_island_refuted :
  exists g, shp2geom (fun _ => tt) (fun _ r => r) in_square lake None None = Ok (Some g, None) /\
    (exists q, chosen lake None q /\ in_part in_square (fun r => r) q (0, 0)) /\ inside g (0, 0) = false.
Proof.
  eexists. split; [reflexivity|]. split.
  - exists (mkpart (square 1) []). split.
    + exists 0%nat, (FMulti [mkpart (square 3) [square 2]; mkpart (square 1) []]). split; [eexists; left; reflexivity|].
      split; [exists [], []; split; [reflexivity|intros ? []]|right; left; reflexivity].
    + split; [split; [discriminate|apply origin_in; lra]|intros [h [[] _]]].
  - pose proof (origin_in 2 ltac:(lra)) as H2. cbn in H2.
    cbn. rewrite H2. cbn. rewrite Bool.orb_true_r. reflexivity.
Qed.

(** non-vacuity of C224_union_partial: a polygon with a hole, in some UTM zone *)
Example C224_case :
  exists g, shp2geom (fun _ => 32%nat) (fun _ r => r) in_square [(Some 7%nat, FPoly (mkpart (square 3) [square 2]))] (Some [7%nat]) (Some None) = Ok (Some g, Some 32%nat) /\
    (forall q q' p, chosen [(Some 7%nat, FPoly (mkpart (square 3) [square 2]))] (Some [7%nat]) q -> chosen [(Some 7%nat, FPoly (mkpart (square 3) [square 2]))] (Some [7%nat]) q' ->
       in_part in_square (fun r => r) q p -> ~ in_hole in_square (fun r => r) q' p).
Proof.
  eexists. split; [reflexivity|]. intros q q' p Q Q' [_ N] X. apply N.
  assert (U : forall x, chosen [(Some 7%nat, FPoly (mkpart (square 3) [square 2]))] (Some [7%nat]) x -> x = mkpart (square 3) [square 2]).
  { intros x [n [f [_ [[pre [post [E _]]] H]]]]. destruct pre as [|y pre]; [injection E as _ <- _; exact H|].
    injection E as _ E. destruct pre; discriminate. }
  rewrite (U q Q). rewrite (U q' Q') in X. exact X.
Qed.

(** C225: for files with polygons only, a missing name is a KeyError; otherwise all names are found. *)
Theorem C225_names : forall (Z : Type) (zone_of : ring -> Z) proj ins t l utm,
  (forall z r, length (proj z r) = length r) ->
  (forall n f, In (Some n, f) t -> f <> FOther) ->
  (forall n f q, In (Some n, f) t -> has_part f q -> p_ext q <> []) -> (forall n f, In (Some n, f) t -> exists q, has_part f q) ->
  match shp2geom zone_of proj ins t (Some l) utm with
  | Err e => e = KeyError /\ exists n, In n l /\ forall f, ~ In (Some n, f) t
  | Ok (g, _) => (forall n, In n l -> exists f, In (Some n, f) t) /\ (g = None <-> l = [])
  end.
Proof.
  intros Z zone_of proj ins t l utm L H HE HP. unfold shp2geom.
  set (apply := match utm with Some _ => true | None => false end). set (z0 := match utm with Some z => z | None => None end).
  pose proof (read_error zone_of proj t apply (map Some l) z0 [] H) as R.
  destruct (read_names zone_of proj t apply z0 (map Some l) []) as [[z' d]|e] eqn:RD; cbn [bind fst snd].
  2: { destruct R as [-> [n [A B]]]. split; [reflexivity|]. exists n. split; [|exact B]. apply in_map_iff in A. destruct A as [m [E A]]. congruence. }
  destruct (read_spec zone_of proj L t apply (map Some l) z0 [] z' d) as [C1 [_ [_ [C4 C5]]]]; [intros; constructor|intros; constructor|exact RD|].
  assert (exists c, fits proj apply z' c) as [c F].
  { unfold fits. destruct apply; [destruct z' as [z|]; [exists (proj z); reflexivity|exists (fun r => r); exact Logic.I]|exists (fun r => r); reflexivity]. }
  specialize (C1 c F).
  assert (NN : forall n w, In (n, w) d -> flat (fst w) <> []).
  { intros n w X. rewrite Forall_forall in C1. destruct (C1 _ X) as [f [e0 [i0 [R1 [R2 [R3 _]]]]]]. cbn [fst snd] in *.
    assert (TF : In (Some n, f) t) by (apply row_first in R1; destruct R1 as [pre [post [-> _]]]; apply in_or_app; right; left; reflexivity).
    destruct (HP n f TF) as [q Q]. rewrite R3. intros E. apply map_eq_nil in E.
    assert (In (p_ext q) (flat e0)) as Y by (apply (extract_ext zone_of ins f e0 i0 _ R2); exists q; split; [exact Q|]; split; [reflexivity|]; exact (HE n f q TF Q)).
    rewrite E in Y. destruct Y. }
  pose proof (create_flat ins (Nest (map (fun nv => fst (snd nv)) d)) (0, 0)) as K1.
  pose proof (create_flat ins (Nest (map (fun nv => snd (snd nv)) d)) (0, 0)) as K2.
  assert (D0 : l = [] -> d = []).
  { intros ->. destruct d as [|[n w] q]; [reflexivity|]. destruct (C5 n w (or_introl eq_refl)) as [[]|[w' []]]. }
  destruct (create ins (Nest (map (fun nv => fst (snd nv)) d))) as [g|] eqn:G.
  - assert (l <> []) as LN by (intros X; rewrite (D0 X) in G; discriminate).
    destruct (create ins (Nest (map (fun nv => snd (snd nv)) d))) as [i|]; (split; [intros n X; apply R; apply in_map; exact X|]); split; congruence.
  - assert (d = []) as ->.
    { destruct d as [|[n w] q]; [reflexivity|]. exfalso. cbn [map flat flat_map fst snd] in K1. apply app_eq_nil in K1. exact (NN n w (or_introl eq_refl) (proj1 K1)). }
    cbn [map create]. split; [intros n X; apply R; apply in_map; exact X|]. split; [|reflexivity]. intros _.
    destruct l as [|n q]; [reflexivity|]. destruct (C4 n (or_introl (or_introl eq_refl))) as [w []].
Qed.

(** two rows of the same name, the second one larger *)
Definition twice : table := [(Some 0%nat, FPoly (mkpart (square 1) [])); (Some 0%nat, FPoly (mkpart (square 3) [])); (None, FPoly (mkpart (square 5) []))].

(** C225 REFUTED for rows with equal names and for rows without a name: without a choice of names, the
    area should be that of the whole file, but only the first row of each name is used, and rows
    without name are left out. *)
Theorem C225_rows_refuted :
  exists g, shp2geom (fun _ => tt) (fun _ r => r) in_square twice None None = Ok (Some g, None) /\
    in_part in_square (fun r => r) (mkpart (square 3) []) (2, 2) /\ inside g (2, 2) = false /\
    in_part in_square (fun r => r) (mkpart (square 5) []) (4, 4) /\ inside g (4, 4) = false.
Proof.
  assert (T : forall w x, 0 <= x -> Rleb (Rabs x) w = Rleb x w) by (intros w x Hx; rewrite Rabs_right; [reflexivity|lra]).
  eexists. split; [reflexivity|]. unfold in_part, in_outer, in_ring, in_hole. cbn. rewrite !T by lra.
  repeat split; try discriminate; try (intros [h [[] _]]).
  - rewrite Bool.andb_true_iff. split; apply Rleb_true; lra.
  - replace (Rleb 2 1) with false; [reflexivity|]. symmetry. apply Rleb_false. lra.
  - rewrite Bool.andb_true_iff. split; apply Rleb_true; lra.
  - replace (Rleb 4 1) with false; [reflexivity|]. symmetry. apply Rleb_false. lra.
Qed.

Print Assumptions C224_area.
Print Assumptions C224_union_partial.
Print Assumptions C224_island_refuted.
Print Assumptions C225_names.
Print Assumptions C225_rows_refuted.
