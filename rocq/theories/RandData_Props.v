(** Property theorems C213-C215: random states data. *)
From Coq Require Import String.
From Verif Require Import RBase NcOut_Model NcOut_Props RandData_Model RandData_Spec RandData_Proofs.
Local Open Scope R_scope.

(** C213: names and number of states; every column has numbers in its range ... *)
Theorem C213_ranges : forall (G : Type) (draw : G -> R * G) n cols cmol wcol mrange normalize g v lo hi l, generator draw ->
  (forall v lo hi, In (v, (lo, hi)) cols -> lo <= hi) -> NoDup (map fst cols) ->
  let d := fst (create draw n cols cmol wcol mrange normalize g) in
  map fst d = map fst cols /\
  (In (v, (lo, hi)) cols -> In (v, l) d -> (v <> cmol \/ mrange = None) -> (v <> wcol \/ normalize = false) -> length l = n /\ numbers_in lo hi l).
Proof.
  intros G draw n cols cmol wcol mrange normalize g v lo hi l Hg H N d. unfold d, create.
  pose proof (gen_cols_spec draw Hg n cols H g) as (E & _). pose proof (gen_cols_in draw Hg n cols H N g v lo hi) as K. destruct (gen_cols draw n cols g) as [d0 g']. cbn [fst] in *.
  split; [destruct normalize, mrange; rewrite ?on_col_names; exact E|]. intros I J Hm Hw.
  assert (J1 : In (v, l) (match mrange with Some r => on_col cmol (map (mol_mask r)) d0 | None => d0 end)).
  { destruct normalize; [|exact J]. apply on_col_in in J as (l0 & J & ->). destruct (String.eqb_spec v wcol) as [->|]; [destruct Hw; congruence|exact J]. }
  assert (J0 : In (v, l) d0).
  { destruct mrange as [r|]; [|exact J1]. apply on_col_in in J1 as (l0 & J1 & ->). destruct (String.eqb_spec v cmol) as [->|]; [destruct Hm; congruence|exact J1]. }
  exact (K l I J0).
Qed.
Print Assumptions C213_ranges.
(** ... Monin-Obukhov lengths are in their range and in the allowed range of absolute values, or NaN ... *)
Theorem C213_mol : forall (G : Type) (draw : G -> R * G) n cols cmol wcol r0 r1 normalize g lo hi l, generator draw ->
  (forall v lo hi, In (v, (lo, hi)) cols -> lo <= hi) -> NoDup (map fst cols) -> cmol <> wcol ->
  In (cmol, (lo, hi)) cols -> In (cmol, l) (fst (create draw n cols cmol wcol (Some (r0, r1)) normalize g)) ->
  length l = n /\ Forall (fun x => match x with Some y => lo <= y <= hi /\ r0 <= Rabs y <= r1 | None => True end) l /\
  (* nothing is removed without need *)
  (forall l', In (cmol, l') (fst (create draw n cols cmol wcol None normalize g)) ->
     forall k y, nth_error l' k = Some (Some y) -> r0 <= Rabs y <= r1 -> nth_error l k = Some (Some y)).
Proof.
  intros G draw n cols cmol wcol r0 r1 normalize g lo hi l Hg H N D I J. unfold create in *.
  pose proof (gen_cols_in draw Hg n cols H N g cmol lo hi) as K.
  assert (U : forall a b, In (cmol, a) (fst (gen_cols draw n cols g)) -> In (cmol, b) (fst (gen_cols draw n cols g)) -> a = b).
  { destruct (gen_cols_spec draw Hg n cols H g) as (E & _). rewrite <- E in N. clear -N. intros a b A B. induction (fst (gen_cols draw n cols g)) as [|[c x] d IH]; [destruct A|].
    inversion N as [|? ? N1 N2]; subst. destruct A as [A|A], B as [B|B].
    - congruence.
    - injection A as -> ->. exfalso. apply N1. apply in_map_iff. exists (cmol, b). auto.
    - injection B as -> ->. exfalso. apply N1. apply in_map_iff. exists (cmol, a). auto.
    - now apply IH. }
  destruct (gen_cols draw n cols g) as [d0 g']. cbn [fst] in *.
  assert (Nw : String.eqb cmol wcol = false) by now apply String.eqb_neq.
  assert (J1 : In (cmol, l) (on_col cmol (map (mol_mask (r0, r1))) d0)).
  { destruct normalize; [|exact J]. apply on_col_in in J as (l0 & J & ->). now rewrite Nw. }
  apply on_col_in in J1 as (l0 & J0 & ->). rewrite String.eqb_refl. destruct (K l0 I J0) as (L & F). split; [now rewrite map_length|]. split.
  - apply Forall_map. eapply Forall_impl; [|exact F]. intros x (y & -> & B). cbn [mol_mask fst snd]. destruct (Rltb (Rabs y) r0) eqn:E1; [exact Logic.I|]. destruct (Rltb r1 (Rabs y)) eqn:E2; [exact Logic.I|].
    apply Rltb_false in E1, E2. cbn. lra.
  - intros l' J' k y Hk B. assert (In (cmol, l') d0). { destruct normalize; [|exact J']. apply on_col_in in J' as (l1 & J' & ->). now rewrite Nw. }
    assert (l' = l0) by now apply U. subst l'. rewrite nth_error_map, Hk. cbn [option_map mol_mask fst snd]. now rewrite (proj2 (Rltb_false _ _)), (proj2 (Rltb_false _ _)) by lra.
Qed.
Print Assumptions C213_mol.
(** ... and normalised weights are positive with sum one, their ratios within those of the range *)
Theorem C213_weights : forall (G : Type) (draw : G -> R * G) n cols cmol wcol mrange g lo hi l, generator draw ->
  (forall v lo hi, In (v, (lo, hi)) cols -> lo <= hi) -> NoDup (map fst cols) -> cmol <> wcol -> (0 < n)%nat -> 0 < lo ->
  In (wcol, (lo, hi)) cols -> In (wcol, l) (fst (create draw n cols cmol wcol mrange true g)) ->
  length (values l) = n /\ length l = n /\ rsum (values l) = 1 /\ forall x y, In x (values l) -> In y (values l) -> 0 < x /\ lo * x <= hi * y.
Proof.
  intros G draw n cols cmol wcol mrange g lo hi l Hg H N D Hn Hlo I J. unfold create in *.
  pose proof (gen_cols_in draw Hg n cols H N g wcol lo hi) as K. destruct (gen_cols draw n cols g) as [d0 g']. cbn [fst] in *.
  apply on_col_in in J as (l0 & J & ->). rewrite String.eqb_refl.
  assert (J0 : In (wcol, l0) d0).
  { destruct mrange; [|exact J]. apply on_col_in in J as (l1 & J & ->). now rewrite (proj2 (String.eqb_neq wcol cmol)) by congruence. }
  destruct (K l0 I J0) as (L & F). destruct (values_in lo hi l0 F) as (V & Lv).
  assert (P : 0 < osum l0).
  { rewrite osum_values. apply rsum_pos; [intros X; rewrite X in Lv; cbn in Lv; lia|]. intros x X. rewrite Forall_forall in V. specialize (V x X). lra. }
  rewrite normalised_sum by lra. rewrite normalised_values. split; [rewrite map_length; lia|]. split; [unfold normalised; now rewrite map_length|]. split; [reflexivity|].
  intros x y X Y. apply in_map_iff in X as (a & <- & A). apply in_map_iff in Y as (b & <- & B). rewrite Forall_forall in V. pose proof (V a A). pose proof (V b B).
  pose proof (Rinv_0_lt_compat _ P) as Q. split; [apply Rmult_lt_0_compat; lra|]. set (q := / osum l0) in *. assert (lo * a <= hi * b) by nra. nra.
Qed.
Print Assumptions C213_weights.

(** C214: the number of digits that are asked for is not used *)
Theorem C214_digits_refuted : exists d cmol wcol cti c, write_digits (DNum d) cmol wcol cti c <> Some d.
Proof. exists 2%Z, "MOL"%string, "weight"%string, "TI"%string, "WS"%string. cbv. discriminate. Qed.
Print Assumptions C214_digits_refuted.
Theorem C214_always_auto_refuted : forall d cmol wcol cti data, written (DNum d) cmol wcol cti data = written DAuto cmol wcol cti data.
Proof. reflexivity. Qed.
Print Assumptions C214_always_auto_refuted.
(** the written numbers: weights exact, others with one digit for MOL, six for TI and four otherwise, never further than half of the last digit from the data; None: all exact *)
Theorem C214_written_partial : forall arg cmol wcol cti data v l' , cmol <> wcol -> cti <> wcol -> cti <> cmol -> In (v, l') (written arg cmol wcol cti data) ->
  exists l, In (v, l) data /\ (arg = DNone \/ v = wcol -> l' = l) /\
    (arg <> DNone -> v <> wcol -> Forall2 (fun x y => match x, y with Some a, Some b => Rabs (b - a) <= / 2 / powerRZ 10 (if String.eqb v cti then 6 else if String.eqb v cmol then 1 else 4) | None, None => True | _, _ => False end) l l').
Proof.
  intros arg cmol wcol cti data v l' A B C I. unfold written in I. apply in_map_iff in I as ([v0 l] & E & I). cbn [fst snd] in E. injection E as <- <-. exists l. split; [exact I|]. split.
  - intros [-> | ->]; [reflexivity|]. unfold write_digits, hdigits. rewrite (proj2 (String.eqb_neq wcol cti)), (proj2 (String.eqb_neq wcol cmol)), String.eqb_refl by congruence. now destruct arg.
  - intros X Y. assert (E : write_digits arg cmol wcol cti v0 = Some (if String.eqb v0 cti then 6 else if String.eqb v0 cmol then 1 else 4)%Z).
    { unfold write_digits, hdigits. rewrite (proj2 (String.eqb_neq v0 wcol)) by assumption. destruct arg; [congruence| |]; destruct (String.eqb v0 cti), (String.eqb v0 cmol); reflexivity. }
    rewrite E. clear. induction l as [|[a|] l IH]; cbn [map]; [constructor| |]; (constructor; [cbn [option_map]|exact IH]); [apply round_dec_err|exact Logic.I].
Qed.
Print Assumptions C214_written_partial.

(** C215: random time series are in their ranges ... *)
Theorem C215_ranges : forall (G : Type) (draw : G -> R * G) (seeded : Z -> G) n cols seed g v lo hi l, generator draw ->
  (forall v lo hi, In (v, (lo, hi)) cols -> lo <= hi) -> NoDup (map fst cols) ->
  let d := fst (timeseries draw seeded n cols seed g) in
  map fst d = map fst cols /\ (In (v, (lo, hi)) cols -> In (v, l) d -> length l = n /\ numbers_in lo hi l).
Proof.
  intros G draw seeded n cols seed g v lo hi l Hg H N d. unfold d, timeseries. split; [now apply gen_cols_spec|]. intros I J. now apply (gen_cols_in draw Hg n cols H N _ v lo hi l I J).
Qed.
Print Assumptions C215_ranges.
(** ... and reproducible with a seed other than zero, whatever was drawn before; *)
Theorem C215_seed_partial : forall (G : Type) (draw : G -> R * G) (seeded : Z -> G) n cols s g g', s <> 0%Z ->
  timeseries draw seeded n cols (Some s) g = timeseries draw seeded n cols (Some s) g'.
Proof. intros. unfold timeseries. now rewrite (proj2 (Z.eqb_neq s 0)) by assumption. Qed.
Print Assumptions C215_seed_partial.
(** seed zero is not used *)
Theorem C215_seed_refuted : exists (draw : R -> R * R) (seeded : Z -> R) cols g g', generator draw /\
  fst (timeseries draw seeded 1 cols (Some 0%Z) g) <> fst (timeseries draw seeded 1 cols (Some 0%Z) g').
Proof.
  exists (fun g => (if Rltb g 0 then 0 else 1 / 2, g)), (fun _ => 0), [("WS"%string, (0, 30))], (-1), 1. split; [intros g; cbn; destruct (Rltb g 0); lra|].
  cbn. unfold uniform. cbn. rewrite (proj2 (Rltb_true (-1) 0)), (proj2 (Rltb_false 1 0)) by lra. cbn. intros E. injection E as E. lra.
Qed.
Print Assumptions C215_seed_refuted.

(** Non-vacuity: two states *)
Example ex_weights : exists l, fst (create (fun g : R => (1 / 2, g)) 2 [("weight"%string, (1, 3)); ("MOL"%string, (-20, 20))] "MOL" "weight" (Some (50, 5000)) true 0) = [("weight"%string, l); ("MOL"%string, [None; None])] /\ values l = [1 / 2; 1 / 2].
Proof.
  eexists. split.
  - unfold create. cbn [gen_cols uniform draws fst snd]. unfold uniform. cbn. unfold on_col. cbn [map String.eqb Ascii.eqb Bool.eqb fst snd mol_mask].
    rewrite !(proj2 (Rltb_true (Rabs (-20 + (20 - -20) * (1 / 2))) 50)) by (replace (-20 + (20 - -20) * (1 / 2)) with 0 by lra; rewrite Rabs_R0; lra). cbn. reflexivity.
  - cbn. unfold osum, rsum. cbn. f_equal; [field|f_equal; field].
Qed.
