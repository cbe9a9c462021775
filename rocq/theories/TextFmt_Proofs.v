From Coq Require Import String Ascii NArith Reals Lra.
From Verif Require Import Base TextFmt_Model TextFmt_Spec.
Local Open Scope N_scope.

Lemma pow10 d : 10 ^ N.of_nat (S d) = 10 * 10 ^ N.of_nat d.
Proof. rewrite Nnat.Nat2N.inj_succ. apply N.pow_succ_r'. Qed.
Lemma pow10_pos d : 0 < 10 ^ N.of_nat d.
Proof. apply N.neq_0_lt_0, N.pow_nonzero. discriminate. Qed.
Lemma dval_digit n : n < 10 -> dval (digit n) = Some n.
Proof.
  intros H. unfold dval, digit. rewrite N_ascii_embedding by lia.
  replace ((48 <=? 48 + n) && (48 + n <? 58))%bool with true.
  - f_equal. lia.
  - symmetry. apply andb_true_intro. split; [apply N.leb_le|apply N.ltb_lt]; lia.
Qed.
Lemma fixed_length d n : List.length (fixed d n) = d.
Proof. revert n. induction d; cbn [fixed]; intros; [reflexivity|]. rewrite app_length, IHd. cbn. lia. Qed.
Lemma step10 d n : n mod 10 ^ N.of_nat (S d) = 10 * ((n / 10) mod 10 ^ N.of_nat d) + n mod 10.
Proof.
  rewrite pow10, N.mod_mul_r by (try discriminate; apply N.pow_nonzero; discriminate). lia.
Qed.
Lemma rd_fixed d : forall n acc pt r,
  rd acc pt (fixed d n ++ r) = rd (acc * 10 ^ N.of_nat d + n mod 10 ^ N.of_nat d) (option_map (fun k => (d + k)%nat) pt) r.
Proof.
  induction d; intros n acc pt r; cbn [fixed].
  - cbn [app]. change (N.of_nat 0) with 0. rewrite N.pow_0_r, N.mod_1_r, N.mul_1_r, N.add_0_r. destruct pt; reflexivity.
  - rewrite <- app_assoc, IHd. cbn [app rd]. rewrite dval_digit by (apply N.mod_lt; discriminate).
    rewrite step10, pow10. f_equal; [lia|]. destruct pt; reflexivity.
Qed.
Lemma size_double f n : n < 2 ^ N.of_nat (S f) -> n / 10 < 2 ^ N.of_nat f.
Proof.
  intros H. apply N.div_lt_upper_bound; [discriminate|].
  rewrite Nnat.Nat2N.inj_succ, N.pow_succ_r' in H. lia.
Qed.
Lemma len_enough f : forall n, n < 2 ^ N.of_nat f -> n < 10 ^ N.of_nat (len f n).
Proof.
  induction f; intros n H; cbn [len].
  - change (2 ^ N.of_nat 0) with 1 in H. assert (n = 0) by lia. subst. reflexivity.
  - destruct (N.ltb_spec n 10) as [A|A].
    + exact A.
    + rewrite pow10. pose proof (IHf _ (size_double _ _ H)) as B.
      pose proof (N.div_mod' n 10) as C. pose proof (N.mod_lt n 10 ltac:(discriminate)). lia.
Qed.
Lemma size_spec n : n < 2 ^ N.of_nat (N.size_nat n).
Proof.
  destruct n as [|p]; [reflexivity|]. cbn [N.size_nat].
  induction p; cbn [Pos.size_nat]; rewrite ?Nnat.Nat2N.inj_succ, ?N.pow_succ_r'; [| |reflexivity].
  - change (N.pos p~1) with (2 * N.pos p + 1). lia.
  - change (N.pos p~0) with (2 * N.pos p). lia.
Qed.
Lemma len_nonzero f n : len f n <> 0%nat.
Proof. destruct f; cbn; [discriminate|]. destruct (n <? 10); discriminate. Qed.

Lemma rd_decimal d n : rd 0 None (decimal d n) = Some (n, d).
Proof.
  unfold decimal. set (w := len _ _).
  assert (A : n / 10 ^ N.of_nat d < 10 ^ N.of_nat w).
  { apply len_enough. eapply N.le_lt_trans; [|apply size_spec]. apply N.div_le_upper_bound; [apply N.pow_nonzero; discriminate|].
    pose proof (pow10_pos d). nia. }
  rewrite rd_fixed, N.mod_small by exact A. rewrite N.mul_0_l, N.add_0_l.
  destruct d.
  - cbn [rd option_map]. change (N.of_nat 0) with 0. rewrite N.pow_0_r, N.div_1_r. reflexivity.
  - cbn [rd option_map]. change (dval ".") with (@None N). change (Ascii.eqb "." ".") with true. cbv iota.
    rewrite <- (app_nil_r (fixed (S d) n)), rd_fixed. cbn [rd option_map]. rewrite Nat.add_0_r. f_equal. f_equal.
    rewrite N.mul_comm. symmetry. apply N.div_mod'.
Qed.
Lemma decimal_head d n : exists c r, decimal d n = c :: r /\ Ascii.eqb c "-" = false.
Proof.
  unfold decimal. set (w := len _ _). assert (W : w <> 0%nat) by apply len_nonzero.
  set (m := n / _). clearbody m. set (rest := match d with O => _ | _ => _ end). clearbody rest.
  destruct w; [congruence|]. clear W.
  assert (A : forall k p, exists c r, fixed (S k) p = c :: r /\ Ascii.eqb c "-" = false).
  { induction k; intros p.
    - exists (digit (p mod 10)), []. split; [reflexivity|].
      destruct (Ascii.eqb_spec (digit (p mod 10)) "-") as [E|]; [|reflexivity].
      assert (B := dval_digit (p mod 10) (N.mod_lt p 10 ltac:(discriminate))). rewrite E in B. discriminate.
    - change (fixed (S (S k)) p) with (fixed (S k) (p / 10) ++ [digit (p mod 10)]).
      destruct (IHk (p / 10)) as (c & r & E & H). exists c, (r ++ [digit (p mod 10)]). rewrite E. split; [reflexivity|exact H]. }
  destruct (A w m) as (c & r & E & H). exists c, (r ++ rest). rewrite E. split; [reflexivity|exact H].
Qed.
Lemma read_decimal s d n : read (sgn s ++ decimal d n) = Some (s, n, d).
Proof.
  destruct s; cbn [sgn app].
  - cbn [read]. change (Ascii.eqb "-" "-") with true. cbv iota. rewrite rd_decimal. reflexivity.
  - destruct (decimal_head d n) as (c & r & E & H). pose proof (rd_decimal d n) as D. rewrite E in D |- *. cbn [read]. rewrite H, D. reflexivity.
Qed.

Local Open Scope R_scope.
Lemma pow10R d : IZR (Z.of_N (10 ^ N.of_nat d)) = 10 ^ d.
Proof.
  induction d; [reflexivity|]. rewrite pow10, N2Z.inj_mul, mult_IZR, IHd. cbn [pow]. reflexivity.
Qed.
Lemma pow10R_pos d : 0 < 10 ^ d.
Proof. apply pow_lt. lra. Qed.
Lemma Rabs_le_inv x a : Rabs x <= a -> - a <= x <= a.
Proof. unfold Rabs. destruct (Rcase_abs x); lra. Qed.
Lemma round_even_ok a b :
  let x := IZR (Z.of_N a) / IZR (Zpos b) in let k := IZR (Z.of_N (round_even a b)) in
  Rabs (x - k) <= 1 / 2 /\ (Rabs (x - k) = 1 / 2 -> N.even (round_even a b) = true).
Proof.
  cbv zeta. unfold round_even. set (q := (a / N.pos b)%N). set (r := (a mod N.pos b)%N).
  assert (D : (a = N.pos b * q + r)%N) by apply N.div_mod'.
  assert (L : (r < N.pos b)%N) by (apply N.mod_lt; discriminate).
  set (B := IZR (Zpos b)). assert (PB : 0 < B) by (apply IZR_lt; lia).
  set (Rr := IZR (Z.of_N r)). set (Q := IZR (Z.of_N q)).
  assert (R0 : 0 <= Rr) by (apply IZR_le; lia).
  assert (R1 : Rr < B) by (apply IZR_lt; lia).
  assert (E : IZR (Z.of_N a) / B = Q + Rr / B).
  { rewrite D, N2Z.inj_add, N2Z.inj_mul, plus_IZR, mult_IZR. fold Q Rr. change (IZR (Z.of_N (N.pos b))) with B. field. lra. }
  rewrite E.
  assert (F : 0 <= Rr / B) by (apply Rmult_le_pos; [lra|left; apply Rinv_0_lt_compat; lra]).
  assert (F1 : Rr / B < 1) by (apply Rmult_lt_reg_r with B; [lra|]; unfold Rdiv; rewrite Rmult_assoc, Rinv_l by lra; lra).
  assert (G : Rr / B * B = Rr) by (unfold Rdiv; rewrite Rmult_assoc, Rinv_l by lra; ring).
  assert (S : forall z, IZR (Z.of_N (z + 1)) = IZR (Z.of_N z) + 1) by (intros; rewrite N2Z.inj_add, plus_IZR; reflexivity).
  destruct (N.ltb_spec (2 * r) (N.pos b)) as [A|A].
  - assert (A' : 2 * Rr < B) by (unfold Rr, B; rewrite <- mult_IZR; apply IZR_lt; lia).
    assert (Rr / B < 1 / 2) by nra. fold Q. replace (Q + Rr / B - Q) with (Rr / B) by ring. rewrite Rabs_right by lra. split; lra.
  - destruct (N.ltb_spec (N.pos b) (2 * r)) as [A1|A1].
    + assert (A' : B < 2 * Rr) by (unfold Rr, B; rewrite <- mult_IZR; apply IZR_lt; lia).
      assert (1 / 2 < Rr / B) by nra. rewrite S. fold Q. replace (Q + Rr / B - (Q + 1)) with (- (1 - Rr / B)) by ring. rewrite Rabs_Ropp, Rabs_right by lra. split; lra.
    + assert (A' : B = 2 * Rr) by (unfold Rr, B; rewrite <- mult_IZR; f_equal; lia).
      assert (H : Rr / B = 1 / 2) by nra. rewrite H. destruct (N.even q) eqn:V.
      * fold Q. replace (Q + 1 / 2 - Q) with (1 / 2) by ring. rewrite Rabs_right by lra. split; [lra|intros; exact V].
      * rewrite S. fold Q. replace (Q + 1 / 2 - (Q + 1)) with (- (1 / 2)) by lra. rewrite Rabs_Ropp, Rabs_right by lra. split; [lra|].
        intros _. rewrite N.add_1_r, N.even_succ, <- N.negb_even, V. reflexivity.
Qed.
Lemma even_signed s n : Z.even (if s : bool then (- Z.of_N n)%Z else Z.of_N n) = N.even n.
Proof. destruct s; rewrite ?Z.even_opp; destruct n as [|[]]; reflexivity. Qed.
Lemma rounded_signed d s x n :
  Rabs (x * 10 ^ d - IZR (Z.of_N n)) <= 1 / 2 -> (Rabs (x * 10 ^ d - IZR (Z.of_N n)) = 1 / 2 -> N.even n = true) ->
  rounded d (signed s x) (denotes (s, n, d)).
Proof.
  intros H T. pose proof (pow10R_pos d). exists (if s then (- Z.of_N n)%Z else Z.of_N n). destruct s; cbn [denotes signed].
  - rewrite opp_IZR. split; [field; lra|]. replace (- x * 10 ^ d - - IZR (Z.of_N n)) with (- (x * 10 ^ d - IZR (Z.of_N n))) by ring. rewrite Rabs_Ropp.
    split; [exact H|]. intros E. rewrite (even_signed true). exact (T E).
  - split; [reflexivity|]. split; [exact H|]. intros E. rewrite (even_signed false). exact (T E).
Qed.
Theorem fmt_shows d x r : number x = Some r ->
  exists t m, fmt d x = Some t /\ read t = Some (negative x, m, d) /\ rounded d r (denotes (negative x, m, d)).
Proof.
  intros H. destruct x; cbn [number] in H; try discriminate; injection H as <-; cbn [fmt negative].
  - eexists _, _. split; [reflexivity|]. split; [apply read_decimal|]. apply rounded_signed.
    + pose proof (round_even_ok (num * 10 ^ N.of_nat d) den) as (A & _). rewrite N2Z.inj_mul, mult_IZR, pow10R in A.
      replace (IZR (Z.of_N num) / IZR (Zpos den) * 10 ^ d) with (IZR (Z.of_N num) * 10 ^ d / IZR (Zpos den)) by (unfold Rdiv; ring). exact A.
    + pose proof (round_even_ok (num * 10 ^ N.of_nat d) den) as (_ & A). rewrite N2Z.inj_mul, mult_IZR, pow10R in A.
      replace (IZR (Z.of_N num) / IZR (Zpos den) * 10 ^ d) with (IZR (Z.of_N num) * 10 ^ d / IZR (Zpos den)) by (unfold Rdiv; ring). exact A.
  - eexists _, _. split; [reflexivity|]. split; [apply read_decimal|].
    replace (IZR z) with (signed (Z.ltb z 0) (IZR (Z.of_N (Z.abs_N z)))).
    2:{ destruct (Z.ltb_spec z 0); cbn [signed]; rewrite N2Z.inj_abs_N, abs_IZR; [rewrite Rabs_left by (apply IZR_lt; lia); ring|rewrite Rabs_right by (apply Rle_ge, IZR_le; lia); reflexivity]. }
    assert (Z0 : IZR (Z.of_N (Z.abs_N z)) * 10 ^ d - IZR (Z.of_N (Z.abs_N z * 10 ^ N.of_nat d)) = 0) by (rewrite N2Z.inj_mul, mult_IZR, pow10R; ring).
    apply rounded_signed; rewrite Z0, Rabs_R0; lra.
Qed.

(** rounding is a function, keeps the order, and is stable *)
Lemma half_int (k l : Z) x : Rabs (x - IZR k) <= 1 / 2 -> Rabs (x - IZR l) <= 1 / 2 -> (k < l)%Z -> l = (k + 1)%Z /\ Rabs (x - IZR k) = 1 / 2 /\ Rabs (x - IZR l) = 1 / 2.
Proof.
  intros A B L. assert (IZR l <= IZR k + 1).
  { apply Rabs_le_inv in A, B. lra. }
  rewrite <- plus_IZR in H. apply le_IZR in H. assert (E : l = (k + 1)%Z) by lia. subst l. rewrite plus_IZR in *.
  apply Rabs_le_inv in A, B. assert (x - IZR k = 1 / 2) by lra. split; [reflexivity|]. replace (x - (IZR k + 1)) with (- (1 / 2)) by lra.
  rewrite H0. rewrite Rabs_Ropp, Rabs_right by lra. split; reflexivity.
Qed.
Lemma rounded_le d x y u v : rounded d x u -> rounded d y v -> x <= y -> u <= v.
Proof.
  intros (k & -> & A & A2) (l & -> & B & B2) H. pose proof (pow10R_pos d) as P.
  apply Rmult_le_compat_r; [left; apply Rinv_0_lt_compat; exact P|]. apply IZR_le.
  destruct (Z_le_gt_dec k l) as [|G]; [assumption|exfalso].
  assert (X : x * 10 ^ d <= y * 10 ^ d) by (apply Rmult_le_compat_r; lra).
  apply Z.gt_lt in G. assert (L : IZR l + 1 <= IZR k) by (rewrite <- plus_IZR; apply IZR_le; lia).
  pose proof A as A'. pose proof B as B'. apply Rabs_le_inv in A', B'.
  assert (E : x * 10 ^ d = y * 10 ^ d) by lra. rewrite E in *.
  destruct (half_int l k _ B A G) as (E1 & Q1 & Q2). specialize (A2 Q2). specialize (B2 Q1). subst k.
  rewrite Z.add_1_r, Z.even_succ, <- Z.negb_even, B2 in A2. discriminate.
Qed.
Lemma rounded_unique d x u v : rounded d x u -> rounded d x v -> u = v.
Proof. intros A B. apply Rle_antisym; eapply rounded_le; eauto; lra. Qed.
Lemma rounded_near d x y u v : rounded d x u -> rounded d y v -> Rabs (y - u) < 1 / 2 / 10 ^ d -> v = u.
Proof.
  intros (k & -> & A & A2) B H. pose proof (pow10R_pos d) as P. refine (rounded_unique _ _ _ _ B _). exists k. split; [reflexivity|].
  assert (Rabs (y * 10 ^ d - IZR k) < 1 / 2).
  { replace (y * 10 ^ d - IZR k) with ((y - IZR k / 10 ^ d) * 10 ^ d) by (field; lra). rewrite Rabs_mult, (Rabs_right (10 ^ d)) by lra.
    replace (1 / 2) with (1 / 2 / 10 ^ d * 10 ^ d) by (field; lra). apply Rmult_lt_compat_r; [lra|exact H]. }
  split; lra.
Qed.
Lemma denotes_inj s m n d : denotes (s, m, d) = denotes (s, n, d) -> m = n.
Proof.
  pose proof (pow10R_pos d) as P. cbn [denotes]. intros H.
  assert (E : IZR (Z.of_N m) / 10 ^ d = IZR (Z.of_N n) / 10 ^ d) by (destruct s; cbn [signed] in H; lra).
  apply Rmult_eq_reg_r in E; [|apply Rinv_neq_0_compat; lra]. apply eq_IZR in E. lia.
Qed.
(** the text is determined by what it reads *)
Lemma fmt_text d x t s m : fmt d x = Some t -> read t = Some (s, m, d) -> t = sgn s ++ decimal d m.
Proof.
  intros F R. destruct x; cbn [fmt] in F; try discriminate; injection F as <-.
  - rewrite read_decimal in R. injection R as <- <-. reflexivity.
  - rewrite read_decimal in R. injection R as <- <-. reflexivity.
  - destruct neg; discriminate.
Qed.

(** tables *)
Lemma entry_ok d x : no_text x -> exists o, entry d x = Ok o /\ shows d x o.
Proof.
  destruct x; cbn [no_text]; intros H; try contradiction.
  - destruct (fmt_shows d (Fin neg num den) _ eq_refl) as (t & m & E & Rd & Ro). exists (Txt t). unfold entry. rewrite E. split; [reflexivity|].
    right. right. eexists _, _, _. repeat split; eauto.
  - destruct (fmt_shows d (Whole z) _ eq_refl) as (t & m & E & Rd & Ro). exists (Txt t). unfold entry. rewrite E. split; [reflexivity|].
    right. right. eexists _, _, _. repeat split; eauto.
  - eexists. split; [reflexivity|]. right. left. exists neg. split; reflexivity.
  - exists Missing. split; [reflexivity|]. left. split; reflexivity.
Qed.
Lemma entries_ok d l : Forall no_text l -> exists o, entries d l = Ok o /\ Forall2 (shows d) l o.
Proof.
  induction 1 as [|x l H _ (o & E & F)]; [exists []; split; constructor|]. destruct (entry_ok d x H) as (y & Ey & S).
  exists (y :: o). cbn [entries]. rewrite Ey. cbn [bind]. rewrite E. split; [reflexivity|constructor; assumption].
Qed.
Lemma entries_err d l : ~ Forall no_text l -> entries d l = Err ValueError.
Proof.
  induction l as [|x l IH]; intros H; [exfalso; apply H; constructor|]. cbn [entries].
  destruct x; cbn [entry fmt bind]; try reflexivity; (rewrite IH by (intros F; apply H; constructor; [exact I|exact F])); reflexivity.
Qed.
Lemma look_app {A} (l r : list (string * A)) k : look (l ++ r) k = match look l k with Some v => Some v | None => look r k end.
Proof. induction l as [|(n, v) l IH]; cbn; [reflexivity|]. destruct (String.eqb k n); [reflexivity|exact IH]. Qed.
Lemma look_fdict c2v u cs c : In c cs -> look (fdict c2v u cs) c = format_for c2v u c.
Proof.
  unfold format_for. induction cs as [|a cs IH]; intros H; [contradiction|]. cbn [fdict].
  destruct (String.eqb_spec c a) as [->|N].
  - destruct (look u (var_of c2v a)) eqn:E1; [cbn; rewrite String.eqb_refl; reflexivity|].
    destruct (look defaults (var_of c2v a)) eqn:E2; [cbn; rewrite String.eqb_refl; reflexivity|].
    destruct (in_dec string_dec a cs) as [K|K]; [exact (IH K)|]. clear IH H. induction cs as [|b cs IH]; [reflexivity|]. cbn [fdict].
    assert (Hb : String.eqb a b = false) by (apply String.eqb_neq; intros ->; apply K; left; reflexivity).
    assert (Hc : ~ In a cs) by (intros Q; apply K; right; exact Q).
    destruct (look u (var_of c2v b)); [cbn; rewrite Hb; exact (IH Hc)|]. destruct (look defaults (var_of c2v b)); [cbn; rewrite Hb; exact (IH Hc)|exact (IH Hc)].
  - assert (Hc : In c cs) by (destruct H; [congruence|assumption]). apply String.eqb_neq in N.
    destruct (look u (var_of c2v a)); [cbn; rewrite N; exact (IH Hc)|]. destruct (look defaults (var_of c2v a)); [cbn; rewrite N; exact (IH Hc)|exact (IH Hc)].
Qed.
(** the format that a column gets in the end *)
Definition used (fd : formats) (c : string) : option nat := look (fd ++ defaults) c.
Definition column (d : option nat) (l o : list cell) : Prop := match d with Some d => Forall2 (shows d) l o | None => o = l end.
Lemma write_file_ok fd data : (forall c l, In (c, l) data -> used fd c <> None -> Forall no_text l) ->
  exists out, write_file fd data = Ok out /\ Forall2 (fun p q : string * list cell => fst q = fst p /\ column (used fd (fst p)) (snd p) (snd q)) data out.
Proof.
  induction data as [|(c, l) r IH]; intros H; [exists []; split; constructor|].
  destruct IH as (os & E & F); [intros c' l' I'; apply (H c' l'); right; exact I'|]. cbn [write_file]. fold (used fd c).
  destruct (used fd c) as [d|] eqn:U.
  - destruct (entries_ok d l) as (o & Eo & Fo); [apply (H c l); [left; reflexivity|congruence]|]. rewrite Eo. cbn [bind]. rewrite E. cbn [bind].
    exists ((c, o) :: os). split; [reflexivity|]. constructor; [|exact F]. cbn [fst snd]. rewrite U. split; [reflexivity|exact Fo].
  - cbn [bind]. rewrite E. cbn [bind]. exists ((c, l) :: os). split; [reflexivity|]. constructor; [|exact F]. cbn [fst snd]. rewrite U. split; reflexivity.
Qed.
Lemma write_file_err fd data c l : In (c, l) data -> used fd c <> None -> ~ Forall no_text l -> write_file fd data = Err ValueError.
Proof.
  induction data as [|(c', l') r IH]; intros I' U N; [contradiction|]. cbn [write_file]. fold (used fd c'). destruct I' as [E|I'].
  - injection E as -> ->. destruct (used fd c); [|congruence]. rewrite entries_err by exact N. reflexivity.
  - specialize (IH I' U N). destruct (used fd c') as [d|]; [|cbn [bind]; rewrite IH; reflexivity].
    assert (D : (exists o, entries d l' = Ok o) \/ entries d l' = Err ValueError).
    { clear. induction l' as [|x q [(o & E)|E]]; [left; exists []; reflexivity| |]; cbn [entries]; rewrite E; destruct x; cbn [entry fmt bind]; try (left; eexists; reflexivity); right; reflexivity. }
    destruct D as [(o & E)|E]; rewrite E; cbn [bind]; [rewrite IH; reflexivity|reflexivity].
Qed.
Lemma used_write (data : table) c2v u c : In c (map fst data) ->
  used (fdict c2v u (map fst data)) c = match format_for c2v u c with Some d => Some d | None => look defaults c end.
Proof. intros H. unfold used. rewrite look_app, look_fdict by exact H. reflexivity. Qed.
