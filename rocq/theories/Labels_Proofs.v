(** Proofs about Labels_Model. *)
From Coq Require Import Ascii.
From Verif Require Import Base Labels_Model Labels_Spec.

Lemma seqb_eq a b : seqb a b = true <-> a = b.
Proof.
  revert b; induction a as [|x a IH]; intros [|y b]; cbn [seqb]; try (split; [discriminate|discriminate]); [tauto|].
  rewrite Bool.andb_true_iff, IH, Ascii.eqb_eq. split; [intros [-> ->]; reflexivity|].
  intros H; injection H as -> ->; split; reflexivity.
Qed.
Lemma seqb_dec a b : seqb a b = if list_eq_dec ascii_dec a b then true else false.
Proof.
  destruct (list_eq_dec ascii_dec a b) as [->|N]; [apply seqb_eq; reflexivity|].
  destruct (seqb a b) eqn:E; [|reflexivity]. apply seqb_eq in E. contradiction.
Qed.

(** strings *)
Lemma find_none d : ~ In lbr d -> find_lbr d = None.
Proof.
  induction d as [|c r IH]; intros H; [reflexivity|]. cbn [find_lbr].
  destruct (Ascii.eqb c lbr) eqn:E; [apply Ascii.eqb_eq in E; exfalso; apply H; left; exact E|].
  rewrite IH; [reflexivity|]. intros I; apply H; right; exact I.
Qed.
Lemma find_app a b : ~ In lbr a -> find_lbr (a ++ lbr :: b) = Some (length a).
Proof.
  induction a as [|c r IH]; intros H; [reflexivity|]. cbn [find_lbr app length].
  destruct (Ascii.eqb c lbr) eqn:E; [apply Ascii.eqb_eq in E; exfalso; apply H; left; exact E|].
  rewrite IH; [reflexivity|]. intros I; apply H; right; exact I.
Qed.
Lemma drop_id d : ~ In rbr d -> drop_rbr d = d.
Proof.
  unfold drop_rbr. induction d as [|c r IH]; intros H; [reflexivity|]. cbn [filter].
  destruct (Ascii.eqb c rbr) eqn:E; [apply Ascii.eqb_eq in E; exfalso; apply H; left; exact E|].
  cbn [negb]. rewrite IH; [reflexivity|]. intros I; apply H; right; exact I.
Qed.
Lemma split_none d : ~ In comma d -> split_comma d = [d].
Proof.
  induction d as [|c r IH]; intros H; [reflexivity|]. cbn [split_comma].
  rewrite IH by (intros I; apply H; right; exact I).
  destruct (Ascii.eqb c comma) eqn:E; [apply Ascii.eqb_eq in E; exfalso; apply H; left; exact E|reflexivity].
Qed.
Lemma split_app a b : ~ In comma a -> split_comma (a ++ comma :: b) = a :: split_comma b.
Proof.
  assert (N : forall d, split_comma d <> [])
    by (intros d; induction d as [|c r IH]; cbn [split_comma]; [discriminate|];
        destruct (split_comma r); [discriminate|]; destruct (Ascii.eqb c comma); discriminate).
  induction a as [|c r IH]; intros H.
  - change ([] ++ comma :: b) with (comma :: b). cbn [split_comma].
    destruct (split_comma b) eqn:E; [exfalso; exact (N b E)|reflexivity].
  - cbn [app split_comma]. rewrite IH by (intros I; apply H; right; exact I).
    destruct (Ascii.eqb c comma) eqn:E; [apply Ascii.eqb_eq in E; exfalso; apply H; left; exact E|reflexivity].
Qed.
Lemma split_commas l : l <> [] -> Forall (fun x => ~ In comma x) l -> split_comma (commas l) = l.
Proof.
  intros NE F. induction l as [|x r IH]; [congruence|]. inversion F as [|? ? F1 F2]; subst.
  destruct r as [|y r]; [apply split_none, F1|].
  change (commas (x :: y :: r)) with (x ++ comma :: commas (y :: r)).
  rewrite split_app by exact F1. rewrite IH; [reflexivity|discriminate|exact F2].
Qed.

(** numerals *)
Definition dig (d : nat) : ascii := ascii_of_nat (48 + d).
Lemma dig_cases d (P : ascii -> Prop) : d < 10 ->
  P "0"%char -> P "1"%char -> P "2"%char -> P "3"%char -> P "4"%char -> P "5"%char -> P "6"%char ->
  P "7"%char -> P "8"%char -> P "9"%char -> P (dig d).
Proof.
  intros H. do 10 (destruct d as [|d]; [intros; assumption|]). lia.
Qed.
Lemma dig_digit d : d < 10 -> digit (dig d) = Some (Z.of_nat d).
Proof. intros H. do 10 (destruct d as [|d]; [reflexivity|]). lia. Qed.
Lemma dig_blank d : d < 10 -> Ascii.eqb (dig d) blank = false.
Proof. intros H. apply (dig_cases d (fun c => Ascii.eqb c blank = false) H); reflexivity. Qed.
Lemma digits_text ds acc : Forall (fun d => d < 10) ds ->
  digits acc (map dig ds) = Some (fold_left (fun a d => 10 * a + Z.of_nat d)%Z ds acc).
Proof.
  revert acc; induction ds as [|d r IH]; intros acc F; [reflexivity|].
  inversion F as [|? ? F1 F2]; subst. cbn [map digits]. rewrite (dig_digit d F1).
  rewrite (IH _ F2). reflexivity.
Qed.
Lemma lstrip_id c r : Ascii.eqb c blank = false -> lstrip (c :: r) = c :: r.
Proof. intros E. cbn [lstrip]. rewrite E. reflexivity. Qed.
Lemma strip_id d : (exists c r, d = c :: r /\ Ascii.eqb c blank = false) ->
  (exists c r, d = r ++ [c] /\ Ascii.eqb c blank = false) -> rev (lstrip (rev (lstrip d))) = d.
Proof.
  intros (c & r & -> & E) (c' & r' & D & E'). rewrite (lstrip_id _ _ E). rewrite D, rev_app_distr.
  cbn [rev app]. rewrite (lstrip_id _ _ E'). cbn [rev]. rewrite rev_involutive. reflexivity.
Qed.
Lemma parse_num n : num_ok n -> parse_int (num_text n) = Ok (num_value n).
Proof.
  intros [NE F]. destruct n as [neg ds]; cbn [n_digits] in *. unfold parse_int.
  assert (T : num_text (mknum neg ds) = (if neg then [minus] else []) ++ map dig ds) by reflexivity.
  assert (L : exists d r, ds = r ++ [d] /\ d < 10).
  { destruct (exists_last NE) as (r & d & ->). exists d, r. split; [reflexivity|].
    apply Forall_app in F as [_ F]. inversion F; assumption. }
  assert (H : exists d r, ds = d :: r /\ d < 10).
  { destruct ds as [|d r]; [congruence|]. exists d, r. split; [reflexivity|]. inversion F; assumption. }
  rewrite strip_id.
  - rewrite T. unfold num_value; cbn [n_neg n_digits].
    destruct neg; cbn [app].
    + rewrite Ascii.eqb_refl. destruct H as (d & r & -> & D).
      cbn [map]. change (dig d :: map dig r) with (map dig (d :: r)). rewrite (digits_text _ _ F). cbn [option_map].
      f_equal; lia.
    + destruct H as (d & r & -> & D). cbn [map].
      replace (Ascii.eqb (dig d) minus) with false
        by (symmetry; apply (dig_cases d (fun c => Ascii.eqb c minus = false) D); reflexivity).
      replace (Ascii.eqb (dig d) plus) with false
        by (symmetry; apply (dig_cases d (fun c => Ascii.eqb c plus = false) D); reflexivity).
      change (dig d :: map dig r) with (map dig (d :: r)). rewrite (digits_text _ _ F).
      f_equal; lia.
  - rewrite T. destruct neg; cbn [app]; [eexists _, _; split; reflexivity|].
    destruct H as (d & r & -> & D). eexists (dig d), (map dig r). split; [reflexivity|apply dig_blank, D].
  - rewrite T. destruct L as (d & r & -> & D). rewrite map_app. cbn [map]. rewrite app_assoc.
    eexists (dig d), _. split; [reflexivity|apply dig_blank, D].
Qed.
Lemma num_chars n c : num_ok n -> In c (num_text n) -> c <> comma /\ c <> rbr.
Proof.
  intros [_ F] I. unfold num_text in I. apply in_app_or in I as [I|I].
  - destruct (n_neg n); [|destruct I]. destruct I as [<-|[]]. split; discriminate.
  - apply in_map_iff in I as (d & <- & I). rewrite Forall_forall in F. specialize (F _ I). cbn in F.
    change (ascii_of_nat (48 + d)) with (dig d).
    apply (dig_cases d (fun c => c <> comma /\ c <> rbr) F); split; discriminate.
Qed.
Lemma commas_chars ns c : Forall num_ok ns -> In c (commas (map num_text ns)) -> c <> rbr.
Proof.
  induction ns as [|n r IH]; intros F I; [destruct I|]. inversion F as [|? ? F1 F2]; subst.
  destruct r as [|m r]; [exact (proj2 (num_chars n c F1 I))|].
  change (commas (map num_text (n :: m :: r)))
    with (num_text n ++ comma :: commas (map num_text (m :: r))) in I.
  apply in_app_or in I as [I|[<-|I]]; [exact (proj2 (num_chars n c F1 I))|discriminate|exact (IH F2 I)].
Qed.
Lemma parse_all ns : Forall num_ok ns -> mapr parse_int (map num_text ns) = Ok (map num_value ns).
Proof.
  induction ns as [|n r IH]; intros F; [reflexivity|]. inversion F as [|? ? F1 F2]; subst.
  cbn [map mapr]. rewrite (parse_num n F1), (IH F2). reflexivity.
Qed.

Section Run.
Context {V : Type}.
Variable index : V -> list Z -> result V.
Variable item : V -> nat -> result V.
Variable none : V.
Variable vstr : str -> V.
Variable create : list (event V) -> nat -> result V.
Variable call : list (event V) -> V -> nat -> list V -> result V.

Lemma get_plain l k : ~ In lbr k -> ~ In rbr k -> get_object index l k = fetch l k.
Proof. intros A B. unfold get_object. rewrite (drop_id _ B), (find_none _ A). reflexivity. Qed.
Lemma get_element l k ns : plain k -> ns <> [] -> Forall num_ok ns ->
  get_object index l (element k ns) = do o <- fetch l k; index o (map num_value ns).
Proof.
  intros (P & A & B) NE F. unfold get_object, element.
  assert (D : drop_rbr (k ++ lbr :: commas (map num_text ns) ++ [rbr]) = k ++ lbr :: commas (map num_text ns)).
  { unfold drop_rbr. rewrite filter_app. cbn [filter]. replace (Ascii.eqb lbr rbr) with false by reflexivity.
    cbn [negb]. rewrite filter_app. cbn [filter]. rewrite Ascii.eqb_refl. cbn [negb]. rewrite app_nil_r.
    fold (drop_rbr k). fold (drop_rbr (commas (map num_text ns))).
    rewrite (drop_id _ B), drop_id; [reflexivity|]. intros I. exact (commas_chars ns rbr F I eq_refl). }
  fold lbr. fold rbr. rewrite D, (find_app k _ A).
  destruct k as [|c k]; [discriminate|]. cbn [length].
  change (S (S (length k))) with (S (length (c :: k))).
  replace (skipn (S (length (c :: k))) ((c :: k) ++ lbr :: commas (map num_text ns)))
    with (commas (map num_text ns)).
  2:{ rewrite skipn_app, skipn_all2 by lia.
      replace (S (length (c :: k)) - length (c :: k)) with 1 by lia. reflexivity. }
  change (S (length k)) with (length (c :: k)).
  rewrite firstn_app, firstn_all, Nat.sub_diag. cbn [firstn]. rewrite app_nil_r.
  rewrite split_commas.
  - rewrite (parse_all _ F). reflexivity.
  - destruct ns; [congruence|discriminate].
  - apply Forall_forall. intros x I C. apply in_map_iff in I as (n & <- & I).
    rewrite Forall_forall in F. exact (proj1 (num_chars n comma (F _ I) C) eq_refl).
Qed.

(** history *)
Lemma stands_app (h : list (event V)) e k :
  stands_for (h ++ [e]) k =
    match e with
    | EStore k' v => if list_eq_dec ascii_dec k k' then Some v else stands_for h k
    | _ => stands_for h k
    end.
Proof.
  induction h as [|x h IH]; cbn [app stands_for].
  - destruct e; reflexivity.
  - rewrite IH. destruct e as [| k' v |]; try reflexivity.
    destruct (list_eq_dec ascii_dec k k'); reflexivity.
Qed.
Lemma look_put (l : labels V) k v j : look j (put k v l) = if list_eq_dec ascii_dec j k then Some v else look j l.
Proof.
  induction l as [|[k' v'] r IH]; cbn [put look].
  - rewrite seqb_dec. destruct (list_eq_dec ascii_dec j k); reflexivity.
  - rewrite (seqb_dec k k'). destruct (list_eq_dec ascii_dec k k') as [->|N]; cbn [look].
    + rewrite !seqb_dec. destruct (list_eq_dec ascii_dec j k'); reflexivity.
    + rewrite (seqb_dec j k'). destruct (list_eq_dec ascii_dec j k') as [->|N2]; [|exact IH].
      destruct (list_eq_dec ascii_dec k' k) as [->|]; [congruence|reflexivity].
Qed.

Local Notation passed := (Labels_Spec.passed index vstr).
Definition sound (h : list (event V)) : Prop :=
  forall a o f gs vs b, h = a ++ ECall o f gs vs :: b -> Forall2 (passed a) gs vs.
Definition inv (st : state V) : Prop :=
  (forall k, look k (fst st) = stands_for (snd st) k) /\ sound (snd st).

Lemma app_last {A} (h : list A) (e : A) a x b : h ++ [e] = a ++ x :: b ->
  (b = [] /\ x = e /\ a = h) \/ exists b', b = b' ++ [e] /\ h = a ++ x :: b'.
Proof.
  destruct b as [|y b] using rev_ind.
  - intros H. apply app_inj_tail in H as [-> ->]. left; repeat split.
  - intros H. change (x :: b ++ [y]) with ((x :: b) ++ [y]) in H. rewrite app_assoc in H.
    apply app_inj_tail in H as [-> ->]. right. exists b. split; reflexivity.
Qed.
Lemma sound_app h e : sound h ->
  (forall o f gs vs, e = ECall o f gs vs -> Forall2 (passed h) gs vs) -> sound (h ++ [e]).
Proof.
  intros S H a o f gs vs b E. apply app_last in E as [(-> & Q & ->)|(b' & -> & ->)].
  - exact (H o f gs vs (eq_sym Q)).
  - exact (S a o f gs vs b' eq_refl).
Qed.
Lemma resolve_passed st g v : inv st -> resolve index vstr (fst st) g = Ok v -> passed (snd st) g v.
Proof.
  intros [L _] H. destruct g as [s|x]; [|cbn in *; congruence].
  assert (FE : forall k o, fetch (fst st) k = Ok o -> stands_for (snd st) k = Some o).
  { intros k o. unfold fetch. rewrite L. destruct (stands_for (snd st) k); intros Q; [injection Q as ->; reflexivity|discriminate]. }
  cbn [Labels_Spec.passed]. destruct s as [|c r]; [discriminate|]. cbn [resolve] in H.
  destruct (Ascii.eqb c dollar) eqn:E.
  - apply Ascii.eqb_eq in E; subst. split; [intros N; exfalso; apply N; reflexivity|]. split.
    + intros (_ & A & B). rewrite (get_plain _ _ A B) in H. apply FE, H.
    + intros k ns P NE F Q. rewrite Q in H. rewrite (get_element _ _ _ P NE F) in H.
      apply bind_ok in H as (o & Fo & I). exists o. split; [apply FE, Fo|exact I].
  - assert (N : c <> "$"%char) by (intros ->; discriminate).
    split; [intros _; congruence|]. split.
    + intros (P & _). cbn in P. congruence.
    + intros k ns (P & _) _ _ Q. destruct k as [|c' k]; [discriminate|].
      cbn in P. injection P as ->. injection Q as Q _. congruence.
Qed.
Lemma mapr_forall2 {A B} (f : A -> result B) l bs : mapr f l = Ok bs -> Forall2 (fun a b => f a = Ok b) l bs.
Proof.
  revert bs; induction l as [|a r IH]; intros bs H; cbn [mapr] in H; [injection H as <-; constructor|].
  apply bind_ok in H as (b & Hb & H). apply bind_ok in H as (t & Ht & H). injection H as <-.
  constructor; [exact Hb|apply IH, Ht].
Qed.

Lemma inv_set_label st k v : inv st -> inv (fst (set_label st k v)).
Proof.
  intros [L S]. unfold set_label. destruct (ignored k); [split; assumption|].
  destruct (well_formed k); [|split; assumption]. split; cbn [fst snd].
  - intros j. rewrite look_put, stands_app, L. reflexivity.
  - apply sound_app; [exact S|]. discriminate.
Qed.
Lemma inv_set_labels st i ks r : inv st -> inv (fst (set_labels item st i ks r)).
Proof.
  revert st i; induction ks as [|k t IH]; intros st i I; [exact I|]. cbn [set_labels].
  destruct (item r i) as [v|e]; [|exact I].
  pose proof (inv_set_label st k v I) as J. destruct (set_label st k v) as [st1 [u|e]]; [apply IH, J|exact J].
Qed.
Lemma inv_func st o f : inv st -> inv (fst (run_func index item none vstr call st o f)).
Proof.
  intros I. unfold run_func. destruct (mapr (resolve index vstr (fst st)) (f_args f)) as [vs|e] eqn:M; [|exact I].
  destruct (call (snd st) o (f_name f) vs) as [r0|e]; [|exact I].
  set (st1 := (fst st, snd st ++ [ECall o (f_name f) (f_args f) vs])).
  assert (J : inv st1).
  { destruct I as [L S]. split; cbn [st1 fst snd].
    - intros k. rewrite stands_app. apply L.
    - apply sound_app; [exact S|]. intros o' f' gs' vs' Q. injection Q as <- <- <- <-.
      apply mapr_forall2 in M. clear -M L S. induction M as [|a b l l' H M IH]; constructor; [|exact IH].
      apply (resolve_passed st); [split; assumption|exact H]. }
  destruct (f_labels f) as [|k|ks].
  - exact J.
  - pose proof (inv_set_label st1 k (if f_close f then none else r0) J) as K.
    destruct (set_label st1 k _) as [st2 [u|e]]; exact K.
  - pose proof (inv_set_labels st1 0 ks (if f_close f then none else r0) J) as K.
    destruct (set_labels item st1 0 ks _) as [st2 [u|e]]; exact K.
Qed.
Lemma inv_funcs st o fs : inv st -> inv (fst (run_funcs index item none vstr call st o fs)).
Proof.
  revert st; induction fs as [|f t IH]; intros st I; [exact I|]. cbn [run_funcs].
  pose proof (inv_func st o f I) as J. destruct (run_func index item none vstr call st o f) as [st1 [v|e]]; [|exact J].
  cbn [fst] in J. specialize (IH st1 J). destruct (run_funcs index item none vstr call st1 o t) as [st2 [l|e]]; exact IH.
Qed.
Lemma inv_target st t : inv st -> inv (fst (get_target index create st t)).
Proof.
  intros [L S]. destruct t as [c|k]; cbn [get_target]; [|split; assumption].
  destruct (create (snd st) c); [|split; assumption]. split; cbn [fst snd].
  - intros k. rewrite stands_app. apply L.
  - apply sound_app; [exact S|discriminate].
Qed.
Lemma inv_list st os : inv st -> inv (fst (run_list index item none vstr create call st os)).
Proof.
  revert st; induction os as [|[t fs] r IH]; intros st I; [exact I|]. cbn [run_list].
  pose proof (inv_target st t I) as J. destruct (get_target index create st t) as [st1 [o|e]]; [|exact J].
  pose proof (inv_funcs st1 o fs J) as K.
  destruct (run_funcs index item none vstr call st1 o fs) as [st2 [l|e]]; [|exact K].
  specialize (IH st2 K). destruct (run_list index item none vstr create call st2 r) as [st3 [m|e]]; exact IH.
Qed.
Lemma inv_start : inv ([], []).
Proof. split; [reflexivity|]. intros a o f gs vs b E. destruct a; discriminate. Qed.

(** storing *)
Lemma set_label_stored (st : state V) k v (st' : state V) : set_label st k v = (st', Ok tt) -> ignored k = false ->
  stands_for (snd st') k = Some v.
Proof.
  unfold set_label. intros H N. rewrite N in H. destruct (well_formed k); [|discriminate].
  injection H as <-. cbn [snd]. rewrite stands_app. destruct (list_eq_dec ascii_dec k k); congruence.
Qed.
Lemma set_label_other (st : state V) k v (st' : state V) j : set_label st k v = (st', Ok tt) -> j <> k ->
  stands_for (snd st') j = stands_for (snd st) j.
Proof.
  unfold set_label. intros H N. destruct (ignored k); [injection H as <-; reflexivity|].
  destruct (well_formed k); [|discriminate].
  injection H as <-. cbn [snd]. rewrite stands_app. destruct (list_eq_dec ascii_dec j k); congruence.
Qed.
Lemma set_labels_other st i ks r st' j : set_labels item st i ks r = (st', Ok tt) -> ~ In j ks ->
  stands_for (snd st') j = stands_for (snd st) j.
Proof.
  revert st i; induction ks as [|k t IH]; intros st i H N; cbn [set_labels] in H; [injection H as <-; reflexivity|].
  destruct (item r i) as [v|e]; [|discriminate].
  destruct (set_label st k v) as [st1 [[]|e]] eqn:E; [|discriminate].
  rewrite (IH st1 (S i) H) by (intros I; apply N; right; exact I).
  apply (set_label_other _ _ _ _ _ E). intros ->. apply N; left; reflexivity.
Qed.
Lemma set_labels_stored st i ks r st' n k : set_labels item st i ks r = (st', Ok tt) -> NoDup ks ->
  nth_error ks n = Some k -> ignored k = false ->
  exists v, item r (i + n) = Ok v /\ stands_for (snd st') k = Some v.
Proof.
  revert st i n; induction ks as [|k0 t IH]; intros st i n H D E N; [destruct n; discriminate|].
  cbn [set_labels] in H. destruct (item r i) as [v|e] eqn:I; [|discriminate].
  destruct (set_label st k0 v) as [st1 [[]|e]] eqn:S1; [|discriminate].
  inversion D as [|? ? D1 D2]; subst. destruct n as [|n]; cbn [nth_error] in E.
  - injection E as ->. exists v. rewrite Nat.add_0_r. split; [exact I|].
    rewrite (set_labels_other _ _ _ _ _ _ H D1). apply (set_label_stored _ _ _ _ S1 N).
  - destruct (IH st1 (S i) n H D2 E N) as (w & Hw & Sw). exists w.
    replace (i + S n) with (S i + n) by lia. split; assumption.
Qed.

(** failing *)
Lemma mapr_fails {A B} (f : A -> result B) l a e : In a l -> f a = Err e -> exists e', mapr f l = Err e'.
Proof.
  intros I H. induction l as [|x r IH]; [destruct I|]. cbn [mapr]. destruct I as [->|I].
  - rewrite H. eexists; reflexivity.
  - destruct (f x) as [b|e0]; [|eexists; reflexivity]. cbn [bind].
    destruct (IH I) as (e' & ->). eexists; reflexivity.
Qed.
End Run.
