From Verif Require Import RBase States_Model.
Local Open Scope R_scope.

Lemma prodn_pos l : Forall (fun n => (0 < n)%nat) l -> (0 < prodn l)%nat.
Proof. induction 1 as [|n l H F IH]; cbn; [lia|]. apply Nat.mul_pos_pos; assumption. Qed.
Lemma prodn_cons n s : prodn (n :: s) = (n * prodn s)%nat.
Proof. reflexivity. Qed.
(** tuples of indices within the shape *)
Definition within (shp ks : list nat) : Prop := Forall2 (fun n k => (k < n)%nat) shp ks.
Lemma within_pos shp ks : within shp ks -> Forall (fun n => (0 < n)%nat) shp.
Proof. induction 1; constructor; [lia|assumption]. Qed.
Lemma unravel_within : forall shp r, (r < prodn shp)%nat -> within shp (unravel shp r).
Proof.
  induction shp as [|n s IH]; intros r H; cbn [unravel]; [constructor|].
  rewrite prodn_cons in H. assert (P : (0 < prodn s)%nat) by (destruct (prodn s); lia). constructor.
  - apply Nat.div_lt_upper_bound; [lia|]. nia.
  - apply IH. apply Nat.mod_upper_bound. lia.
Qed.
Lemma unravel_exists : forall shp ks, within shp ks -> exists r, (r < prodn shp)%nat /\ unravel shp r = ks.
Proof.
  intros shp ks H. pose proof (within_pos _ _ H) as P. revert P. induction H as [|n k s ks Hk H IH]; intros P.
  - exists 0%nat. cbn. split; [lia|reflexivity].
  - inversion P; subst. destruct (IH H3) as (r & Hr & E). exists (k * prodn s + r)%nat. split.
    + rewrite prodn_cons. nia.
    + cbn [unravel]. rewrite Nat.div_add_l by lia. rewrite Nat.div_small by lia. rewrite Nat.add_0_r, Nat.add_comm, Nat.mod_add by lia.
      rewrite Nat.mod_small by lia. now rewrite E.
Qed.
Lemma unravel_inj : forall shp r r', (r < prodn shp)%nat -> (r' < prodn shp)%nat -> unravel shp r = unravel shp r' -> r = r'.
Proof.
  induction shp as [|n s IH]; intros r r' H H' E; [cbn in H, H'; lia|]. rewrite prodn_cons in H, H'. cbn [unravel] in E. injection E as E1 E2.
  assert (P : (0 < prodn s)%nat) by (destruct (prodn s); lia).
  apply IH in E2; [|apply Nat.mod_upper_bound; lia|apply Nat.mod_upper_bound; lia].
  rewrite (Nat.div_mod r (prodn s)), (Nat.div_mod r' (prodn s)) by lia. congruence.
Qed.

Lemma rsum_const {A} (l : list A) c : rsum (map (fun _ => c) l) = INR (length l) * c.
Proof. induction l as [|a l IH]; cbn [map rsum length]; [cbn; ring|]. rewrite IH, S_INR. ring. Qed.
Lemma uniform_sum n : (0 < n)%nat -> rsum (map (fun _ => 1 / INR n) (seq 0 n)) = 1.
Proof. intros H. rewrite (rsum_const (seq 0 n)), seq_length. field. apply not_0_INR. lia. Qed.

(** tables *)
Lemma tcols_length t v2c isp : forall tv r, tcols t v2c isp tv = Ok r -> (length r <= length tv)%nat.
Proof.
  induction tv as [|v l IH]; intros r H; cbn [tcols] in H; [injection H as <-; cbn; lia|]. destruct (column t (v2c v)) as [c|].
  - apply bind_ok in H. destruct H as (r' & H & E). injection E as <-. apply IH in H. cbn. lia.
  - destruct (isp v); [|discriminate]. apply IH in H. cbn. lia.
Qed.
Lemma tcols_full t v2c isp : forall tv r, tcols t v2c isp tv = Ok r -> length r = length tv ->
  forall i v, nth_error tv i = Some v -> exists c, column t (v2c v) = Some c /\ nth_error r i = Some c.
Proof.
  induction tv as [|v l IH]; intros r H L; cbn [tcols] in H; [intros [|i] w E; discriminate|]. destruct (column t (v2c v)) as [c|] eqn:C.
  - apply bind_ok in H. destruct H as (r' & H & E). injection E as <-. injection L as L. intros [|i] w E.
    + injection E as <-. exists c. split; [assumption|reflexivity].
    + now apply (IH r' H L).
  - destruct (isp v); [|discriminate]. apply tcols_length in H. cbn in L. lia.
Qed.
Lemma tcols_all t v2c isp : forall tv, (forall v, In v tv -> column t (v2c v) <> None) -> exists r, tcols t v2c isp tv = Ok r /\ length r = length tv.
Proof.
  induction tv as [|v l IH]; intros H; [now exists []|]. cbn [tcols]. destruct IH as (r & E & L); [intros w Hw; apply H; now right|].
  destruct (column t (v2c v)) as [c|] eqn:C; [|exfalso; revert C; apply H; now left]. rewrite E. cbn [bind]. exists (c :: r). cbn. auto.
Qed.
Lemma assign_other : forall tv cs s f v, ~ In v tv -> assign tv cs s f v = f v.
Proof.
  induction tv as [|w tv IH]; intros [|c cs] s f v N; cbn [assign]; try reflexivity. rewrite IH by (intros X; apply N; now right).
  destruct (v =? w)%nat eqn:E; [|reflexivity]. apply Nat.eqb_eq in E. subst. exfalso. apply N. now left.
Qed.
Lemma assign_nth : forall tv cs s f i v c, NoDup tv -> nth_error tv i = Some v -> nth_error cs i = Some c -> assign tv cs s f v = Some (c s).
Proof.
  induction tv as [|w tv IH]; intros [|d cs] s f [|i] v c N E1 E2; try discriminate; cbn [assign nth_error] in *; inversion N; subst.
  - injection E1 as ->. injection E2 as ->. rewrite assign_other by assumption. now rewrite Nat.eqb_refl.
  - now apply (IH cs s _ i).
Qed.
Lemma deliver_ok t v2c isp fx pr tv cs s v : NoDup tv -> load t v2c isp tv = Ok cs -> In v tv -> isp v = false -> fx v = None ->
  exists c, column t (v2c v) = Some c /\ deliver isp fx pr tv cs s v = Some (c s).
Proof.
  intros N H I Hp Hf. unfold load in H. apply bind_ok in H. destruct H as (r & H & E). destruct (length r =? length tv)%nat eqn:L; [|discriminate].
  injection E as ->. apply Nat.eqb_eq in L. apply In_nth_error in I. destruct I as (i & I). destruct (tcols_full _ _ _ _ _ H L i v I) as (c & C & R).
  exists c. split; [assumption|]. unfold deliver. rewrite Hp, Hf. now apply (assign_nth tv cs s _ i).
Qed.
Lemma load_missing t v2c isp tv v : In v tv -> column t (v2c v) = None -> exists e, load t v2c isp tv = Err e.
Proof.
  intros I C. unfold load. destruct (tcols t v2c isp tv) as [r|e] eqn:H; cbn [bind]; [|eauto]. destruct (length r =? length tv)%nat eqn:L; [|eauto].
  apply Nat.eqb_eq in L. apply In_nth_error in I. destruct I as (i & I). destruct (tcols_full _ _ _ _ _ H L i v I) as (c & C' & _). congruence.
Qed.
Lemma load_missing_profile t v2c isp tv v : (forall u, In u tv -> column t (v2c u) = None -> isp u = true) -> In v tv -> column t (v2c v) = None ->
  load t v2c isp tv = Err ValueError.
Proof.
  intros P I C. assert (G : exists r, tcols t v2c isp tv = Ok r).
  { clear I. induction tv as [|u l IH]; [now exists []|]. cbn [tcols]. destruct IH as (r & E); [intros w Hw; apply P; now right|].
    destruct (column t (v2c u)) eqn:Cu; [rewrite E; cbn; eauto|]. rewrite (P u); [eauto|now left|assumption]. }
  destruct G as (r & G). destruct (load_missing t v2c isp tv v I C) as (e & E). unfold load in *. rewrite G in *. cbn [bind] in *.
  destruct (length r =? length tv)%nat; [discriminate|reflexivity].
Qed.

(** profile dictionaries *)
Lemma init_again l l' : init_profs l = Ok l' -> (exists v b, In (v, PDict b) l) -> init_profs l' = Err KeyError.
Proof.
  revert l'. induction l as [|(v, p) l IH]; intros l' H (w & b & I); [destruct I|]. cbn [init_profs] in H. apply bind_ok in H. destruct H as (p' & E & H).
  apply bind_ok in H. destruct H as (r & H & E'). injection E' as <-. cbn [init_profs]. destruct I as [I|I].
  - injection I as -> ->. destruct b; cbn in E; [|discriminate]. injection E as <-. reflexivity.
  - assert (R : init_profs r = Err KeyError) by (apply IH; eauto). destruct p as [| |[|]|]; cbn in E; try discriminate; injection E as <-; cbn [init_prof bind]; rewrite ?R; reflexivity.
Qed.
Lemma init_stable l : (forall v p, In (v, p) l -> p = PStr \/ p = PObj) -> init_profs l = Ok l.
Proof.
  induction l as [|(v, p) l IH]; intros H; [reflexivity|]. cbn [init_profs]. rewrite IH by (intros w q I; apply (H w q); now right).
  destruct (H v p (or_introl eq_refl)) as [E|E]; subst p; reflexivity.
Qed.

(** wind rose tables *)
Lemma rsum_app l l' : rsum (l ++ l') = rsum l + rsum l'.
Proof. induction l as [|a l IH]; cbn [app rsum]; [ring|]. rewrite IH. ring. Qed.
Lemma rsum_ext {A} (f g : A -> R) l : (forall a, In a l -> f a = g a) -> rsum (map f l) = rsum (map g l).
Proof. induction l as [|a l IH]; intros H; [reflexivity|]. cbn [map rsum]. rewrite H by now left. rewrite IH; [reflexivity|]. intros b Hb. apply H. now right. Qed.
Lemma rsum_scale {A} (f : A -> R) k l : rsum (map (fun a => f a * k) l) = rsum (map f l) * k.
Proof. induction l as [|a l IH]; cbn [map rsum]; [ring|]. rewrite IH. ring. Qed.
Lemma rsum_plus {A} (f g : A -> R) l : rsum (map (fun a => f a + g a) l) = rsum (map f l) + rsum (map g l).
Proof. induction l as [|a l IH]; cbn [map rsum]; [ring|]. rewrite IH. ring. Qed.
Lemma rsum_swap {A B} (f : A -> B -> R) l m : rsum (map (fun a => rsum (map (f a) m)) l) = rsum (map (fun b => rsum (map (fun a => f a b) l)) m).
Proof.
  induction l as [|a l IH]; cbn [map rsum].
  - clear. induction m as [|b m IH]; cbn [map rsum]; [reflexivity|]. rewrite <- IH. ring.
  - rewrite IH, <- rsum_plus. apply rsum_ext. reflexivity.
Qed.
Lemma rsum_positive_part {A} (f : A -> R) l : (forall a, In a l -> 0 <= f a) -> rsum (map f (filter (fun a => Rltb 0 (f a)) l)) = rsum (map f l).
Proof.
  induction l as [|a l IH]; intros H; [reflexivity|]. cbn [filter map rsum]. assert (0 <= f a) by (apply H; now left).
  rewrite <- IH by (intros b Hb; apply H; now right). destruct (Rltb 0 (f a)) eqn:E; cbn [map rsum]; [reflexivity|]. apply Rltb_false in E. lra.
Qed.
Lemma rsum_flat {A B} (f : A * B -> R) (l : list A) (m : list B) : rsum (map f (flat_map (fun a => map (pair a) m) l)) = rsum (map (fun a => rsum (map (fun b => f (a, b)) m)) l).
Proof. induction l as [|a l IH]; cbn [flat_map map rsum]; [reflexivity|]. rewrite map_app, rsum_app, IH, map_map. reflexivity. Qed.
Section Tab.
Variables (nws nwd : nat) (ws_freq : nat -> nat -> R) (wd_freq : nat -> R).
Hypothesis Hws : forall w d, (w < nws)%nat -> (d < nwd)%nat -> 0 <= ws_freq w d.
Hypothesis Hwd : forall d, (d < nwd)%nat -> 0 <= wd_freq d.
Hypothesis Hcol : forall d, (d < nwd)%nat -> 0 < col_sum nws ws_freq d.
Hypothesis Hsum : 0 < wd_sum nwd wd_freq.
Let tw := tab_weight nws nwd ws_freq wd_freq.
Lemma tw_val w d : (d < nwd)%nat -> tw w d = ws_freq w d * (wd_freq d * (/ col_sum nws ws_freq d * / wd_sum nwd wd_freq)).
Proof. intros Hd. unfold tw, tab_weight, norm_ws, norm_wd. specialize (Hcol d Hd). field. lra. Qed.
Lemma tw_nonneg w d : (w < nws)%nat -> (d < nwd)%nat -> 0 <= tw w d.
Proof.
  intros Hw Hd. rewrite tw_val by assumption. specialize (Hws w d Hw Hd). specialize (Hwd d Hd). specialize (Hcol d Hd).
  apply Rmult_le_pos; [assumption|]. apply Rmult_le_pos; [assumption|]. apply Rmult_le_pos; left; apply Rinv_0_lt_compat; assumption.
Qed.
Lemma tab_sum : rsum (tab_weights nws nwd ws_freq wd_freq) = 1.
Proof.
  unfold tab_weights, tab_states. rewrite (rsum_positive_part (fun wd => tab_weight nws nwd ws_freq wd_freq (fst wd) (snd wd))).
  2: { intros (w, d) I. unfold tab_cells in I. apply in_flat_map in I. destruct I as (w' & Iw & I). apply in_map_iff in I. destruct I as (d' & E & Id).
       injection E as -> ->. apply in_seq in Iw. apply in_seq in Id. cbn [fst snd]. apply tw_nonneg; lia. }
  unfold tab_cells. etransitivity; [exact (rsum_flat (fun wd => tab_weight nws nwd ws_freq wd_freq (fst wd) (snd wd)) (seq 0 nws) (seq 0 nwd))|]. cbn [fst snd].
  rewrite (rsum_swap (fun w d => tab_weight nws nwd ws_freq wd_freq w d)).
  transitivity (rsum (map (fun d => wd_freq d * / wd_sum nwd wd_freq) (seq 0 nwd))).
  - apply rsum_ext. intros d Hd. apply in_seq in Hd.
    transitivity (rsum (map (fun w => ws_freq w d * (wd_freq d * (/ col_sum nws ws_freq d * / wd_sum nwd wd_freq))) (seq 0 nws))).
    + apply rsum_ext. intros w _. apply tw_val. lia.
    + rewrite rsum_scale. fold (col_sum nws ws_freq d). specialize (Hcol d ltac:(lia)). field. lra.
  - rewrite rsum_scale. fold (wd_sum nwd wd_freq). field. lra.
Qed.
Lemma tab_pos x : In x (tab_weights nws nwd ws_freq wd_freq) -> 0 < x.
Proof. intros I. apply in_map_iff in I. destruct I as (p & <- & I). apply filter_In in I. destruct I as (_ & I). now apply Rltb_true in I. Qed.
End Tab.
