(** Proofs for ExecPy_Model. *)
From Coq Require Import String Ascii.
From Verif Require Import Base Factory_Model Factory_Proofs TypeName_Proofs ExecPy_Model ExecPy_Spec.
Section P.
  Context {O K : Type}.
  Variable exec : str -> env O -> env O * option pyerr.
  Notation pv := (pv O K).
  Section Ind.
    Variable Q : pv -> Prop.
    Hypothesis HS : forall s, Q (Str s).
    Hypothesis HO : forall o, Q (Obj o).
    Hypothesis HL : forall l, Forall Q l -> Q (Lst l).
    Hypothesis HT : forall l, Forall Q l -> Q (Tup l).
    Hypothesis HD : forall l, Forall (fun p => Q (snd p)) l -> Q (Dct l).
    Fixpoint pv_all (s : pv) : Q s :=
      let all := fix all (l : list pv) : Forall Q l := match l with [] => Forall_nil _ | x :: r => Forall_cons _ (pv_all x) (all r) end in
      let alld := fix alld (l : list (K * pv)) : Forall (fun p => Q (snd p)) l := match l with [] => Forall_nil _ | p :: r => Forall_cons _ (pv_all (snd p)) (alld r) end in
      match s with Str t => HS t | Obj o => HO o | Lst l => HL l (all l) | Tup l => HT l (all l) | Dct l => HD l (alld l) end.
  End Ind.

  Lemma run_str_plain ind nl s e : no_code ind s -> run_str exec ind nl s e = (Ok (Str s : pv), e).
  Proof.
    intros H. unfold run_str. destruct s as [|c [|d s]]; try reflexivity. destruct (aeq c ind) eqn:E; [|reflexivity]. apply aeq_eq in E. subst.
    destruct H as [H|H]; [cbn in H; congruence|cbn in H; lia].
  Qed.
  Lemma eval_list_id {A} (f : A -> env O -> result A * env O) l : Forall (fun x => forall e, f x e = (Ok x, e)) l -> forall e, eval_list f l e = (Ok l, e).
  Proof. induction 1 as [|x l Hx Hl IH]; intros e; [reflexivity|]. unfold eval_list in *. rewrite Hx, IH. reflexivity. Qed.
  Lemma nested_plain ind : forall (s : pv) e, plain ind s -> nested exec ind s e = (Ok s, e).
  Proof.
    induction s as [t|o|l IH|l IH|l IH] using pv_all; intros e H; cbn [nested].
    - now apply run_str_plain.
    - reflexivity.
    - rewrite eval_list_id; [reflexivity|]. cbn [plain] in H. induction IH as [|x l Hx Hl IHl]; constructor; [intros; apply Hx; apply H|apply IHl; apply H].
    - rewrite eval_list_id; [reflexivity|]. cbn [plain] in H. induction IH as [|x l Hx Hl IHl]; constructor; [intros; apply Hx; apply H|apply IHl; apply H].
    - rewrite eval_list_id; [reflexivity|]. cbn [plain] in H. induction IH as [|[k x] l Hx Hl IHl]; constructor.
      + intros e'. cbn [fst snd] in *. now rewrite Hx by apply H.
      + apply IHl. apply H.
  Qed.
  Lemma run_str_shape ind nl s e v e' : run_str exec ind nl s e = (Ok (v : pv), e') -> same_shape (Str s) v.
  Proof.
    unfold run_str. destruct s as [|c [|d s]]; try (intros H; injection H as <- <-; reflexivity). destruct (aeq c ind); [|intros H; injection H as <- <-; reflexivity].
    cbn [tl]. destruct (has_char ind (d :: s)).
    - destruct (split ind (d :: s)) as [|v0 [|b [|? ?]]]; try discriminate. destruct (run_all exec (split nl b) e) as [e1 [x|]]; [discriminate|]. destruct (getv v0 e1); [|discriminate].
      intros H. injection H as <- <-. exact I.
    - destruct (exec (d :: s) e) as [e1 [x|]]; [discriminate|]. intros H. injection H as <- <-. reflexivity.
  Qed.
  Lemma eval_list_two {A} (f : A -> env O -> result A * env O) (Q : A -> A -> Prop) l : Forall (fun x => forall e y e', f x e = (Ok y, e') -> Q x y) l ->
    forall e l' e', eval_list f l e = (Ok l', e') -> Forall2 Q l l'.
  Proof.
    induction 1 as [|x l Hx Hl IH]; intros e l' e' E; unfold eval_list in E; [injection E as <- <-; constructor|].
    destruct (f x e) as [[y|x0] e1] eqn:Ex; [|discriminate]. fold (eval_list f) in E. destruct (eval_list f l e1) as [[ys|x0] e2] eqn:Er; [|discriminate].
    injection E as <- <-. constructor; [eapply Hx; exact Ex|eapply IH; exact Er].
  Qed.
  Lemma nested_shape ind : forall (s : pv) e v e', nested exec ind s e = (Ok v, e') -> same_shape s v.
  Proof.
    induction s as [t|o|l IH|l IH|l IH] using pv_all; intros e v e' E; cbn [nested] in E.
    - now apply run_str_shape in E.
    - injection E as <- <-. reflexivity.
    - destruct (eval_list (nested exec ind) l e) as [[l'|x] e1] eqn:G; [|discriminate]. injection E as <- <-.
      apply eval_list_two with (Q := same_shape) in G; [|exact IH]. cbn [same_shape]. clear -G. induction G; auto.
    - destruct (eval_list (nested exec ind) l e) as [[l'|x] e1] eqn:G; [|discriminate]. injection E as <- <-.
      apply eval_list_two with (Q := same_shape) in G; [|exact IH]. cbn [same_shape]. clear -G. induction G; auto.
    - destruct (eval_list _ l e) as [[l'|x] e1] eqn:G; [|discriminate]. injection E as <- <-.
      apply eval_list_two with (Q := fun a b => fst a = fst b /\ same_shape (snd a) (snd b)) in G.
      + cbn [same_shape]. clear -G. induction G as [|[k x] [k' y] l l' (A & B) G IH]; auto.
      + eapply Forall_impl; [|exact IH]. intros [k x] Hx e0 [k' y] e2 Q. cbn [fst snd] in *. destruct (nested exec ind x e0) as [[y0|x0] e3] eqn:N; [|discriminate].
        injection Q as <- <- <-. split; [reflexivity|]. eapply Hx. exact N.
  Qed.
  (** statements *)
  Lemma run_all_steps cs e e' : steps exec cs e e' -> run_all exec cs e = (e', None).
  Proof. induction 1 as [|c cs e e1 e2 E S0 IH]; cbn; [reflexivity|]. now rewrite E. Qed.
  Lemma getv_stored v (o : O) e : stored v o e -> getv v e = Some o.
  Proof. induction 1; cbn; [now rewrite seqb_refl|]. now rewrite seqb_neq. Qed.
  Lemma split_free c s : ~ In c s -> split c s = [s].
  Proof.
    induction s as [|a s IH]; intros H; cbn; [reflexivity|]. rewrite aeq_neq by (intros ->; apply H; now left). rewrite IH; [reflexivity|]. intros I. apply H. now right.
  Qed.
  Lemma split_joined c l : l <> [] -> Forall (fun s => ~ In c s) l -> split c (joined c l) = l.
  Proof.
    intros N H. induction H as [|s l Hs Hl IH]; [congruence|]. destruct l as [|t l]; [now apply split_free|].
    change (joined c (s :: t :: l)) with (s ++ c :: joined c (t :: l)). rewrite split_mid, split_free, IH by (auto; discriminate). reflexivity.
  Qed.
  Lemma has_char_in c s : has_char c s = true <-> In c s.
  Proof.
    unfold has_char. rewrite existsb_exists. split; [intros (x & I & E); apply aeq_eq in E; now subst|]. intros I. exists c. split; [exact I|apply aeq_refl].
  Qed.
  Lemma run_value ind nl v stmts e e' o : ind <> nl -> ~ In ind v -> stmts <> [] -> Forall (fun c => ~ In ind c /\ ~ In nl c) stmts ->
    steps exec stmts e e' -> stored v o e' -> run_str exec ind nl (ind :: v ++ ind :: joined nl stmts) e = (Ok (Obj o : pv), e').
  Proof.
    intros Hne Hv Hs Hf St So. unfold run_str.
    destruct (v ++ ind :: joined nl stmts) as [|d s] eqn:Ev; [now destruct v|]. cbn [tl]. rewrite aeq_refl.
    rewrite (proj2 (has_char_in ind (d :: s))) by (rewrite <- Ev; apply in_or_app; right; now left). rewrite <- Ev, split_mid, (split_free ind v Hv).
    assert (Hj : ~ In ind (joined nl stmts)).
    { clear -Hne Hf. induction Hf as [|c l (H1 & H2) Hl IH]; [intros []|]. destruct l as [|t l]; [exact H1|]. change (joined nl (c :: t :: l)) with (c ++ nl :: joined nl (t :: l)).
      intros I. apply in_app_or in I as [I|[I|I]]; [now apply H1|now apply Hne|now apply IH]. }
    rewrite (split_free ind _ Hj). cbn [app]. rewrite split_joined; [|exact Hs|eapply Forall_impl; [|exact Hf]; cbn; tauto].
    rewrite (run_all_steps _ _ _ St), (getv_stored _ _ _ So). reflexivity.
  Qed.
End P.
