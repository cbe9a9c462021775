(** Property theorems C216: python strings in input structures. *)
From Coq Require Import String Ascii.
From Verif Require Import Base Factory_Model ExecPy_Model ExecPy_Spec ExecPy_Proofs.

(** C216: values without code are returned as they are, nothing is executed ... *)
Theorem C216_plain : forall (O K : Type) (exec : str -> env O -> env O * option pyerr) (s : pv O K) ind nl own sh, plain ind s ->
  exec_python exec s ind nl own sh = (Ok s, own, sh).
Proof.
  intros O K exec s ind nl own sh H. destruct s; cbn [exec_python]; try (rewrite nested_plain by exact H; reflexivity).
  destruct own; now rewrite run_str_plain by exact H.
Qed.
Print Assumptions C216_plain.
(** ... the structure is kept, and every object in it ... *)
Theorem C216_structure : forall (O K : Type) (exec : str -> env O -> env O * option pyerr) (s v : pv O K) ind nl own sh own' sh',
  exec_python exec s ind nl own sh = (Ok v, own', sh') -> same_shape s v.
Proof.
  intros O K exec s v ind nl own sh own' sh' E. destruct s; cbn [exec_python] in E.
  1: destruct own as [e|]; [destruct (run_str exec ind nl s e) as [r e1] eqn:G|destruct (run_str exec ind nl s sh) as [r e1] eqn:G]; injection E as -> _ _; eapply run_str_shape; exact G.
  all: match type of E with (let (_, _) := nested _ _ ?x _ in _) = _ => destruct (nested exec ind x sh) as [r e1] eqn:G end; injection E as -> _ _; eapply nested_shape; exact G.
Qed.
Print Assumptions C216_structure.
(** ... and the text %name%statements gives the variable's value after the statements, in their order *)
Theorem C216_value : forall (O K : Type) (exec : str -> env O -> env O * option pyerr) ind nl v stmts e e' o sh, ind <> nl -> ~ In ind v -> stmts <> [] ->
  Forall (fun c => ~ In ind c /\ ~ In nl c) stmts -> steps exec stmts e e' -> stored v o e' ->
  exec_python exec (Str (ind :: v ++ ind :: joined nl stmts) : pv O K) ind nl (Some e) sh = (Ok (Obj o), Some e', sh).
Proof. intros. cbn [exec_python]. erewrite run_value; eauto. Qed.
Print Assumptions C216_value.
(** text with the indicator at its beginning only is executed, but not replaced *)
Theorem C216_statement_refuted : forall (O K : Type) (exec : str -> env O -> env O * option pyerr) ind nl code e e' sh, code <> [] -> ~ In ind code -> exec code e = (e', None) ->
  exec_python exec (Str (ind :: code) : pv O K) ind nl (Some e) sh = (Ok (Str (ind :: code)), Some e', sh).
Proof.
  intros O K exec ind nl code e e' sh N H E. cbn [exec_python]. unfold run_str. destruct code as [|d s]; [congruence|]. cbn [tl]. unfold aeq at 1. rewrite Ascii.eqb_refl.
  destruct (has_char ind (d :: s)) eqn:Q; [apply has_char_in in Q; contradiction|]. now rewrite E.
Qed.
Print Assumptions C216_statement_refuted.
(** inside of lists, tuples and dictionaries the given newline and local variables are not used *)
Theorem C216_arguments_refuted : forall (O K : Type) (exec : str -> env O -> env O * option pyerr) (l : list (pv O K)) ind nl nl' own own' sh,
  fst (fst (exec_python exec (Lst l) ind nl own sh)) = fst (fst (exec_python exec (Lst l) ind nl' own' sh)) /\
  snd (fst (exec_python exec (Lst l) ind nl own sh)) = own.
Proof. intros. cbn [exec_python]. destruct (nested exec ind (Lst l) sh). split; reflexivity. Qed.
Print Assumptions C216_arguments_refuted.
(** a small interpreter with the statements n=1 and q=n *)
Definition mini (c : str) (e : env nat) : env nat * option pyerr :=
  if seqb c (list_ascii_of_string "n=1") then ((list_ascii_of_string "n", 1) :: e, None)
  else match getv (list_ascii_of_string "n") e with Some x => ((list_ascii_of_string "q", x) :: e, None) | None => (e, Some NameError) end.
(** variables of earlier calls are visible in later ones: the result of a call depends on what was evaluated before *)
Theorem C216_leak_refuted : exists (exec : str -> env nat -> env nat * option pyerr) (s1 s2 : pv nat nat) ind nl,
  let '(_, _, sh1) := exec_python exec s1 ind nl None [] in
  fst (fst (exec_python exec s2 ind nl None [])) = Err NameError /\ fst (fst (exec_python exec s2 ind nl None sh1)) = Ok (Obj 1).
Proof.
  exists mini, (Str (list_ascii_of_string "%n%n=1")), (Str (list_ascii_of_string "%q%q=n")), "%"%char, ";"%char. cbn. split; reflexivity.
Qed.
Print Assumptions C216_leak_refuted.
(** Non-vacuity *)
Example ex_value : exec_python mini (Str (list_ascii_of_string "%q%n=1;q=n") : pv nat nat) "%"%char ";"%char (Some []) [] =
  (Ok (Obj 1), Some [(list_ascii_of_string "q", 1); (list_ascii_of_string "n", 1)], []).
Proof. reflexivity. Qed.
Example ex_steps : steps mini [list_ascii_of_string "n=1"; list_ascii_of_string "q=n"] [] [(list_ascii_of_string "q", 1); (list_ascii_of_string "n", 1)].
Proof. eapply st_cons; [reflexivity|]. eapply st_cons; [reflexivity|]. apply st_nil. Qed.
Example ex_plain : plain "%"%char (Dct [(0, Str (list_ascii_of_string "a%b")); (1, Lst [Obj 3])] : pv nat nat).
Proof. cbn. repeat split. left. discriminate. Qed.
