(** Proofs about partial wakes. *)
From Coq Require Import Permutation.
From Verif Require Import RBase Partial_Model.
Local Open Scope R_scope.

Lemma wsum_cons w ws a l : wsum (w :: ws) (a :: l) = w * a + wsum ws l.
Proof. unfold wsum. cbn [combine map]. reflexivity. Qed.
Lemma wsum_nil l : wsum [] l = 0. Proof. reflexivity. Qed.
Lemma wsum_add_const w a c : length w = length a -> wsum w (map (fun x => x + c) a) = wsum w a + rsum w * c.
Proof.
  revert a. induction w as [|x w IH]; intros [|y a] H; cbn in H; try lia; [rewrite !wsum_nil; cbn; lra|].
  cbn [map]. rewrite !wsum_cons, IH by lia. change (rsum (x :: w)) with (x + rsum w). ring.
Qed.
Lemma wsum_map2 w (a d : list R) (f : R -> R -> R) : length w = length a -> length a = length d ->
  wsum w (map (fun ad => fst ad + f (fst ad) (snd ad)) (combine a d)) = wsum w a + wsum w (map (fun ad => f (fst ad) (snd ad)) (combine a d)).
Proof.
  revert a d. induction w as [|x w IH]; intros [|y a] [|z d] H1 H2; cbn in H1, H2; try lia; [rewrite !wsum_nil; lra|].
  cbn [combine map fst snd]. rewrite !wsum_cons, IH by lia. ring.
Qed.

Section P.
  Variable fin : R -> R -> R.
  Lemma seg_mean w amb g delta : length w = length amb -> rsum w = 1 ->
    wsum w (segregated_result fin w amb g delta) = wsum w amb + seg_delta fin w amb g delta.
  Proof. intros L S. unfold segregated_result. rewrite wsum_add_const by exact L. rewrite S. lra. Qed.
  Lemma seg_same_points w amb delta : length w = length amb -> length delta = length amb -> rsum w = 1 ->
    wsum w (segregated_result fin w amb w delta) = wsum w (rotor_points_result fin amb delta).
  Proof.
    intros L1 L2 S. rewrite seg_mean by assumption. unfold rotor_points_result. rewrite wsum_map2 by congruence. f_equal.
    unfold seg_delta, seg_ares. now rewrite Nat.eqb_refl.
  Qed.
  (** weighted sums as sums over a list of triples *)
  Lemma seg_delta_mean w amb gd : length w <> length gd ->
    seg_delta fin w amb (map fst gd) (map snd gd) = rsum (map (fun p => fst p * fin (wsum w amb) (snd p)) gd).
  Proof.
    intros N. unfold seg_delta, seg_ares. rewrite map_length. destruct (Nat.eqb_spec (length w) (length gd)) as [E|_]; [contradiction|].
    generalize (wsum w amb) as m. intros m. clear N.
    induction gd as [|[g d] gd IH]; [reflexivity|]. cbn [map length repeat combine fst snd]. rewrite wsum_cons, IH. reflexivity.
  Qed.
  Lemma rsum_perm l l' : Permutation l l' -> rsum l = rsum l'.
  Proof.
    intros P. induction P; [reflexivity| | |congruence].
    - change (x + rsum l = x + rsum l'). now rewrite IHP.
    - change (y + (x + rsum l) = x + (y + rsum l)). ring.
  Qed.
  Lemma seg_perm w amb gd gd' : length w <> length gd -> Permutation gd gd' ->
    segregated_result fin w amb (map fst gd) (map snd gd) = segregated_result fin w amb (map fst gd') (map snd gd').
  Proof.
    intros N P. unfold segregated_result. rewrite !seg_delta_mean; [|rewrite <- (Permutation_length P); exact N|exact N].
    erewrite rsum_perm; [reflexivity|]. now apply Permutation_map.
  Qed.
  Lemma seg_uniform w (c : R) n gd : length w = n -> rsum w = 1 ->
    seg_delta fin w (repeat c n) (map fst gd) (map snd gd) = rsum (map (fun p => fst p * fin c (snd p)) gd).
  Proof.
    intros L S. assert (Ew : wsum w (repeat c n) = c).
    { assert (G : forall w, wsum w (repeat c (length w)) = rsum w * c).
      { induction w0 as [|x l IH]; cbn [length repeat]; [rewrite wsum_nil; cbn; lra|]. rewrite wsum_cons, IH. change (rsum (x :: l)) with (x + rsum l). ring. }
      rewrite <- L, G, S. lra. }
    destruct (Nat.eq_dec (length w) (length gd)) as [E|N]; [|now rewrite seg_delta_mean, Ew by exact N].
    unfold seg_delta, seg_ares. rewrite map_length, <- E, Nat.eqb_refl. rewrite <- L, E. clear.
    induction gd as [|[g d] gd IH]; [reflexivity|]. cbn [map length repeat combine fst snd]. rewrite wsum_cons, IH. reflexivity.
  Qed.
End P.
