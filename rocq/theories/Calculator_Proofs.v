(** Proofs for C267. *)
From Verif Require Import Base Order_Model Calculator_Model Calculator_Spec.
Local Open Scope nat_scope.

Section P.
Context {A : Type}.
Implicit Types (f : A -> A) (l : list A) (c : calculator A).
Lemma set_len i (x : A) l : length (Order_Model.set_nth i x l) = length l.
Proof. revert i. induction l as [|a l IH]; intros [|i]; try reflexivity. unfold Order_Model.set_nth in *. cbn. f_equal. exact (IH i). Qed.
Lemma set_same i (x : A) l d : i < length l -> nth i (Order_Model.set_nth i x l) d = x.
Proof. revert i. induction l as [|a l IH]; intros i H; [cbn in H; lia|]. destruct i as [|i]; [reflexivity|]. cbn in H. exact (IH i ltac:(lia)). Qed.
Lemma set_other i j (x : A) l d : i <> j -> nth j (Order_Model.set_nth i x l) d = nth j l d.
Proof.
  revert i j. induction l as [|a l IH]; intros i j H; [destruct i, j; reflexivity|]. destruct i as [|i], j as [|j]; try reflexivity; [lia|]. apply (IH i j). lia.
Qed.
Lemma map_nth' f l k d : k < length l -> nth k (map f l) d = f (nth k l d).
Proof. intros H. rewrite (nth_indep _ d (f d)) by (now rewrite map_length). apply map_nth. Qed.
Lemma times_comm n f x : times n f (f x) = f (times n f x).
Proof. induction n as [|n IH]; [reflexivity|]. cbn. now rewrite IH. Qed.
Lemma times_add n m f x : times (n + m) f x = times n f (times m f x).
Proof. induction n as [|n IH]; [reflexivity|]. cbn. now rewrite IH. Qed.
Lemma times_idem n f x : (forall y, f (f y) = f y) -> times (S n) f x = f x.
Proof. intros H. induction n as [|n IH]; [reflexivity|]. cbn in *. now rewrite IH. Qed.
Lemma last_app_one {B} (l : list B) x d : last (l ++ [x]) d = x.
Proof. induction l as [|a [|b l] IH]; try reflexivity. exact IH. Qed.

(** ** one variable, elementwise *)
Section Same.
Variables (g : func A) (f : A -> A).
Hypothesis Hg : elementwise g f.
Let c := {| c_same := true; c_func := g |}.
Lemma loop_same w d m : forall x y, m <= length x - 1 -> length (fst (fold_left (one_turbine c w) (seq 1 m) (x, y))) = length x /\
  forall k, k < length x -> nth k (fst (fold_left (one_turbine c w) (seq 1 m) (x, y))) d = if (1 <=? k) && (k <=? m) then times (S (m - k)) f (w k) else times m f (nth k x d).
Proof.
  induction m as [|m IH]; intros x y Hm; [split; [reflexivity|]; intros k Hk; cbn; destruct k; reflexivity|].
  rewrite seq_S, fold_left_app. cbn [fold_left]. destruct (IH x y ltac:(lia)) as [L H]. set (r := fold_left (one_turbine c w) (seq 1 m) (x, y)) in *. unfold one_turbine, run_calc. subst c. cbn [c_same c_func fst snd]. rewrite !Hg. cbn [fst snd].
  split; [now rewrite map_length, set_len|]. intros k Hk. rewrite map_nth' by (rewrite set_len; lia). destruct (Nat.eq_dec (1 + m) k) as [<-|N].
  - rewrite set_same by lia. replace ((1 <=? 1 + m) && (1 + m <=? S m)) with true by (symmetry; apply andb_true_intro; split; apply Nat.leb_le; lia). replace (S m - (1 + m)) with 0 by lia. reflexivity.
  - rewrite set_other by exact N. rewrite H by exact Hk. destruct (1 <=? k) eqn:E1; cbn [andb].
    + destruct (k <=? m) eqn:E2.
      * apply Nat.leb_le in E2. replace (k <=? S m) with true by (symmetry; apply Nat.leb_le; lia). replace (S m - k) with (S (m - k)) by lia. reflexivity.
      * apply Nat.leb_gt in E2. replace (k <=? S m) with false by (symmetry; apply Nat.leb_gt; lia). reflexivity.
    + reflexivity.
Qed.
Lemma models_same d : forall ws x y, x <> [] -> length (fst (fold_left (one_model c (length x)) ws (x, y))) = length x /\
  forall k, k < length x -> nth k (fst (fold_left (one_model c (length x)) ws (x, y))) d =
    match ws with [] => nth k x d | _ => match k with 0 => times (length ws * (length x - 1)) f (nth 0 x d) | _ => times (length x - k) f (last (map (fun w => w k) ws) d) end end.
Proof.
  intros ws x y Hx. assert (Lx : 0 < length x) by (destruct x; [congruence|cbn; lia]). induction ws as [|w ws IH] using rev_ind; [split; reflexivity|].
  rewrite fold_left_app. cbn [fold_left]. destruct IH as [L H]. set (r := fold_left (one_model c (length x)) ws (x, y)) in *. destruct r as [x' y'] eqn:Er. cbn [fst] in *. unfold one_model.
  destruct (loop_same w d (length x - 1) x' y' ltac:(lia)) as [L' H']. split; [lia|]. intros k Hk. rewrite H' by lia. destruct (ws ++ [w]) as [|w0 ws0] eqn:Ew; [destruct ws; discriminate|]. rewrite <- Ew. clear Ew. destruct k as [|k].
  - cbn [Nat.leb andb]. rewrite app_length. cbn [length]. rewrite H by lia. destruct ws as [|w1 ws]; [cbn [length]; f_equal; lia|]. rewrite <- times_add. f_equal. cbn [length]. lia.
  - replace ((1 <=? S k) && (S k <=? length x - 1)) with true by (symmetry; apply andb_true_intro; split; apply Nat.leb_le; lia). rewrite map_app. cbn [map]. rewrite last_app_one. f_equal. lia.
Qed.
Lemma down_same amb out ws k d : k < length amb ->
  nth k (fst (downwind c amb out ws)) d = match ws with [] => f (nth k amb d) | _ => match k with 0 => times (S (length ws * (length amb - 1))) f (nth 0 amb d) | _ => times (length amb - k) f (own amb ws k d) end end.
Proof.
  intros Hk. unfold downwind, all_turbines, run_calc. cbn [c c_same c_func fst snd]. rewrite Hg. replace (length amb) with (length (map f amb)) at 1 by apply map_length.
  assert (Hx : map f amb <> []) by (destruct amb; [cbn in Hk; lia|discriminate]). destruct (models_same d ws (map f amb) out Hx) as [_ H]. fold c. rewrite H by (rewrite map_length; exact Hk). rewrite map_length. destruct ws as [|w ws]; [now rewrite map_nth'|]. destruct k as [|k].
  - rewrite map_nth' by exact Hk. rewrite times_comm. reflexivity.
  - f_equal. unfold own. assert (Q : forall (l : list A) a b, l <> [] -> last l a = last l b) by (induction l as [|u [|v l] IHl]; intros; [congruence|reflexivity|apply IHl; discriminate]). apply Q. discriminate.
Qed.
End Same.

(** ** one variable, selected elements only *)
Section Sel.
Variables (g : func A) (f : A -> A).
Hypothesis Hg : selective g f.
Let c := {| c_same := true; c_func := g |}.
Lemma loop_sel w d m : forall x y, m <= length x - 1 -> length (fst (fold_left (one_turbine c w) (seq 1 m) (x, y))) = length x /\
  forall k, k < length x -> nth k (fst (fold_left (one_turbine c w) (seq 1 m) (x, y))) d = if (1 <=? k) && (k <=? m) then f (w k) else nth k x d.
Proof.
  destruct Hg as [G0 G1]. induction m as [|m IH]; intros x y Hm; [split; [reflexivity|]; intros k Hk; cbn; destruct k; reflexivity|].
  rewrite seq_S, fold_left_app. cbn [fold_left]. destruct (IH x y ltac:(lia)) as [L H]. set (r := fold_left (one_turbine c w) (seq 1 m) (x, y)) in *. unfold one_turbine, run_calc. subst c. cbn [c_same c_func fst snd].
  destruct (G1 (1 + m) (Order_Model.set_nth (1 + m) (w (1 + m)) (fst r))) as [L1 N1]. rewrite set_len in L1, N1. split; [lia|]. intros k Hk. rewrite N1 by lia. destruct (Nat.eq_dec k (1 + m)) as [->|N].
  - rewrite set_same by lia. replace ((1 <=? 1 + m) && (1 + m <=? S m)) with true by (symmetry; apply andb_true_intro; split; apply Nat.leb_le; lia). reflexivity.
  - rewrite set_other by lia. rewrite H by exact Hk. destruct (1 <=? k) eqn:E1; cbn [andb]; [|reflexivity]. destruct (k <=? m) eqn:E2.
    + apply Nat.leb_le in E2. replace (k <=? S m) with true by (symmetry; apply Nat.leb_le; lia). reflexivity.
    + apply Nat.leb_gt in E2. replace (k <=? S m) with false by (symmetry; apply Nat.leb_gt; lia). reflexivity.
Qed.
Lemma down_sel amb out ws k d : k < length amb -> nth k (fst (downwind c amb out ws)) d = f (own amb ws k d).
Proof.
  intros Hk. unfold downwind, all_turbines, run_calc. cbn [c c_same c_func fst snd]. rewrite (proj1 Hg). assert (G : length (fst (fold_left (one_model c (length amb)) ws (map f amb, out))) = length amb /\ nth k (fst (fold_left (one_model c (length amb)) ws (map f amb, out))) d = f (own amb ws k d)).
  { induction ws as [|w ws IH] using rev_ind.
    - cbn. rewrite map_length. split; [reflexivity|]. rewrite map_nth' by exact Hk. destruct k; reflexivity.
    - rewrite fold_left_app. cbn [fold_left]. destruct IH as [L H]. destruct (fold_left (one_model c (length amb)) ws (map f amb, out)) as [x' y'] eqn:Er. cbn [fst] in *. unfold one_model. destruct (loop_sel w d (length amb - 1) x' y' ltac:(lia)) as [L' H']. split; [lia|]. rewrite H' by lia. destruct k as [|k].
      + cbn [Nat.leb andb]. exact H.
      + replace ((1 <=? S k) && (S k <=? length amb - 1)) with true by (symmetry; apply andb_true_intro; split; apply Nat.leb_le; lia). unfold own. rewrite map_app. cbn [map]. now rewrite last_app_one. }
  exact (proj2 G).
Qed.
End Sel.

(** ** another variable, elementwise *)
Section Sep.
Variables (g : func A) (f : A -> A).
Hypothesis Hg : elementwise g f.
Let c := {| c_same := false; c_func := g |}.
Lemma loop_sep w d m : forall x, m <= length x - 1 -> let r := fold_left (one_turbine c w) (seq 1 m) (x, map f x) in
  snd r = map f (fst r) /\ length (fst r) = length x /\ forall k, k < length x -> nth k (fst r) d = if (1 <=? k) && (k <=? m) then w k else nth k x d.
Proof.
  induction m as [|m IH]; intros x Hm; cbv zeta; [split; [reflexivity|split; [reflexivity|]]; intros k Hk; cbn; destruct k; reflexivity|].
  rewrite seq_S, fold_left_app. cbn [fold_left]. destruct (IH x ltac:(lia)) as (E & L & H). set (r := fold_left (one_turbine c w) (seq 1 m) (x, map f x)) in *. unfold one_turbine, run_calc. subst c. cbn [c_same c_func fst snd]. rewrite !Hg. cbn [fst snd].
  split; [reflexivity|]. split; [now rewrite set_len|]. intros k Hk. destruct (Nat.eq_dec (1 + m) k) as [<-|N].
  - rewrite set_same by lia. replace ((1 <=? 1 + m) && (1 + m <=? S m)) with true by (symmetry; apply andb_true_intro; split; apply Nat.leb_le; lia). reflexivity.
  - rewrite set_other by lia. rewrite H by exact Hk. destruct (1 <=? k) eqn:E1; cbn [andb]; [|reflexivity]. destruct (k <=? m) eqn:E2.
    + apply Nat.leb_le in E2. replace (k <=? S m) with true by (symmetry; apply Nat.leb_le; lia). reflexivity.
    + apply Nat.leb_gt in E2. replace (k <=? S m) with false by (symmetry; apply Nat.leb_gt; lia). reflexivity.
Qed.
Lemma down_sep amb out ws k d : k < length amb -> nth k (fst (downwind c amb out ws)) d = own amb ws k d /\ nth k (snd (downwind c amb out ws)) d = f (own amb ws k d).
Proof.
  intros Hk. unfold downwind, all_turbines, run_calc. cbn [c c_same c_func fst snd]. rewrite Hg. set (R := fun ws => fold_left (one_model c (length amb)) ws (amb, map f amb)).
  assert (G : snd (R ws) = map f (fst (R ws)) /\ length (fst (R ws)) = length amb /\ nth k (fst (R ws)) d = own amb ws k d).
  { unfold R. induction ws as [|w ws IH] using rev_ind.
    - cbn. split; [reflexivity|]. split; [reflexivity|]. destruct k; reflexivity.
    - rewrite fold_left_app. cbn [fold_left]. destruct IH as (E & L & H). destruct (fold_left (one_model c (length amb)) ws (amb, map f amb)) as [x' y'] eqn:Er. cbn [fst snd] in *. subst y'. unfold one_model. destruct (loop_sep w d (length amb - 1) x' ltac:(lia)) as (E' & L' & H'). split; [exact E'|]. split; [lia|]. rewrite H' by lia. destruct k as [|k].
      + cbn [Nat.leb andb]. exact H.
      + replace ((1 <=? S k) && (S k <=? length amb - 1)) with true by (symmetry; apply andb_true_intro; split; apply Nat.leb_le; lia). unfold own. rewrite map_app. cbn [map]. now rewrite last_app_one. }
  destruct G as (E & L & H). fold (R ws). split; [exact H|]. rewrite E, map_nth' by (rewrite L; exact Hk). now rewrite H.
Qed.
End Sep.
End P.
