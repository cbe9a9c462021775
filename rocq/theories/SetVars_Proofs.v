(** Proofs about SetFarmVars for positions, heights, diameters, and once. *)
From Verif Require Import Base RBase SetVars_Model.
Local Open Scope nat_scope.

(** the settings where given, the former values elsewhere *)
Definition overlay (d old : option R) : option R := match d with Some _ => d | None => old end.
Lemma where_len data : forall x, length x = length data -> length (where_nan data x) = length data.
Proof. induction data as [|d data IH]; intros [|y x] H; cbn in *; try discriminate; auto. Qed.
Lemma where_nth data : forall x k, length x = length data -> k < length data -> nth k (where_nan data x) None = overlay (nth k data None) (nth k x None).
Proof.
  induction data as [|d data IH]; intros [|y x] k H Hk; cbn in *; try discriminate; try lia. destruct k as [|k]; [reflexivity|]. apply IH; lia.
Qed.
Lemma where_idem data : forall x, length x = length data -> where_nan data (where_nan data x) = where_nan data x.
Proof. induction data as [|d data IH]; intros [|y x] H; cbn in *; try discriminate; [reflexivity|]. f_equal; [now destruct d|apply IH; lia]. Qed.
Lemma fill_len n v l : fill n v = Done l -> length l = n.
Proof.
  destruct v as [|x|a]; cbn; intros H; try (injection H as <-; apply repeat_length).
  destruct (Nat.eqb_spec (length a) n); [now injection H as <-|]. destruct a as [|x [|]]; try discriminate. injection H as <-. apply repeat_length.
Qed.
Lemma fill_arr n a : length a = n -> fill n (TArr a) = Done a.
Proof. intros H. cbn. now rewrite (proj2 (Nat.eqb_eq _ _) H). Qed.
Lemma nth_repeat {A} (x d : A) n k : k < n -> nth k (repeat x n) d = x.
Proof. revert k. induction n as [|n IH]; intros k Hk; [lia|]. destruct k; [reflexivity|]. cbn. apply IH. lia. Qed.
Lemma nth_skip {A} (l : list A) i k d : nth k (skipn i l) d = nth (i + k) l d.
Proof. revert l. induction i as [|i IH]; intros l; [reflexivity|]. destruct l; cbn; [now destruct k|apply IH]. Qed.
Lemma nth_first {A} (l : list A) n k d : k < n -> nth k (firstn n l) d = nth k l d.
Proof. revert l k. induction n as [|n IH]; intros l k H; [lia|]. destruct l; [reflexivity|]. destruct k; [reflexivity|]. cbn. apply IH. lia. Qed.
(** a fixed value, or one per state *)
Definition old_value (v : tval) (s : nat) : option R := match v with TNone => None | TNum x => x | TArr l => nth s l None end.
Definition fits (n : nat) (v : tval) : Prop := match v with TNone => False | TNum _ => True | TArr l => length l = n end.
Lemma fill_fits n v : fits n v -> exists x, fill n v = Done x /\ length x = n /\ forall k, k < n -> nth k x None = old_value v k.
Proof.
  destruct v as [|x|l]; cbn [fits]; intros H; [contradiction| |].
  - exists (repeat x n). split; [reflexivity|]. split; [apply repeat_length|]. intros k Hk. now apply nth_repeat.
  - exists l. split; [now apply fill_arr|]. auto.
Qed.
Lemma load_position_fits n data v : length data = n -> fits n v -> exists l, load_position n data v = Done (TArr l) /\ length l = n /\
  forall k, k < n -> nth k l None = overlay (nth k data None) (old_value v k).
Proof.
  intros Hn Hv. destruct (fill_fits n v Hv) as (x & E & Lx & Nx). exists (where_nan data x). split.
  - destruct v as [|y|l]; cbn [fits] in Hv; [contradiction|..]; cbn [load_position].
    + now rewrite E.
    + rewrite (proj2 (Nat.eqb_eq (length l) (length data))) by congruence. rewrite fill_arr in E by exact Hv. now injection E as <-.
  - split; [rewrite where_len; congruence|]. intros k Hk. rewrite where_nth by congruence. now rewrite Nx.
Qed.
Lemma init_slice i0 n N l : length l = N -> i0 + n <= N -> exists x, init_position i0 n (TArr l) = Done x /\ length x = n /\ forall k, k < n -> nth k x None = nth (i0 + k) l None.
Proof.
  intros HN H. exists (firstn n (skipn i0 l)). assert (L : length (firstn n (skipn i0 l)) = n) by (rewrite firstn_length, skipn_length; lia).
  split; [cbn [init_position]; now apply fill_arr|]. split; [exact L|]. intros k Hk. rewrite nth_first by exact Hk. apply nth_skip.
Qed.
Lemma load_value_fits n data v : length data = n -> fits n v -> exists l, load_value n data v = Done (TArr l) /\ length l = n /\
  forall k, k < n -> nth k l None = overlay (nth k data None) (old_value v k).
Proof.
  intros Hn Hv. destruct (fill_fits n v Hv) as (x & E & Lx & Nx). exists (where_nan data x). unfold load_value. rewrite E. split; [reflexivity|].
  split; [rewrite where_len; congruence|]. intros k Hk. rewrite where_nth by congruence. now rewrite Nx.
Qed.
Lemma where_none data x : length x = length data -> (forall k, nth k x None = None) -> where_nan data x = data.
Proof.
  revert x. induction data as [|d data IH]; intros [|y x] H Hx; cbn in *; try discriminate; [reflexivity|].
  f_equal; [destruct d; [reflexivity|exact (Hx 0)]|]. apply IH; [lia|]. intros k. exact (Hx (S k)).
Qed.
Lemma where_repeat data : where_nan data (repeat None (length data)) = data.
Proof. apply where_none; [apply repeat_length|]. intros k. destruct (Nat.lt_ge_cases k (length data)); [now apply nth_repeat|]. rewrite nth_overflow; [reflexivity|rewrite repeat_length; lia]. Qed.

(** once *)
Lemma iter_shift {A} (f : A -> A) k x : Nat.iter k f (f x) = f (Nat.iter k f x).
Proof. induction k as [|k IH]; [reflexivity|]. change (f (Nat.iter k f (f x)) = f (f (Nat.iter k f x))). now rewrite IH. Qed.
Lemma once_later upd k i0 data done f : In i0 done -> once_calls true upd k i0 data (done, f) = (done, Nat.iter k upd f).
Proof.
  intros H. assert (E : existsb (Nat.eqb i0) done = true) by (apply existsb_exists; exists i0; split; [exact H|apply Nat.eqb_refl]).
  revert f. induction k as [|k IH]; intros f; cbn [once_calls]; [reflexivity|]. unfold once_calc. cbn [fst snd negb orb]. rewrite E. cbn [negb].
  rewrite IH. f_equal. apply iter_shift.
Qed.
Lemma once_first upd k i0 data done f : ~ In i0 done -> once_calls true upd (S k) i0 data (done, f) = (i0 :: done, Nat.iter (S k) upd (where_nan data f)).
Proof.
  intros H. assert (E : existsb (Nat.eqb i0) done = false).
  { destruct (existsb (Nat.eqb i0) done) eqn:E; [|reflexivity]. apply existsb_exists in E as (j & Hj & Hij). apply Nat.eqb_eq in Hij. subst. contradiction. }
  cbn [once_calls]. unfold once_calc. cbn [fst snd negb orb]. rewrite E. cbn [negb]. rewrite once_later by now left. f_equal. apply iter_shift.
Qed.
Lemma once_run_first upd k chunks : forall done, NoDup (map fst chunks) -> (forall i, In i done -> ~ In i (map fst chunks)) ->
  fst (once_run true upd (S k) chunks done) = rev (map fst chunks) ++ done /\
  snd (once_run true upd (S k) chunks done) = map (fun c => Nat.iter (S k) upd (snd c)) chunks.
Proof.
  induction chunks as [|[i0 data] rest IH]; intros done Hn Hd; [split; reflexivity|]. cbn [map fst] in Hn. inversion Hn; subst.
  cbn [once_run]. rewrite once_first by (intros X; apply (Hd i0 X); now left). rewrite where_repeat.
  destruct (IH (i0 :: done)) as [A B]; [assumption| |].
  - intros i [<-|Hi]; [assumption|]. intros X. apply (Hd i Hi). now right.
  - destruct (once_run true upd (S k) rest (i0 :: done)) as [d' fs]. cbn [fst snd] in *. rewrite A, B. cbn [map fst snd rev]. split; [|reflexivity].
    rewrite <- app_assoc. reflexivity.
Qed.
Lemma once_run_later upd k chunks : forall done, (forall i, In i (map fst chunks) -> In i done) ->
  snd (once_run true upd k chunks done) = map (fun c => Nat.iter k upd (repeat None (length (snd c)))) chunks.
Proof.
  induction chunks as [|[i0 data] rest IH]; intros done Hd; [reflexivity|]. cbn [once_run]. rewrite once_later by (apply Hd; now left).
  specialize (IH done (fun i Hi => Hd i (or_intror Hi))). destruct (once_run true upd k rest done) as [d' fs]. cbn [fst snd] in *. now rewrite IH.
Qed.
