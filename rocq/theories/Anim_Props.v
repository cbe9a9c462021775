(** Theorems about animations. *)
From Coq Require Import List Arith Lia.
From Verif Require Import Base Anim_Model Anim_Spec Anim_Proofs.
Import ListNotations.

(** C236: if all generators draw into one figure, the animation has the pictures up to the first one without artists; every generator was advanced once more *)
Theorem C236_pictures {A} f self (gs : list (gen A)) m : gs <> [] -> same_figure f gs -> (self = None \/ self = Some f) -> (exists g, In g gs /\ g <> []) ->
  (forall i, i < m -> picture gs i <> []) -> picture gs m = [] ->
  exists s, animate self gs = Ok (Some (f, map (picture gs) (seq 0 m)), s, map (skipn (S m)) gs).
Proof.
  intros G SF Hs (g0 & I0 & N0) Hne He. unfold animate. destruct gs as [|g1 gr]; [contradiction|].
  assert (M : m <= list_max (map (@length _) (g1 :: gr))).
  { apply Nat.nlt_ge. intros C. specialize (Hne (duration (g1 :: gr)) C). apply Hne. now apply picture_end. }
  destruct (loop_good f m (g1 :: gr) (S (list_max (map (@length _) (g1 :: gr)))) self None SF Hs (or_introl eq_refl) ltac:(lia) Hne He) as (s & l & E & H1 & H2). rewrite E.
  destruct H1 as [-> | ->]; [|now exists s]. exfalso. apply N0. now apply (proj2 (proj1 H2 eq_refl)).
Qed.
(** C236: if every yield brings at least one artist, the animation is as long as the longest generator *)
Theorem C236_complete {A} f self (gs : list (gen A)) : same_figure f gs -> (self = None \/ self = Some f) -> (exists g, In g gs /\ g <> []) ->
  (forall g f' a, In g gs -> In (Pair f' a) g -> a <> []) -> exists s r, animate self gs = Ok (Some (f, map (picture gs) (seq 0 (duration gs))), s, r).
Proof.
  intros SF Hs N Ha. assert (G : gs <> []) by (destruct N as (g & I & _); intros ->; contradiction).
  destruct (C236_pictures f self gs (duration gs) G SF Hs N) as (s & E); [|now apply picture_end|now eauto].
  intros i Hi C. destruct (duration gs) as [|n] eqn:D; [lia|]. destruct (duration_S gs n D) as (g & I & L).
  destruct (nth_error g i) as [y|] eqn:Y; [|apply nth_error_None in Y; lia]. destruct (SF g y I (nth_error_In _ _ Y)) as [a ->]. specialize (Ha g f a I (nth_error_In _ _ Y)).
  apply Ha. unfold picture in C. apply in_split in I. destruct I as (u & v & ->). rewrite flat_map_app in C. apply app_eq_nil in C. destruct C as [_ C]. cbn [flat_map] in C. apply app_eq_nil in C. destruct C as [C _].
  unfold artists_at in C. now rewrite Y in C.
Qed.
(** C236: without generators there is no animation and no error *)
Theorem C236_none {A} self : animate self (@nil (gen A)) = Ok (None, self, []).
Proof. reflexivity. Qed.
(** C236, refuted: a picture without artists ends the animation, later ones are lost *)
Theorem C236_gap_refuted : exists (gs : list (gen nat)), same_figure 0 gs /\ picture gs 2 <> [] /\ exists s r, animate None gs = Ok (Some (0, [[7]]), s, r).
Proof.
  exists [[Pair 0 [7]; Pair 0 []; Pair 0 [8]]]. split; [|split; [discriminate|eexists; eexists; reflexivity]]. intros g y [<-|[]] [<-|[<-|[<-|[]]]]; eexists; reflexivity.
Qed.
(** C236, refuted: generators without yields (in particular used up by a former animation) raise UnboundLocalError *)
Theorem C236_empty_refuted {A} self (gs : list (gen A)) : gs <> [] -> (forall g, In g gs -> g = []) -> animate self gs = Err NameError.
Proof.
  intros G H. unfold animate. destruct gs as [|g1 gr]; [contradiction|].
  assert (SF : forall f, same_figure f (g1 :: gr)) by (intros f g y I J; rewrite (H g I) in J; contradiction).
  assert (P : forall i, picture (g1 :: gr) i = []).
  { intros i. apply picture_end. unfold duration. apply Nat.le_trans with 0; [|lia]. apply list_max_le. apply Forall_forall. intros n I. apply in_map_iff in I. destruct I as (g & <- & I). now rewrite (H g I). }
  set (f := match self with Some f => f | None => 0 end). destruct (loop_good f 0 (g1 :: gr) (S (list_max (map (@length _) (g1 :: gr)))) self None (SF f)) as (s & l & E & H1 & H2); [unfold f; destruct self; auto|auto|lia|lia|apply P|].
  rewrite E. replace l with (@None nat); [reflexivity|]. symmetry. apply H2. split; [reflexivity|exact H].
Qed.
(** C236, refuted: a second call of animate after a complete one fails *)
Theorem C236_again_refuted {A} f self (gs : list (gen A)) s r x : same_figure f gs -> (self = None \/ self = Some f) -> (exists g, In g gs /\ g <> []) ->
  (forall g f' a, In g gs -> In (Pair f' a) g -> a <> []) -> animate self gs = Ok (x, s, r) -> animate s r = Err NameError.
Proof.
  intros SF Hs N Ha E. assert (G : gs <> []) by (destruct N as (g & I & _); intros ->; contradiction).
  assert (M : forall i, i < duration gs -> picture gs i <> []).
  { intros i Hi C. destruct (duration gs) as [|n] eqn:D; [lia|]. destruct (duration_S gs n D) as (g & I & L).
    destruct (nth_error g i) as [y|] eqn:Y; [|apply nth_error_None in Y; lia]. destruct (SF g y I (nth_error_In _ _ Y)) as [a ->]. specialize (Ha g f a I (nth_error_In _ _ Y)).
    apply Ha. unfold picture in C. apply in_split in I. destruct I as (u & v & ->). rewrite flat_map_app in C. apply app_eq_nil in C. destruct C as [_ C]. cbn [flat_map] in C. apply app_eq_nil in C. destruct C as [C _].
    unfold artists_at in C. now rewrite Y in C. }
  destruct (C236_pictures f self gs (duration gs) G SF Hs N M (picture_end gs _ (le_n _))) as (s' & E'). rewrite E in E'. injection E' as -> -> ->.
  apply C236_empty_refuted.
  - destruct gs; [contradiction|discriminate].
  - intros g I. apply in_map_iff in I. destruct I as (g0 & <- & I). change (skipn (S (duration gs)) g0 = []). apply skipn_all2.
    assert (L : length g0 <= duration gs); [|lia]. unfold duration. pose proof (list_max_le (map (@length _) gs) (list_max (map (@length _) gs))) as [Q _]. specialize (Q (le_n _)). rewrite Forall_forall in Q. apply Q. now apply in_map.
Qed.
(** C236: a generator that draws into another figure is an error, not a wrong animation *)
Theorem C236_figure {A} f f' a y (r : list (gen A)) : f <> f' -> animate (Some f) ((Pair f' a :: y) :: r) = Err ValueError.
Proof. intros N. unfold animate. cbn [frames_loop pass]. replace (f' =? f) with false; [reflexivity|]. symmetry. apply Nat.eqb_neq. congruence. Qed.
Print Assumptions C236_pictures.
Print Assumptions C236_complete.
Print Assumptions C236_none.
Print Assumptions C236_gap_refuted.
Print Assumptions C236_empty_refuted.
Print Assumptions C236_again_refuted.
Print Assumptions C236_figure.
Example C236_witness : let gs := [[Pair 3 [1]; Pair 3 [2; 4]]; [Pair 3 [5]; Pair 3 [6]; Pair 3 [7]]] in
  same_figure 3 gs /\ duration gs = 3 /\ exists s r, animate None gs = Ok (Some (3, [[1; 5]; [2; 4; 6]; [7]]), s, r) /\ animate s r = Err NameError.
Proof.
  cbv zeta. split; [|split; [reflexivity|]].
  - intros g y [<-|[<-|[]]] I; cbn in I; repeat (destruct I as [<-|I]; [eauto|]); contradiction.
  - eexists. eexists. split; reflexivity.
Qed.

(** C237: pictures of a sequential run in the xy orientation: one per state, in order, and with the title function's title of the last state *)
Theorem C237_data {D} tfun t0 (l : list D) : exists p, gen_images XY (run tfun t0 l) = Ok p /\ map snd p = l.
Proof.
  eexists. split; [reflexivity|]. rewrite map_map. cbn [snd]. rewrite map_id. unfold run. rewrite fold_stored. cbn [stored app]. apply map_snd_combine.
Qed.
(** C237: a fixed title (or none) is that of all pictures *)
Theorem C237_fixed_title {D} t0 (l : list D) p : gen_images XY (run None t0 l) = Ok p -> forall q, In q p -> fst q = t0.
Proof.
  intros E q I. cbn in E. injection E as <-. apply in_map_iff in I. destruct I as (d & <- & _). cbn [fst]. unfold run. generalize (combine (seq 0 (length l)) l). intros c.
  assert (G : forall p0 : plugin D, title (fold_left (update None) c p0) = title p0) by (induction c as [|x r IH]; intros p0; [reflexivity|cbn [fold_left]; now rewrite IH]). apply G.
Qed.
(** C237, refuted: with a title function every picture has the title of the last state *)
Theorem C237_title_refuted {D} f t0 (l : list D) x p : gen_images XY (run (Some f) t0 (l ++ [x])) = Ok p -> forall q, In q p -> fst q = Some (f (length l)).
Proof.
  intros E q I. cbn in E. injection E as <-. apply in_map_iff in I. destruct I as (d & <- & _). cbn [fst]. unfold run. rewrite combine_last, fold_title. reflexivity.
Qed.
(** C237, refuted: the other orientations have no pictures *)
Theorem C237_orientation_refuted {D} tfun t0 (l : list D) o : o <> XY -> l <> [] -> gen_images o (run tfun t0 l) = Err TypeError.
Proof.
  intros O N. unfold gen_images. unfold run. rewrite fold_stored, map_snd_combine. cbn [stored app]. destruct o; [contradiction| |]; destruct l; try reflexivity; contradiction.
Qed.
Print Assumptions C237_data.
Print Assumptions C237_fixed_title.
Print Assumptions C237_title_refuted.
Print Assumptions C237_orientation_refuted.
Example C237_witness : gen_images XY (run (Some (fun n => 100 + n)) None [true; false; true]) = Ok [(Some 102, true); (Some 102, false); (Some 102, true)] /\
  gen_images XZ (run (Some (fun n => 100 + n)) None [true; false; true]) = Err TypeError.
Proof. split; reflexivity. Qed.
