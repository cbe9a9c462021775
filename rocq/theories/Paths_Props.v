(** Properties C177-C178: file names and states that read files. *)
From Coq Require Import String.
From Verif Require Import Base Paths_Model Paths_Spec.

Lemma get_path_join p base : get_path p base = join base p.
Proof. unfold get_path, join. destruct (p_abs p) eqn:A; [reflexivity|]. reflexivity. Qed.
Lemma over_last {A} (d : option A) l c :
  match last_given (d :: l) with Some v => Some v | None => c end
  = match last_given l with Some v => Some v | None => match d with Some v => Some v | None => c end end.
Proof. cbn [last_given]. destruct (last_given l); [reflexivity|]. destruct d; reflexivity. Qed.
Lemma dirs_history ds c :
  fold_left set_dirs ds c =
  mkconfig (over (last_given (map d_work ds)) (c_work c)) (over (last_given (map d_input ds)) (c_input c))
           (over (last_given (map d_output ds)) (c_output c)).
Proof.
  revert c; induction ds as [|d r IH]; intros c; [destruct c; reflexivity|].
  cbn [fold_left]. rewrite IH. unfold set_dirs; cbn [c_work c_input c_output]. unfold over. cbn [map].
  f_equal; rewrite over_last; reflexivity.
Qed.

(** C177. Relative input files are looked for in the input directory, relative output files go to
    the output directory (and the directory of the output object within), absolute ones are left
    alone; both directories are the working directory by default. *)
Theorem C177_resolve : forall c p,
  meant (input_dir c) p (get_input_path c p) /\ meant (output_dir c) p (get_output_path c p)
  /\ (c_input c = None -> input_dir c = work_dir c) /\ (c_output c = None -> output_dir c = work_dir c)
  /\ (forall o f, exists d, meant (output_dir c) o d /\ meant d f (get_fpath (out_dir c (Some o)) f))
  /\ (forall f, meant (output_dir c) f (get_fpath (out_dir c None) f)).
Proof.
  assert (J : forall b p, meant b p (join b p)).
  { intros b p. unfold meant, join. destruct (p_abs p); (split; [intros H|intros H]); try discriminate;
      [reflexivity|split; reflexivity]. }
  intros c p. unfold get_input_path, get_output_path, out_dir, get_fpath, input_dir, output_dir. rewrite !get_path_join.
  split; [apply J|]. split; [apply J|].
  split; [intros ->; reflexivity|]. split; [intros ->; reflexivity|]. split.
  - intros o f. exists (join (match c_output c with Some q => q | None => work_dir c end) o).
    split; [apply J|]. unfold get_output_path. rewrite get_path_join. apply J.
  - intros f. apply J.
Qed.
(** The directories are those that were passed last to any run, in this one or before. *)
Theorem C177_history : forall ds,
  let c := fold_left set_dirs ds config0 in
  output_dir c = match last_given (map d_output ds) with
                 | Some p => p
                 | None => match last_given (map d_work ds) with Some p => p | None => here end
                 end
  /\ input_dir c = match last_given (map d_input ds) with
                   | Some p => p
                   | None => match last_given (map d_work ds) with Some p => p | None => here end
                   end.
Proof.
  intros ds. cbv zeta. rewrite dirs_history. unfold output_dir, input_dir, work_dir, over; cbn [c_output c_input c_work config0].
  destruct (last_given (map d_output ds)), (last_given (map d_input ds)), (last_given (map d_work ds)); split; reflexivity.
Qed.
(** So a run without directories does not use the working directory, if an earlier run named one. *)
Theorem C177_sticky_refuted : forall c d p,
  output_dir (set_dirs (set_dirs c (mkdirs (d_work d) (d_input d) (Some p))) (mkdirs None None None)) = p
  /\ (forall w, output_dir (set_dirs (set_dirs c (mkdirs (d_work d) (d_input d) (Some p))) (mkdirs (Some w) None None)) = p).
Proof. intros c d p. split; reflexivity. Qed.
Print Assumptions C177_resolve.
Print Assumptions C177_history.
Print Assumptions C177_sticky_refuted.
Example C177_case :
  let c := set_dirs config0 (mkdirs (Some (mkpath false ["proj"%string])) (Some (mkpath true ["data"%string])) None) in
  get_input_path c (mkpath false ["a.csv"%string]) = mkpath true ["data"; "a.csv"]%string
  /\ get_fpath (out_dir c (Some (mkpath false ["out"%string]))) (mkpath false ["r.nc"%string])
     = mkpath false ["proj"; "out"; "r.nc"]%string
  /\ get_input_path c (mkpath true ["a.csv"%string]) = mkpath true ["a.csv"%string].
Proof. repeat split. Qed.

(** C178. States that read their data from a file can be initialised again and again (each
    calculation finalises them, the next one initialises them anew) and read the same data, if the
    data are in memory, or the file name or the input directory is absolute, or the input
    directory is the current one... *)
Theorem C178_reload_partial : forall (content : Type) file static c (s : source content) d,
  nth_load file static c 0 s = Ok d ->
  (forall p, s = File p -> p_abs p = true \/ stable (input_dir c)) ->
  (forall n r, static n = Some r -> p_abs r = true) ->
  forall n, nth_load file static c n s = Ok d.
Proof.
  intros content file static c s d H A S n. unfold nth_load in *. cbn [loads] in H.
  assert (FIX : fst (load file static c (fst (load file static c s))) = fst (load file static c s)
                /\ snd (load file static c (fst (load file static c s))) = Ok d).
  { destruct s as [x|p]; [split; [reflexivity|exact H]|]. cbn [load] in *.
    assert (ID : forall q, p_abs q = true -> get_input_path c q = q)
      by (intros q Q; unfold get_input_path, get_path; rewrite Q; reflexivity).
    assert (Q : get_input_path c (get_input_path c p) = get_input_path c p).
    { destruct (A p eq_refl) as [P|[P|P]].
      - rewrite (ID p P). apply ID, P.
      - unfold get_input_path. rewrite !get_path_join.
        assert (AB : p_abs (join (input_dir c) p) = true) by (unfold join; destruct (p_abs p) eqn:E; [exact E|exact P]).
        unfold join at 1. rewrite AB. reflexivity.
      - unfold get_input_path. rewrite !get_path_join. unfold join.
        destruct (p_abs p) eqn:E; [rewrite E; reflexivity|]. cbn [p_abs p_parts]. rewrite P. cbn [app].
        destruct (p_abs (input_dir c)); reflexivity. }
    destruct (file (get_input_path c p)) as [x|] eqn:F.
    - cbn [fst snd load] in *. rewrite Q, F. split; [reflexivity|exact H].
    - destruct (static (name_of (get_input_path c p))) as [r|] eqn:T; [|discriminate].
      cbn [fst snd load] in *. rewrite (ID r (S _ _ T)).
      destruct (file r) eqn:FR; [split; [reflexivity|exact H]|discriminate]. }
  destruct FIX as [F1 F2]. set (s1 := fst (load file static c s)) in *.
  assert (L : forall k, loads file static c k s1 = s1).
  { induction k as [|k IH]; [reflexivity|]. cbn [loads]. rewrite F1. exact IH. }
  destruct n as [|n]; [exact H|]. cbn [loads]. fold s1. rewrite L. exact F2.
Qed.
(** ... otherwise each initialisation prepends the input directory once more. *)
Theorem C178_doubled : forall (content : Type) file static c p (d : content),
  p_abs p = false -> p_abs (input_dir c) = false ->
  nth_load file static c 0 (File p) = Ok d -> file (get_input_path c p) = Some d ->
  nth_load file static c 1 (File p)
  = let q := mkpath false (p_parts (input_dir c) ++ p_parts (input_dir c) ++ p_parts p) in
    match file q with
    | Some d' => Ok d'
    | None => match static (last (p_parts p) (last (p_parts (input_dir c)) ""%string)) with
              | None => Err KeyError
              | Some r => match file r with Some d' => Ok d' | None => Err ValueError end
              end
    end.
Proof.
  intros content file static c p d P B H F. unfold nth_load. cbn [loads load]. rewrite F. cbn [fst load].
  assert (E : get_input_path c (get_input_path c p)
              = mkpath false (p_parts (input_dir c) ++ p_parts (input_dir c) ++ p_parts p)).
  { unfold get_input_path. rewrite !get_path_join. unfold join. rewrite P. cbn [p_abs p_parts]. rewrite B. reflexivity. }
  rewrite E. cbv zeta.
  destruct (file (mkpath false (p_parts (input_dir c) ++ p_parts (input_dir c) ++ p_parts p))); [reflexivity|].
  assert (N : name_of (mkpath false (p_parts (input_dir c) ++ p_parts (input_dir c) ++ p_parts p))
              = last (p_parts p) (last (p_parts (input_dir c)) ""%string)).
  { unfold name_of. cbn [p_parts]. generalize (p_parts (input_dir c)) (p_parts p). intros b x.
    assert (LA : forall (u v : list string) z, last (u ++ v) z = last v (last u z)).
    { intros u v z. induction v as [|y v IH] using rev_ind; [rewrite app_nil_r; reflexivity|].
      rewrite app_assoc, !last_last. reflexivity. }
    rewrite !LA. f_equal.
    induction b as [|y b IH] using rev_ind; [reflexivity|]. rewrite !last_last. reflexivity. }
  rewrite N. destruct (static _); [|reflexivity]. destruct (file p0); reflexivity.
Qed.
(** So a file that the first calculation reads is lost for the second, or replaced by another. *)
Theorem C178_refuted : exists (file : path -> option nat) c p d,
  (forall static, nth_load file static c 0 (File p) = Ok d)
  /\ nth_load file (fun _ => None) c 1 (File p) = Err KeyError
  /\ exists static d', nth_load file static c 1 (File p) = Ok d' /\ d' <> d.
Proof.
  exists (fun q => match p_abs q, p_parts q with
                   | false, ["case"%string; "states.csv"%string] => Some 1
                   | true, _ => Some 2 | _, _ => None end).
  exists (mkconfig None (Some (mkpath false ["case"%string])) None), (mkpath false ["states.csv"%string]), 1.
  split; [reflexivity|]. split; [reflexivity|].
  exists (fun _ => Some (mkpath true ["foxes"; "states.csv"]%string)), 2. split; [reflexivity|discriminate].
Qed.
Print Assumptions C178_reload_partial.
Print Assumptions C178_doubled.
Print Assumptions C178_refuted.
Example C178_case : let c := mkconfig None None None in
  stable (input_dir c) /\
  nth_load (fun q => match p_parts q with [_] => Some 1 | _ => None end) (fun _ => None) c 5
    (File (mkpath false ["states.csv"%string])) = Ok 1.
Proof. split; [right; reflexivity|reflexivity]. Qed.
