(** Model of file names: /repo/foxes/config/config.py:60-114, 139-207 (directories and relative
    paths), /repo/foxes/input/yaml/dict.py:77-84 (directories passed to run_dict),
    /repo/foxes/output/output.py:25-64 (output files), and of states that read a file:
    /repo/foxes/input/states/states_table.py:213-231; multi_height.py:199-216 and 607-623 have
    the same code. Paths are pathlib paths without "..": a flag for absolute paths and the list
    of parts ("." has none). *)
From Coq Require Import String.
From Verif Require Import Base.

(** pathlib.Path *)
Record path := mkpath { p_abs : bool; p_parts : list string }.
(** Path(".") *)
Definition here : path := mkpath false [].
(** base / pth of pathlib: an absolute second path replaces the first *)
Definition join (base p : path) : path :=
  if p_abs p then p else mkpath (p_abs base) (p_parts base ++ p_parts p).
(** the global config, config.py:16-28; None is the default of the input and output directory *)
Record config := mkconfig { c_work : option path; c_input : option path; c_output : option path }.
(** config.py:16-28 *)
Definition config0 : config := mkconfig (Some here) None None.
(** config.py:60-76 *)
Definition work_dir (c : config) : path := match c_work c with Some p => p | None => here end.
(** config.py:78-95 *)
Definition input_dir (c : config) : path := match c_input c with Some p => p | None => work_dir c end.
(** config.py:97-114 *)
Definition output_dir (c : config) : path := match c_output c with Some p => p | None => work_dir c end.
(** config.py:139-163 *)
Definition get_path (p base : path) : path := if p_abs p then p else join base p.
(** config.py:166-185 *)
Definition get_input_path (c : config) (p : path) : path := get_path p (input_dir c).
(** config.py:188-207 *)
Definition get_output_path (c : config) (p : path) : path := get_path p (output_dir c).

(** the directories passed to one call of run_dict: work_dir, input_dir, output_dir *)
Record dirs := mkdirs { d_work : option path; d_input : option path; d_output : option path }.
(** assignment if the value is not None *)
Definition over (new old : option path) : option path := match new with Some p => Some p | None => old end.
(** dict.py:77-84: the global config is changed and stays changed *)
Definition set_dirs (c : config) (d : dirs) : config :=
  mkconfig (over (d_work d) (c_work c)) (over (d_input d) (c_input c)) (over (d_output d) (c_output c)).

(** output.py:37-39: the directory of an output object, fixed at its construction *)
Definition out_dir (c : config) (arg : option path) : path :=
  match arg with Some p => get_output_path c p | None => output_dir c end.
(** output.py:46-64 without out_fname_fun *)
Definition get_fpath (dir : path) (fname : path) : path := join dir fname.

Section Load.
Context {content : Type}.
(** the files on disk; StaticData files by name *)
Variable file : path -> option content.
Variable static : string -> option path.
(** the last part of a path, Path.name *)
Definition name_of (p : path) : string := last (p_parts p) ""%string.
(** the data source of states: a table in memory or a file *)
Inductive source := Frame (d : content) | File (p : path).
(** states_table.py:213-231 (load_data): the source is overwritten by the resolved path *)
Definition load (c : config) (s : source) : source * result content :=
  match s with
  | Frame d => (s, Ok d)
  | File p =>
      let q := get_input_path c p in
      match file q with
      | Some d => (File q, Ok d)
      | None => match static (name_of q) with
                | None => (File q, Err KeyError)
                | Some r => (File r, match file r with Some d => Ok d | None => Err ValueError end)
                end
      end
  end.
(** the source after n loads, and the result of the next one: initialising, finalising and
    initialising again (core/model.py:127-158, 257-285) *)
Fixpoint loads (c : config) (n : nat) (s : source) : source :=
  match n with 0 => s | S k => loads c k (fst (load c s)) end.
(** the data read by the (n+1)-th initialisation *)
Definition nth_load (c : config) (n : nat) (s : source) : result content := snd (load c (loads c n s)).
End Load.
Arguments source content : clear implicits.
