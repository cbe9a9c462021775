(** Layout files: foxes/input/farm_layout/from_file.py:8-54. Paths are texts: the directory part (empty or with a trailing slash) and the last part. *)
From Coq Require Import String Ascii.
From Verif Require Import Base DBook_Model.
Open Scope string_scope.

(** the argument file_path: a text or a pathlib.Path *)
Inductive farg := AStr (d n : string) | APath (d n : string).
(** Path(file_path).name *)
Definition fname (a : farg) : string := match a with AStr _ n => n | APath _ n => n end.
(** the text from the last dot on *)
Fixpoint last_dot (n : string) : option string :=
  match n with
  | EmptyString => None
  | String c r => match last_dot r with Some s => Some s | None => if Ascii.eqb c "." then Some n else None end
  end.
(** pathlib.PurePath.suffix: the name from its last dot on, if that is neither the first nor the last character; used at from_file.py:42, 45 *)
Definition psuffix (n : string) : string :=
  match n with
  | EmptyString => ""
  | String _ r => match last_dot r with Some s => if String.eqb s "." then "" else s | None => "" end
  end.
(** the reader that is called, with its verbosity *)
Inductive reader := ReadJson (verbosity : nat) | ReadCsv (verbosity : nat).
(** len(file_path) > k and file_path[-k:] == s, from_file.py:46-48; a pathlib.Path has no len *)
Definition text_ends (a : farg) (s : string) : result bool :=
  match a with AStr d n => Ok (has_sfx (d ++ n) s) | APath _ _ => Err TypeError end.
(** the chain of conditions, from_file.py:44-49: the later ones are only evaluated if the earlier ones are false *)
Definition is_csv (fpath_name : string) (a : farg) : result bool :=
  if String.eqb (psuffix fpath_name) ".csv" then Ok true
  else do b <- text_ends a ".csv.gz"; if b then Ok true
  else do b <- text_ends a ".csv.bz2"; if b then Ok true
  else text_ends a ".csv.zip".
(** add_from_file, from_file.py:34-54. [found]: get_input_path(file_path).is_file(); [book]: dbook.get_file_path(FARM, name, check_raw=False), a pathlib.Path (directory and name), or an error. add_from_json is called without
    the verbosity, its default is 1 (from_json.py:10). The result: which reader is called on which file. *)
Definition add_from_file (found : bool) (book : string -> result (string * string)) (a : farg) (verbosity : nat) : result (reader * farg) :=
  do a' <- (if found then Ok a else do p <- book (fname a); Ok (APath (fst p) (snd p)));
  if String.eqb (psuffix (fname a)) ".json" then Ok (ReadJson 1, a')
  else do b <- is_csv (fname a) a'; if b then Ok (ReadCsv verbosity, a') else Err KeyError.
