(** utils/data_book.py: file paths by context and file name. The file system is constant; paths are texts. *)
From Coq Require Import String Ascii.
From Verif Require Import Base.
Open Scope string_scope.

Section DB.
  (** Path(f).is_file(), Path(f).name *)
  Variable is_file : string -> bool.
  Variable base_name : string -> string.

  (** the data base, utils/data_book.py:36: context -> file name -> path *)
  Definition book := list (string * list (string * string)).
  (** dict lookup *)
  Fixpoint dget {A} (k : string) (d : list (string * A)) : option A :=
    match d with [] => None | (j, a) :: r => if String.eqb k j then Some a else dget k r end.
  (** dict assignment *)
  Fixpoint dset {A} (k : string) (a : A) (d : list (string * A)) : list (string * A) :=
    match d with [] => [(k, a)] | (j, b) :: r => if String.eqb k j then (k, a) :: r else (j, b) :: dset k a r end.
  (** `if context not in self.dbase: self.dbase[context] = {}`, utils/data_book.py:56-57, 97-98, 121-122 *)
  Definition with_context (c : string) (b : book) : book := match dget c b with Some _ => b | None => dset c [] b end.
  (** self.dbase[context][name] = path, utils/data_book.py:77, 102, 130 *)
  Definition store (c n p : string) (b : book) : book :=
    match dget c b with Some d => dset c (dset n p d) b | None => b end.
  (** a python call on the book that raises or not *)
  (** add_files, utils/data_book.py:121-130: the loop stops at the first path that is no file *)
  Fixpoint add_loop (c : string) (ps : list string) (b : book) : book * bool :=
    match ps with
    | [] => (b, true)
    | p :: r => if is_file p then add_loop c r (store c (base_name p) p b) else (b, false)
    end.
  (** utils/data_book.py:108-130 *)
  Definition add_files (c : string) (ps : list string) (b : book) : book * bool := add_loop c ps (with_context c b).
  (** check_f, utils/data_book.py:69-71; f[-0:] is f *)
  Definition has_sfx (f s : string) : bool :=
    Nat.ltb (String.length s) (String.length f) &&
    String.eqb (if Nat.eqb (String.length s) 0 then f else substring (String.length f - String.length s) (String.length s) f) s.
  (** add_data_package, utils/data_book.py:42-77; [contents]: the files of the package with their paths *)
  Definition add_package (c : string) (contents : list (string * string)) (sfx : list string) (b : book) : book * bool :=
    (fold_left (fun b f => store c (fst f) (snd f) b) (filter (fun f => existsb (has_sfx (fst f)) sfx) contents) (with_context c b), true).
  (** add_data_package_file, utils/data_book.py:83-106; [path]: None if the package has no such file *)
  Definition add_package_file (c n : string) (path : option string) (b : book) : book * bool :=
    match path with Some p => (store c n p (with_context c b), true) | None => (with_context c b, false) end.
  (** get_file_path, utils/data_book.py:146-193: the inner None is python's None *)
  Definition get_file_path (b : book) (c n : string) (check_raw errors : bool) : result (option string) :=
    if check_raw && is_file n then Ok (Some n)
    else match dget c b with
         | None => if errors then Err KeyError else Ok None
         | Some d => match dget n d with Some p => Ok (Some p) | None => if errors then Err KeyError else Ok None end
         end.
  (** toc, utils/data_book.py:195-210; the order (sorted) is not modelled *)
  Definition toc (b : book) (c : string) : result (list string) := match dget c b with Some d => Ok (map fst d) | None => Err KeyError end.

  (** the calls of a history *)
  Inductive call := AddFiles (c : string) (ps : list string) | AddPackage (c : string) (contents : list (string * string)) (sfx : list string) | AddPackageFile (c n : string) (path : option string).
  (** one call, utils/data_book.py:42-144 *)
  Definition run_call (b : book) (k : call) : book :=
    fst (match k with AddFiles c ps => add_files c ps b | AddPackage c ct s => add_package c ct s b | AddPackageFile c n p => add_package_file c n p b end).
  (** the book after a history of calls whose exceptions are caught, starting from DataBook() *)
  Definition after (h : list call) : book := fold_left run_call h [].
  (** the argument of the constructor: a data book as documented, or its dictionary; utils/data_book.py:26-40, DataBook has no method items *)
  Inductive source := FromBook (b : book) | FromDict (b : book).
  (** utils/data_book.py:36-40 *)
  Definition construct (s : source) : result book := match s with FromBook _ => Err AttributeError | FromDict b => Ok (fold_left (fun d p => dset (fst p) (snd p) d) b []) end.
End DB.
