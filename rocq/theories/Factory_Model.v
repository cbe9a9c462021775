(** Name templates, factories and factory dictionaries (foxes/utils/factory.py). Strings are lists of characters. *)
From Coq Require Export Ascii String.
From Verif Require Export Base.
Local Open Scope list_scope.

(** python strings as character lists, used throughout utils/factory.py:35-596 *)
Definition str := list ascii.
(** string literals of utils/factory.py:35-596 *)
Definition lit (s : string) : str := list_ascii_of_string s.
(** character equality, utils/factory.py:35-596 *)
Definition aeq : ascii -> ascii -> bool := Ascii.eqb.
(** string equality, utils/factory.py:35-596 *)
Fixpoint seqb (a b : str) : bool :=
  match a, b with [], [] => true | x :: a', y :: b' => aeq x y && seqb a' b' | _, _ => false end.

(** str.startswith -- utils/factory.py:255-316 *)
Fixpoint prefixb (p s : str) : bool :=
  match p, s with [], _ => true | a :: p', b :: s' => aeq a b && prefixb p' s' | _ :: _, [] => false end.
(** str.find, None for -1 *)
Fixpoint find (p s : str) : option nat :=
  if prefixb p s then Some 0 else match s with [] => None | _ :: s' => option_map S (find p s') end.
(** str.split with a one character separator -- utils/factory.py:38-154 *)
Fixpoint split (c : ascii) (s : str) : list str :=
  match s with
  | [] => [[]]
  | a :: s' => if aeq a c then [] :: split c s' else match split c s' with [] => [[a]] | w :: ws => (a :: w) :: ws end
  end.

(** Factory.__init__, factory.py:82-100: the loop over the parts of the template; [first]: i = 0. Returns (_pre, _vars). *)
Fixpoint parse_parts (first : bool) (parts : list str) : result (list str * list str) :=
  match parts with
  | [] => Ok ([], [])
  | [p] => Ok ([p], [])
  | p :: parts' =>
      match split "<"%char p with
      | [q; v] =>
          if negb first && (match q with [] => true | _ => false end) then Err ValueError
          else do r <- parse_parts false parts'; Ok (q :: fst r, v :: snd r)
      | _ => Err ValueError
      end
  end.
(** 102-108: with more than one variable, text is required before each but the last *)
Definition indicators_ok (pre vars : list str) : bool :=
  match vars with
  | _ :: _ :: _ => forallb (fun p => match p with [] => false | _ => true end) (firstn (List.length vars - 1) pre)
  | _ => true
  end.
(** utils/factory.py:38-154 *)
Definition parse_template (t : str) : result (list str * list str) :=
  do r <- parse_parts true (split ">"%char t);
  if indicators_ok (fst r) (snd r) then Ok r else Err ValueError.

(** check_match without ret_pars, 278-297; [rest] is name[j:], None: no match, otherwise wlist *)
Fixpoint match_pre (first : bool) (pre : list str) (rest : str) : option (list str) :=
  match pre with
  | [] => Some []
  | p :: pre' =>
      match p with
      | [] =>
          match match_pre false pre' rest with
          | None => None
          | Some ws => Some (if first then ws else rest :: ws)
          end
      | _ =>
          match find p rest with
          | None => None
          | Some i =>
              if first && (0 <? i) then None
              else match match_pre false pre' (skipn (i + List.length p) rest) with
                   | None => None
                   | Some ws => Some (if first then ws else firstn i rest :: ws)
                   end
          end
      end
  end.

(** values of constructor arguments (utils/factory.py:300-334): strings, decimal numbers m / 10^e, quotients m / 10^e / d of them, booleans *)
Inductive value := VStr (s : str) | VDec (m : Z) (e : nat) | VQuot (m : Z) (e : nat) (d : Z) | VBool (b : bool).
(** python dicts of utils/factory.py:35-596, in insertion order *)
Definition dict (A : Type) := list (str * A).
(** dict lookup in utils/factory.py:182-334 *)
Fixpoint dget {A} (d : dict A) (k : str) : option A :=
  match d with [] => None | (k', a) :: d' => if seqb k' k then Some a else dget d' k end.
(** dict assignment -- utils/factory.py:182-334 *)
Fixpoint dput {A} (d : dict A) (k : str) (a : A) : dict A :=
  match d with [] => [(k, a)] | (k', b) :: d' => if seqb k' k then (k, a) :: d' else (k', b) :: dput d' k a end.
(** dict.update, utils/factory.py:182-334 *)
Definition dupdate {A} (d u : dict A) : dict A := fold_left (fun d ka => dput d (fst ka) (snd ka)) u d.
(** Dict.__getitem__, dict.py:124-130 *)
Definition ditem {A} (d : dict A) (k : str) : result A := match dget d k with Some a => Ok a | None => Err KeyError end.

(** options of a variable, 110-130: a table or a function *)
Inductive opt := ODict (d : dict value) | OFun (f : str -> result value).
(** [ctor]: the base class called with the keyword arguments; only success or the kind of exception matters -- attributes set in utils/factory.py:35-154 *)
Record factory := { pre : list str; vars : list str; options : dict opt; var2arg : dict str; fixed : dict value;
                    ctor : dict value -> result unit }.
(** check_match, 278-297 *)
Definition check_match (f : factory) (name : str) : bool :=
  match match_pre true (pre f) name with Some _ => true | None => false end.
(** utils/factory.py:255-316: var2arg.get(v, v) *)
Definition arg_name (f : factory) (v : str) : str := match dget (var2arg f) v with Some w => w | None => v end.
(** 303-311 *)
Definition convert (f : factory) (v data : str) : result value :=
  match dget (options f) v with
  | Some (OFun g) => g data
  | Some (ODict d) => ditem d data
  | None => Ok (VStr data)
  end.
(** 300-311; wlist[vi] raises IndexError beyond the end *)
Fixpoint collect (f : factory) (vs : list str) (ws : list str) (kw : dict value) : result (dict value) :=
  match vs, ws with
  | [], _ => Ok kw
  | _ :: _, [] => Err IndexError
  | v :: vs', w :: ws' => do x <- convert f v w; collect f vs' ws' (dput kw (arg_name f v) x)
  end.
(** check_match(error=True, ret_pars=True), 278-314 *)
Definition match_pars (f : factory) (name : str) : result (dict value) :=
  match match_pre true (pre f) name with
  | None => Err ValueError
  | Some ws => do kw <- collect f (vars f) ws []; Ok (dupdate kw (fixed f))
  end.
(** construct, 318-334: the keyword arguments the base class is called with *)
Definition construct (f : factory) (name : str) : result (dict value) :=
  do kw <- match_pars f name; do _ <- ctor f kw; Ok kw.

(** name_prefix, name_suffix, 156-180 *)
Definition name_prefix (f : factory) : str := hd [] (pre f).
(** utils/factory.py:169-180 *)
Definition name_suffix (f : factory) : str := last (pre f) [].

(** FDict. Objects are numbered by creation; [made] holds the factory position at the time and the arguments of created
    objects. -- utils/factory.py:535-566 *)
Record fdict := { items : dict nat; facs : list factory; next : nat; store : bool }.
(** add_factory, 568-596: position of the smallest index with same prefix and suffix and fewer variables, else the end *)
Definition goes_before (f g : factory) : bool :=
  seqb (name_prefix g) (name_prefix f) && seqb (name_suffix g) (name_suffix f) && (List.length (vars g) <? List.length (vars f)).
(** utils/factory.py:568-596 *)
Fixpoint insert_factory (f : factory) (l : list factory) : list factory :=
  match l with
  | [] => [f]
  | g :: l' => if goes_before f g then f :: g :: l' else g :: insert_factory f l'
  end.
(** utils/factory.py:568-596 *)
Definition add_factory (d : fdict) (f : factory) : fdict :=
  {| items := items d; facs := insert_factory f (facs d); next := next d; store := store d |}.
(** dict assignment by the user of a new object -- inherited dict.__setitem__ of utils/factory.py:535 *)
Definition set_item (d : fdict) (k : str) : fdict :=
  {| items := dput (items d) k (next d); facs := facs d; next := S (next d); store := store d |}.
(** __contains__, 613-619 *)
Definition contains (d : fdict) (k : str) : bool :=
  match dget (items d) k with Some _ => true | None => existsb (fun f => check_match f k) (facs d) end.
(** the loop 654-661: the first factory not raising ValueError decides *)
Fixpoint first_construct (l : list factory) (k : str) : result (factory * dict value) :=
  match l with
  | [] => Err KeyError
  | f :: l' => match construct f k with
               | Ok kw => Ok (f, kw)
               | Err ValueError => first_construct l' k
               | Err e => Err e
               end
  end.
(** __getitem__, 650-664 *)
Definition getitem (d : fdict) (k : str) : fdict * result nat :=
  match dget (items d) k with
  | Some o => (d, Ok o)
  | None =>
      match first_construct (facs d) k with
      | Err e => (d, Err e)
      | Ok _ =>
          ({| items := if store d then dput (items d) k (next d) else items d; facs := facs d; next := S (next d); store := store d |},
           Ok (next d))
      end
  end.

(** Numbers in names: float(f"0.{x[1:]}" if x[0] == "0" else float(x)), e.g. 407. python's float is modelled on plain
    digits with at most one dot; signs, exponents, blanks, underscores, inf and nan count as ValueError here. *)
Definition digit (c : ascii) : option Z :=
  let n := Z.of_nat (nat_of_ascii c) in if ((48 <=? n) && (n <=? 57))%Z then Some (n - 48)%Z else None.
(** digits of a number in a name, utils/factory.py:407 *)
Fixpoint digits (acc : Z) (s : str) : option Z :=
  match s with [] => Some acc | c :: s' => match digit c with None => None | Some d => digits (10 * acc + d)%Z s' end end.
(** utils/factory.py:407: float(...) *)
Definition pyfloat (s : str) : result value :=
  match split "."%char s with
  | [a] => match a, digits 0 a with [], _ => Err ValueError | _, Some m => Ok (VDec m 0) | _, None => Err ValueError end
  | [a; b] => match a ++ b, digits 0 (a ++ b) with
              | [], _ => Err ValueError | _, Some m => Ok (VDec m (List.length b)) | _, None => Err ValueError end
  | _ => Err ValueError
  end.
(** utils/factory.py:407 *)
Definition knum (x : str) : result value :=
  match x with
  | [] => Err IndexError
  | c :: r => if aeq c "0"%char then pyfloat (lit "0." ++ r) else pyfloat x
  end.

(** WakeKFactory, 351-516, for a template without text after [wake_k]: [p] is the list of texts and [vs] the variables of
    the part before (p has one more entry); [os] their options, [kw] fixed arguments. The six factories in order. *)
Definition app_last (p : list str) (s : str) : list str := removelast p ++ [last p [] ++ s].
(** utils/factory.py:351-516: one of the factories of WakeKFactory *)
Definition kfac (p vs : list str) (os : dict opt) (kw : dict value) (c : dict value -> result unit)
    (ti : str) (parts : list (str * str)) (v2a : dict str) : factory :=
  {| pre := match parts with
            | [] => p
            | (s, _) :: more => app_last p s ++ map fst more ++ [[]]
            end;
     vars := vs ++ map snd parts;
     options := os ++ map (fun sv => (snd sv, OFun knum)) parts;
     var2arg := v2a;
     fixed := dput kw (lit "ti_var") (VStr ti);
     ctor := c |}.
(** utils/factory.py:351-516: all factories of WakeKFactory *)
Definition wakek_factories (p vs : list str) (os : dict opt) (kw : dict value) (c : dict value -> result unit) : list factory :=
  let TI := lit "TI" in let AMB_TI := lit "AMB_TI" in
  let amb := [(lit "ambka", lit "ka")] in
  [ kfac p vs os kw c TI [(lit "_ka", lit "ka"); (lit "_kb", lit "kb")] [];
    kfac p vs os kw c AMB_TI [(lit "_ambka", lit "ambka"); (lit "_kb", lit "kb")] amb;
    kfac p vs os kw c TI [(lit "_ka", lit "ka")] [];
    kfac p vs os kw c AMB_TI [(lit "_ambka", lit "ambka")] amb;
    kfac p vs os kw c TI [(lit "_k", lit "k")] [];
    kfac p vs os kw c TI [] [] ].
(** add_k_factory, 598-611 *)
Definition add_k_factory (d : fdict) (fs : list factory) : fdict := fold_left add_factory fs d.
