(** Model of running foxes from a parameter dictionary: /repo/foxes/input/yaml/dict.py:14-176
    (read_dict), 342-441 (run_outputs, the loop over the outputs), 444-514 (run_dict).
    The dictionary is a foxes.utils.Dict as made by Dict.from_yaml, so its nested sections are the
    very objects that pop_item changes (/repo/foxes/utils/dict.py:59-122).
    Everything that runs outside of these functions (creating states, farms, engines and
    algorithms, farm and point calculations, output functions) is an event, whose success is
    decided by an arbitrary environment that sees the whole history.
    Simplifications: printing, the verbosity parameters and the directories (see Paths_Model) are
    left out; creating a wind farm and adding its layouts is one event. *)
From Coq Require Import String.
From Verif Require Import Base.

(** the parameters of one section: names and values (python dict), values are opaque numbers;
    dict.py:14-26 *)
Definition pars := list (string * nat).

(** utils/dict.py, dict.update: replace the value of a known key, append an unknown one *)
Fixpoint put (k : string) (v : nat) (p : pars) : pars :=
  match p with
  | [] => [(k, v)]
  | (k', v') :: q => if String.eqb k k' then (k, v) :: q else (k', v') :: put k v q
  end.
(** python dict.update, dict.py:167, 171 *)
Definition update (p u : pars) : pars := fold_left (fun a kv => put (fst kv) (snd kv) a) u p.
(** dictionary lookup *)
Fixpoint look (k : string) (p : pars) : option nat :=
  match p with
  | [] => None
  | (k', v) :: q => if String.eqb k k' then Some v else look k q
  end.

(** dict.py:130-134: section wind_farm, with its list of layouts *)
Record fsec := mkfsec { f_layouts : option (list pars); f_args : pars }.
(** dict.py:483-486: section calc_farm, with its run flag *)
Record csec := mkcsec { c_run : option bool; c_args : pars }.
(** dict.py:493-501: section calc_points, with its run flag and points *)
Record psec := mkpsec { q_run : option bool; q_points : option nat; q_args : pars }.
(** dict.py:392-430: one entry of the list of outputs; [o_needs] says that the class takes the
    farm results (dict.py:224-228) *)
Record osec := mkosec { o_id : nat; o_needs : bool }.

(** the parameter dictionary idict of run_dict; a missing section is None *)
Record params := mkparams {
  p_states : option pars;          (* dict.py:94 *)
  p_book : option pars;            (* dict.py:106 *)
  p_farm : option fsec;            (* dict.py:130 *)
  p_engine : option nat;           (* dict.py:154 *)
  p_algo : option pars;            (* dict.py:163 *)
  p_calc : option csec;            (* dict.py:483 *)
  p_points : option psec;          (* dict.py:493 *)
  p_outputs : list osec            (* dict.py:391 *)
}.

(** the arguments of run_dict / read_dict, dict.py:14-26: which objects the caller passes, the
    engine parameters, the request of an iterative algorithm, and further algorithm parameters
    (only those which are not None, dict.py:171) *)
Record given := mkgiven {
  g_farm : bool; g_states : bool; g_book : bool; g_algo : bool;
  g_engine : option nat; g_iter : bool; g_pars : pars
}.

(** the calls made to the rest of foxes, in the order of dict.py:94-512 *)
Inductive event :=
| EvStates (p : pars)                       (* States.new, dict.py:94 *)
| EvBook (p : pars)                         (* adding models, dict.py:108-118 *)
| EvFarm (a : pars) (l : list pars)         (* WindFarm and layouts, dict.py:135-140 *)
| EvStart (e : nat)                         (* Engine.new and initialize, dict.py:151-158 *)
| EvAlgo (p : pars)                         (* Algorithm.new, dict.py:172 *)
| EvCalc (p : pars)                         (* algo.calc_farm, dict.py:486 *)
| EvPoints (pts : nat) (p : pars) (f : bool) (* algo.calc_points, dict.py:501 *)
| EvOut (o : nat) (f q : bool)              (* one output, dict.py:409-436 *)
| EvStop (e : nat).                         (* engine.finalize, dict.py:512 *)

(** the dictionary, the globally registered engine (core/engine.py:12) and the calls so far *)
Record st := mkst { par : params; eng : option nat; log : list event }.

(** which calls succeed: decided by everything that happened before (None: success) *)
Definition env := list event -> event -> option pyerr.

(** a computation with these effects; exceptions leave the state as it is *)
Definition M (A : Type) : Type := st -> st * result A.
(** python sequencing of statements *)
Definition mbind {A B} (m : M A) (f : A -> M B) : M B :=
  fun s => let (s1, r) := m s in
           match r with Ok a => f a s1 | Err e => (s1, Err e) end.
(** python return *)
Definition mret {A} (a : A) : M A := fun s => (s, Ok a).
(** python raise *)
Definition mfail {A} (e : pyerr) : M A := fun s => (s, Err e).
(** reading the dictionary *)
Definition mpar : M params := fun s => (s, Ok (par s)).
(** changing the dictionary in place *)
Definition mset (f : params -> params) : M unit :=
  fun s => (mkst (f (par s)) (eng s) (log s), Ok tt).
(** a call to the rest of foxes *)
Definition mask (ext : env) (e : event) : M unit :=
  fun s => match ext (log s) e with
           | None => (mkst (par s) (eng s) (log s ++ [e]), Ok tt)
           | Some x => (s, Err x)
           end.
Notation "'let*' x := m 'in' f" := (mbind m (fun x => f))
  (at level 200, x pattern, m at level 100, f at level 200).
(** Dict.get_item without default, utils/dict.py:59-98 *)
Definition mget {A} (o : option A) : M A :=
  match o with Some a => mret a | None => mfail KeyError end.

(** replacing one section of the dictionary *)
Definition set_farm (f : option fsec) (p : params) : params :=
  mkparams (p_states p) (p_book p) f (p_engine p) (p_algo p) (p_calc p) (p_points p) (p_outputs p).
(** replacing one section of the dictionary *)
Definition set_algo (f : option pars) (p : params) : params :=
  mkparams (p_states p) (p_book p) (p_farm p) (p_engine p) f (p_calc p) (p_points p) (p_outputs p).
(** replacing one section of the dictionary *)
Definition set_calc (f : option csec) (p : params) : params :=
  mkparams (p_states p) (p_book p) (p_farm p) (p_engine p) (p_algo p) f (p_points p) (p_outputs p).
(** replacing one section of the dictionary *)
Definition set_points (f : option psec) (p : params) : params :=
  mkparams (p_states p) (p_book p) (p_farm p) (p_engine p) (p_algo p) (p_calc p) f (p_outputs p).

(** dict.py:91-100: the states *)
Definition read_states (ext : env) (g : given) : M unit :=
  if g_states g then (if g_algo g then mfail AssertionError else mret tt)
  else if g_algo g then mret tt
  else let* p := mpar in let* s := mget (p_states p) in mask ext (EvStates s).

(** dict.py:102-124: the model book *)
Definition read_book (ext : env) (g : given) : M unit :=
  if g_book g then (if g_algo g then mfail AssertionError else mret tt)
  else if g_algo g then mret tt
  else let* p := mpar in
       match p_book p with None => mret tt | Some b => mask ext (EvBook b) end.

(** dict.py:126-146: the wind farm; pop_item removes the layouts from the section *)
Definition read_farm (ext : env) (g : given) : M unit :=
  if g_farm g then (if g_algo g then mfail AssertionError else mret tt)
  else if g_algo g then mret tt
  else let* p := mpar in
       let* f := mget (p_farm p) in
       let* l := mget (f_layouts f) in
       let* _ := mset (set_farm (Some (mkfsec None (f_args f)))) in
       mask ext (EvFarm (f_args f) l).

(** dict.py:148-159 and core/engine.py:119-131: the engine; initialising it fails if another
    engine is registered *)
Definition start (ext : env) (e : nat) : M unit :=
  fun s => match ext (log s) (EvStart e) with
           | Some x => (s, Err x)
           | None => match eng s with
                     | Some _ => (s, Err ValueError)
                     | None => (mkst (par s) (Some e) (log s ++ [EvStart e]), Ok tt)
                     end
           end.
(** dict.py:148-159 *)
Definition read_engine (ext : env) (g : given) : M (option nat) :=
  match g_engine g with
  | Some e => let* _ := start ext e in mret (Some e)
  | None => let* p := mpar in
            match p_engine p with
            | Some e => let* _ := start ext e in mret (Some e)
            | None => mret None
            end
  end.

(** dict.py:161-172: the algorithm; adict is the section itself, so that the overrides are
    written into the dictionary. The objects farm, states and mbook put there are left out, they
    are overwritten by each call. Value 0 of algo_type stands for "Iterative". *)
Definition read_algo (ext : env) (g : given) : M unit :=
  if g_algo g then mret tt
  else let* p := mpar in
       let* a := mget (p_algo p) in
       let a1 := if g_iter g then put "algo_type"%string 0 a else a in
       let a2 := update a1 (g_pars g) in
       let* _ := mset (set_algo (Some a2)) in
       mask ext (EvAlgo a2).

(** dict.py:14-176 *)
Definition read_dict (ext : env) (g : given) : M (option nat) :=
  let* _ := read_states ext g in
  let* _ := read_book ext g in
  let* _ := read_farm ext g in
  let* e := read_engine ext g in
  let* _ := read_algo ext g in
  mret e.

(** dict.py:482-489: the farm calculation; the run flag is popped from the section. A missing
    section is replaced by a fresh one that is not stored. Returns whether there are farm results *)
Definition run_calc (ext : env) : M bool :=
  let* p := mpar in
  match p_calc p with
  | None => let* _ := mask ext (EvCalc []) in mret true
  | Some c =>
      let* _ := mset (set_calc (Some (mkcsec None (c_args c)))) in
      if match c_run c with Some b => b | None => true end
      then let* _ := mask ext (EvCalc (c_args c)) in mret true
      else mret false
  end.

(** dict.py:491-504: the point calculation; run flag and points are popped from the section *)
Definition run_points (ext : env) (f : bool) : M (option bool) :=
  let* p := mpar in
  match p_points p with
  | None => mret None
  | Some q =>
      let* b := mget (q_run q) in
      let* _ := mset (set_points (Some (mkpsec None (q_points q) (q_args q)))) in
      if b : bool then
        let* pts := mget (q_points q) in
        let* _ := mset (set_points (Some (mkpsec None None (q_args q)))) in
        let* _ := mask ext (EvPoints pts (q_args q) f) in mret (Some true)
      else mret (Some false)
  end.

(** dict.py:397-436: the outputs one after the other; without farm results an output that takes
    them is skipped (dict.py:224-228, 412-414). Returns for each output whether it was run. *)
Fixpoint run_outs (ext : env) (f q : bool) (os : list osec) : M (list bool) :=
  match os with
  | [] => mret []
  | o :: r =>
      let* b := (if o_needs o && negb f then mret false
                 else let* _ := mask ext (EvOut (o_id o) f q) in mret true) in
      let* l := run_outs ext f q r in
      mret (b :: l)
  end.

(** dict.py:509-512 and core/engine.py:133-151: shutting down the engine made above *)
Definition stop (ext : env) (e : nat) : M unit :=
  let* _ := mask ext (EvStop e) in
  fun s => (mkst (par s) None (log s), Ok tt).

(** dict.py:444-514. The result: whether there are farm results, whether there are point results
    (None: no section calc_points, the tuple has no such entry), and the outputs *)
Definition run_dict (ext : env) (g : given) : M (bool * option bool * list bool) :=
  let* e := read_dict ext g in
  let* f := run_calc ext in
  let* q := run_points ext f in
  let* p := mpar in
  let* o := run_outs ext f (match q with Some b => b | None => false end) (p_outputs p) in
  let* _ := match e with None => mret tt | Some i => stop ext i end in
  mret (f, q, o).
