(** Model of under-relaxation in the iterative algorithm: /repo/foxes/algorithms/iterative/iterative.py:103-126 (set_urelax), 165-251
    (_collect_farm_models), models/urelax.py:51-86, models/farm_wakes_calc.py:159-160, and python's binding of call arguments to
    parameters. Values are arbitrary; all models but URelax are arbitrary functions of the chunk's data. *)
From Coq Require Import String.
From Verif Require Import Base.
Open Scope string_scope.
Open Scope list_scope.

(** a python function's parameters, in order, with the flag that a parameter has a default; no * or ** parameters *)
Definition sig := list (string * bool).
(** a call: number of positional arguments, names of keyword arguments; python's rule of binding: too many arguments, an unknown name, a parameter given
    twice, or a parameter without value are TypeErrors *)
Definition binds (s : sig) (npos : nat) (kw : list string) : bool :=
  (Nat.leb npos (List.length s))
  && forallb (fun k => existsb (fun p => String.eqb k (fst p)) (skipn npos s)) kw
  && forallb (fun p => snd p || existsb (String.eqb (fst p)) kw) (skipn npos s).
(** core/data.py:96, bound method *)
Definition sig_states_i0 : sig := [("counter", true)].
(** urelax.py:51, bound method *)
Definition sig_urelax_calculate : sig := [("algo", false); ("mdata", false); ("fdata", false)].

(** entry points, iterative.py:119-125 *)
Inductive entry := First | PreRotor | PostRotor | PreWake | Last.
(** iterative.py:119-125: whether the dictionary of an entry point has variables *)
Definition urel := entry -> bool.
(** set_urelax, iterative.py:116-126: [name] is the entry point or None for any other string; [vars]: whether variables are given *)
Definition set_urelax (initialized : bool) (name : option entry) (vars : bool) (u : option urel) : result (option urel) :=
  if initialized then Err ValueError
  else let old := match u with Some d => d | None => fun _ => false end in
       match name with
       | None => Err KeyError
       | Some e => Ok (Some (fun x => match x, e with
                                      | First, First | PreRotor, PreRotor | PostRotor, PostRotor | PreWake, PreWake | Last, Last => old x || vars
                                      | _, _ => old x end))
       end.

(** the models of the list: farm controller, InitFarmData, rotor model, SetAmbFarmResults, FarmWakesCalculation with or without under-relaxation,
    ReorderFarmOutput, URelax *)
Inductive mdl := Ctrl (pre : bool) | Init | Rotor | SetAmb | Wakes (relaxed : bool) | Reorder | Relax.
(** downwind.py:424-480 with outputs=False *)
Definition plain (ambient : bool) : list mdl := [Ctrl true; Init; Rotor; Ctrl false; SetAmb] ++ (if ambient then [] else [Wakes false]).
(** list.insert *)
Definition insert {A} (i : nat) (x : A) (l : list A) : list A := firstn i l ++ x :: skipn i l.
(** self._mlist0.models[i].urelax = ..., iterative.py:199-202: None is an IndexError; other models than FarmWakesCalculation get an attribute they do not use *)
Definition set_relax (i : nat) (l : list mdl) : option (list mdl) :=
  match nth_error l i with
  | None => None
  | Some (Wakes _) => Some (firstn i l ++ Wakes true :: skipn (S i) l)
  | Some _ => Some l
  end.
(** iterative.py:174-208, the list of the first iteration; the flag: ambient results are evaluated again in each iteration *)
Definition first_list (u : option urel) (ambient : bool) : result (list mdl * bool) :=
  let l0 := plain ambient in
  match u with
  | None => Ok (l0, false)
  | Some d =>
      let '(l1, n1) := if d First then (insert 0 Relax l0, 1) else (l0, 0) in
      let '(l2, n2) := if d PreRotor then (insert (2 + n1) Relax l1, S n1) else (l1, n1) in
      let '(l3, n3) := if d PostRotor then (insert (4 + n2) Relax l2, S n2) else (l2, n2) in
      match (if d PreWake then set_relax (5 + n3) l3 else Some l3) with
      | None => Err IndexError
      | Some l4 => Ok (if d Last then l4 ++ [Relax] else l4, negb (Nat.eqb n3 0))
      end
  end.

Section Run.
(** the data of a chunk, and all other models *)
Context {X : Type}.
Variable other : mdl -> X -> result X.
(** urelax.py:74: the call of states_i0; what follows is not reached *)
Definition relax (rest : X -> result X) (x : X) : result X :=
  if binds sig_states_i0 0 ["counter"; "algo"] then rest x else Err TypeError.
(** farm_wakes_calc.py:159-160: the call has one argument too many *)
Definition relax_wakes (rest : X -> result X) (x : X) : result X :=
  if binds sig_urelax_calculate 4 [] then relax rest x else Err TypeError.
Variable rest : X -> result X.
(** one model, core/farm_data_model.py:288-291 *)
Definition step (m : mdl) (x : X) : result X :=
  match m with
  | Relax => relax rest x
  | Wakes true => do y <- other (Wakes true) x; relax_wakes rest y
  | _ => other m x
  end.
(** the models of the list one after the other, core/farm_data_model.py:288-291 *)
Fixpoint run (l : list mdl) (x : X) : result X :=
  match l with [] => Ok x | m :: q => do y <- step m x; run q y end.
(** the first iteration of calc_farm *)
Definition iterate (u : option urel) (ambient : bool) (x : X) : result X :=
  do lf <- first_list u ambient; run (fst lf) x.
End Run.
