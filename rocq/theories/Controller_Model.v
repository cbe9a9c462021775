(** The basic farm controller: merging the turbines' model lists into one global sequence.
    /repo/foxes/core/farm_controller.py:120-177 (_analyze_models), 179-210 (find_turbine_types),
    212-277 (collect_models), 279-298 (__get_pars).
    Models are numbers (names); a turbine's state is its name list and its index [tmis[ti]]. *)
From Verif Require Import Base.

(** core/farm_controller.py:120-128: a turbine's model names and its index into them *)
Definition tstate := (list nat * nat)%type.
(** core/farm_controller.py:139: `mname in jnames` *)
Definition mem (m : nat) (l : list nat) : bool := existsb (Nat.eqb m) l.
(** [jnames[tmis[tj]]] for an unfinished turbine -- core/farm_controller.py:134-141 *)
Definition cur (p : tstate) : option nat := nth_error (fst p) (snd p).

(** lines 136-145: turbine [tj] blocks [m] *)
Definition blocks (ti m : nat) (jp : nat * tstate) : bool :=
  negb (fst jp =? ti) && mem m (fst (snd jp)) &&
  match cur (snd jp) with Some m' => negb (m' =? m) | None => false end.
(** lines 132-147: the first turbine (from index [ti] on) whose current model is next *)
Fixpoint find_next (all : list tstate) (ti : nat) (rest : list tstate) : option nat :=
  match rest with
  | [] => None
  | p :: rest' =>
      match cur p with
      | Some m => if existsb (blocks ti m) (combine (seq 0 (length all)) all)
                  then find_next all (S ti) rest' else Some m
      | None => find_next all (S ti) rest'
      end
  end.
(** lines 152-158 for one turbine: is the model applied to it, and if so which entry [mi] of mstates_sel
    is used; its index advances. *)
Definition emit1 (m : nat) (p : tstate) : tstate * option nat :=
  match cur p with
  | Some m' => if m' =? m then ((fst p, S (snd p)), Some (snd p)) else (p, None)
  | None => (p, None)
  end.
(** One entry of the global sequence: the model and, per turbine, the used selection index. -- core/farm_controller.py:148-158: one group model with its turbine selection *)
Definition emission := (nat * list (option nat))%type.
(** lines 128-163: the while loop. *)
Fixpoint analyze (fuel : nat) (st : list tstate) : result (list emission * list tstate) :=
  match find_next st 0 st with
  | None => Ok ([], st)
  | Some m =>
      match fuel with
      | O => Err OutOfFuel
      | S f =>
          do r <- analyze f (map (fun p => fst (emit1 m p)) st);
          Ok ((m, map (fun p => snd (emit1 m p)) st) :: fst r, snd r)
      end
  end.
(** core/farm_controller.py:128-163: bound on the number of iterations of the while loop *)
Definition total (ls : list (list nat)) : nat := fold_right (fun l s => length l + s) 0 ls.
(** lines 120-177, _analyze_models: the sequence, or ValueError if a turbine is unfinished. *)
Definition merge (ls : list (list nat)) : result (list emission) :=
  do r <- analyze (total ls) (map (fun l => (l, 0)) ls);
  if forallb (fun p => snd p =? length (fst p)) (snd r) then Ok (fst r) else Err ValueError.

(** ** collect_models, lines 224-260. [book n]: the models behind name [n] (several for a FarmDataModelList);
    [pre m]: is [m] a pre-rotor model. The check that no pre-rotor model follows a post-rotor model
    starts anew for each name (line 247: prer = None). *)
Fixpoint group_ok (pre : nat -> bool) (prer : option bool) (ms : list nat) : bool :=
  match ms with
  | [] => true
  | m :: ms' =>
      match prer with
      | None => group_ok pre (Some (pre m)) ms'
      | Some b => negb (negb b && pre m) && group_ok pre prer ms'
      end
  end.
(** core/farm_controller.py:224-260: the loop over one turbine's models *)
Definition collect_turbine (book : nat -> list nat) (pre : nat -> bool) (names : list nat) : result (list nat * list nat) :=
  if forallb (fun n => group_ok pre None (book n)) names
  then let ms := flat_map book names in Ok (filter pre ms, filter (fun m => negb (pre m)) ms)
  else Err ValueError.

(** Lines 156-157: the states in which the model is applied to a turbine whose selections are [sels]
    (one entry per name in [names]; [None] = all states). *)
Definition used_sel {S} (sels : list (option S)) (mi : nat) : result (option S) :=
  match nth_error sels mi with Some s => Ok s | None => Err IndexError end.

(** ** find_turbine_types, lines 190-210: [istype] tells which names are in mbook.turbine_types. *)
Fixpoint find_type (istype : nat -> bool) (found : option nat) (names : list nat) : result (option nat) :=
  match names with
  | [] => Ok found
  | n :: ns => if istype n then match found with
                                | Some _ => Err TypeError
                                | None => find_type istype (Some n) ns
                                end
               else find_type istype found ns
  end.
(** core/farm_controller.py:190-210 *)
Fixpoint find_turbine_types (istype : nat -> bool) (ti : nat) (ts : list (list nat)) : result (list nat) + (nat * pyerr) :=
  match ts with
  | [] => inl (Ok [])
  | t :: ts' =>
      match find_type istype None t with
      | Err e => inr (ti, e)
      | Ok None => inr (ti, ValueError)
      | Ok (Some n) =>
          match find_turbine_types istype (S ti) ts' with
          | inl (Ok l) => inl (Ok (n :: l))
          | r => r
          end
      end
  end.

(** Lines 281-282 in __get_pars: the entry of the selection array used for the k-th model of the sequence
    is the first one with the same name. *)
Fixpoint index_of (m : nat) (l : list nat) : option nat :=
  match l with
  | [] => None
  | x :: l' => if x =? m then Some 0 else option_map S (index_of m l')
  end.

(** ** The whole collect_models run, lines 212-277, over all turbines: the pre-rotor and the post-rotor
    sequences. The final "No turbine model found" check (line 276) is included; a KeyError for unknown names
    is not modelled ([book] is total). *)
Fixpoint collect_all (book : nat -> list nat) (pre : nat -> bool) (ts : list (list nat)) : result (list (list nat) * list (list nat)) :=
  match ts with
  | [] => Ok ([], [])
  | t :: ts' =>
      do a <- collect_turbine book pre t;
      do r <- collect_all book pre ts';
      Ok (fst a :: fst r, snd a :: snd r)
  end.
(** core/farm_controller.py:212-277 *)
Definition collect_models (book : nat -> list nat) (pre : nat -> bool) (ts : list (list nat)) : result (list emission * list emission) :=
  do c <- collect_all book pre ts;
  do ep <- merge (fst c);
  do eq <- merge (snd c);
  match ep ++ eq with [] => Err ValueError | _ => Ok (ep, eq) end.
(** __get_pars, lines 281-282: the entry of the stacked selection array used when the k-th model of the
    sequence is evaluated: the first one carrying the same name. *)
Definition looked_up (ems : list emission) (k : nat) : option emission :=
  match nth_error ems k with
  | None => None
  | Some e => match index_of (fst e) (map fst ems) with None => None | Some i => nth_error ems i end
  end.
