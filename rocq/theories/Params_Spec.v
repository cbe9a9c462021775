(** Specification vocabulary for running foxes from a parameter dictionary: what one run of the
    dictionary is documented to do, written down without the code of Params_Model. *)
From Coq Require Import String.
From Verif Require Import Base Params_Model.

(** the rest of foxes does everything it is asked to do *)
Definition all_well (ext : env) : Prop := forall l e, ext l e = None.

(** the engine of a run: the one of the arguments, else the one of the dictionary *)
Definition engine_of (g : given) (p : params) : option nat :=
  match g_engine g with Some e => Some e | None => p_engine p end.

(** nothing the run needs is missing from the dictionary, and the caller does not pass an
    algorithm together with one of its parts *)
Definition complete (g : given) (p : params) : Prop :=
  (if g_algo g then g_states g = false /\ g_book g = false /\ g_farm g = false
   else p_algo p <> None /\ (g_states g = true \/ p_states p <> None)
        /\ (g_farm g = true \/ exists f, p_farm p = Some f /\ f_layouts f <> None))
  /\ match p_points p with
     | None => True
     | Some q => q_run q <> None /\ (q_run q = Some true -> q_points q <> None)
     end.

(** does the dictionary ask for a farm calculation? It does, unless it says run: False *)
Definition wants_farm (p : params) : bool :=
  match p_calc p with
  | Some c => match c_run c with Some b => b | None => true end
  | None => true
  end.
(** does the dictionary ask for a point calculation? *)
Definition wants_points (p : params) : bool :=
  match p_points p with
  | Some q => match q_run q with Some b => b | None => false end
  | None => false
  end.
(** the algorithm parameters of a run: those of the arguments overrule those of the dictionary *)
Definition algo_value (g : given) (a : pars) (k : string) : option nat :=
  match look k (g_pars g) with
  | Some v => Some v
  | None => if g_iter g && String.eqb k "algo_type" then Some 0 else look k a
  end.

(** is this one of the calls of this kind? *)
Definition is_calc (e : event) : bool := match e with EvCalc _ => true | _ => false end.
Definition is_points (e : event) : bool := match e with EvPoints _ _ _ => true | _ => false end.
Definition is_out (e : event) : bool := match e with EvOut _ _ _ => true | _ => false end.

(** the outputs that a run without errors performs: all, or without farm results only those that
    do not need them *)
Definition active (f : bool) (os : list osec) : list osec :=
  filter (fun o => negb (o_needs o) || f) os.

(** the calls of one run of the dictionary, [a] being the parameters of the algorithm *)
Definition plan (g : given) (p : params) (a : pars) : list event :=
  (if g_states g || g_algo g then []
   else match p_states p with Some s => [EvStates s] | None => [] end)
  ++ (if g_book g || g_algo g then []
      else match p_book p with Some b => [EvBook b] | None => [] end)
  ++ (if g_farm g || g_algo g then []
      else match p_farm p with
           | Some f => match f_layouts f with Some l => [EvFarm (f_args f) l] | None => [] end
           | None => [] end)
  ++ match engine_of g p with Some e => [EvStart e] | None => [] end
  ++ (if g_algo g then [] else [EvAlgo a])
  ++ (if wants_farm p
      then [EvCalc (match p_calc p with Some c => c_args c | None => [] end)] else [])
  ++ (if wants_points p
      then match p_points p with
           | Some q => match q_points q with
                       | Some t => [EvPoints t (q_args q) (wants_farm p)] | None => [] end
           | None => [] end else [])
  ++ map (fun o => EvOut (o_id o) (wants_farm p) (wants_points p))
         (active (wants_farm p) (p_outputs p))
  ++ match engine_of g p with Some e => [EvStop e] | None => [] end.
