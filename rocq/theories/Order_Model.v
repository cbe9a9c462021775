(** Turbine ordering: sorting into processing order and back.
    /repo/foxes/algorithms/downwind/models/init_farm_data.py:114-137,
    /repo/foxes/algorithms/downwind/models/reorder_farm_output.py:73-86,
    /repo/foxes/models/wake_frames/rotor_wd.py:62-66 (argsort),
    /repo/foxes/models/turbine_models/set_farm_vars.py:271-293,
    /repo/foxes/models/turbine_models/sector_management.py:192-234,
    /repo/foxes/models/turbine_models/power_mask.py:154-168.
    Arrays with dimensions (state, turbine) are lists of rows, one row per state of the chunk.
    [d] is a filler for out-of-range reads; all theorems have orders that are permutations, for which
    the code reads in range. *)
From Verif Require Import Base.
From Coq Require Import Permutation.

Section Order.
  Context {A : Type}.
  Variable d : A.
  (** python's [!=] on array elements; NaN differs from everything, including itself. *)
  Variable neq : A -> A -> bool.

  (** one row of the fancy indexing [a[ssel, order]] -- algorithms/downwind/models/init_farm_data.py:120-137, reorder_farm_output.py:79 *)
  Definition gather (row : list A) (o : list nat) : list A := map (fun k => nth k row d) o.
  (** the same for all states *)
  Fixpoint take_rows (m : list (list A)) (os : list (list nat)) : list (list A) :=
    match m, os with
    | r :: m', o :: os' => gather r o :: take_rows m' os'
    | _, _ => []
    end.
  (** [a[0, 0]] *)
  Definition first_elem (m : list (list A)) : A := nth 0 (nth 0 m []) d.
  (** [np.any(a != a[0, 0, None, None])] *)
  Definition nonuniform (m : list (list A)) : bool := existsb (existsb (fun x => neq x (first_elem m))) m.
  (** init_farm_data.py:127-135: values that are all equal are not permuted. *)
  Definition apply_order (m : list (list A)) (os : list (list nat)) : list (list A) :=
    if nonuniform m then take_rows m os else m.
  (** reorder_farm_output.py:78-85 for a variable other than ORDER. *)
  Definition reorder (m : list (list A)) (invs : list (list nat)) : list (list A) :=
    if (1 <? length (nth 0 m [])) && nonuniform m then take_rows m invs else m.
End Order.

(** init_farm_data.py:120-121, one row: zeros, then [inv[order[k]] = k] for every [k]. *)
Definition set_nth {A} (i : nat) (x : A) (l : list A) : list A := firstn i l ++ (if i <? length l then [x] else []) ++ skipn (S i) l.
(** algorithms/downwind/models/init_farm_data.py:120-121 *)
Definition invert (o : list nat) : list nat :=
  fold_left (fun inv ko => set_nth (snd ko) (fst ko) inv) (combine (seq 0 (length o)) o) (repeat 0 (length o)).

(** comparison `!=`, models/turbine_models/set_farm_vars.py:245-290 *)
Definition nat_neq (a b : nat) : bool := negb (a =? b).

(** The order arrays as they appear in the farm results: ORDER is exempt from re-ordering,
    ORDER_INV is not (reorder_farm_output.py:79). *)
Definition reported_order (os : list (list nat)) : list (list nat) := os.
(** algorithms/downwind/models/reorder_farm_output.py:79 *)
Definition reported_order_inv (os : list (list nat)) : list (list nat) :=
  reorder 0 nat_neq (map invert os) (map invert os).

(** ** argsort, rotor_wd.py:64: a stable insertion sort of the indices by key (numpy's default sort is
    not stable; theorems that could depend on ties assume distinct keys). *)
Section Sort.
  Context {K : Type}.
  Variable leb : K -> K -> bool.
  (** np.argsort, models/wake_frames/rotor_wd.py:64 *)
  Fixpoint insert (p : K * nat) (l : list (K * nat)) : list (K * nat) :=
    match l with
    | [] => [p]
    | q :: l' => if leb (fst p) (fst q) then p :: l else q :: insert p l'
    end.
  (** np.argsort, models/wake_frames/rotor_wd.py:64 *)
  Definition isort (l : list (K * nat)) : list (K * nat) := fold_right insert [] l.
  (** models/wake_frames/rotor_wd.py:64 *)
  Definition argsort (keys : list K) : list nat := map snd (isort (combine keys (seq 0 (length keys)))).
End Sort.

(** ** Turbine models with per-turbine settings, values are [option V] with [None] = NaN *)
Section PerTurbine.
  Context {V : Type}.
  Variable veqb : V -> V -> bool.
  (** NaN aware comparison, models/turbine_models/set_farm_vars.py:245-290 *)
  Definition oneq (a b : option V) : bool :=
    match a, b with Some x, Some y => negb (veqb x y) | _, _ => true end.

  (** [fdata[v][tsel] = data[tsel]] with [tsel = bsel & ~isnan(data)], set_farm_vars.py:281-289. *)
  Fixpoint masked_set (base : list (option V)) (data : list (option V)) (bsel : list bool) : list (option V) :=
    match base, data, bsel with
    | b :: base', x :: data', s :: bsel' =>
        (if s then match x with Some _ => x | None => b end else b) :: masked_set base' data' bsel'
    | _, _, _ => base
    end.

  (** SetFarmVars with pre_rotor=False: [mdata] is what load_data stored in farm order; InitFarmData
      has permuted it (init_farm_data.py:131-135); calculate gathers once more with the order
      (set_farm_vars.py:278-285). [sels]: the states and turbines in processing order for which the
      model is active. The result is the variable in processing order. *)
  Fixpoint masked_rows (bases datas : list (list (option V))) (sels : list (list bool)) : list (list (option V)) :=
    match bases, datas, sels with
    | b :: bs, x :: xs, s :: ss => masked_set b x s :: masked_rows bs xs ss
    | _, _, _ => []
    end.
  (** models/turbine_models/set_farm_vars.py:245-290 *)
  Definition set_farm_vars_post (bases mdata : list (list (option V))) (os : list (list nat)) (sels : list (list bool))
    : list (list (option V)) :=
    masked_rows bases (take_rows None (apply_order None oneq mdata os) os) sels.
  (** SetFarmVars with pre_rotor=True runs before InitFarmData, on farm-ordered mdata, and the farm
      data it writes is not permuted by InitFarmData (only X, Y, H, D, WD are). -- models/turbine_models/set_farm_vars.py:245-290 *)
  Definition set_farm_vars_pre (bases mdata : list (list (option V))) (sels : list (list bool)) : list (list (option V)) :=
    masked_rows bases mdata sels.

  (** SectorManagement.calculate for one rule "turbine index [t]: if the range condition holds set the
      target variable to [x]", sector_management.py:203-232: the column [t] of the processing-ordered
      farm data is read and written. [cond] is the range test. *)
  Definition sector_rule {B} (d : B) (t : nat) (cond : B -> bool) (x : V) (rdata : list (list B)) (tvar : list (list (option V)))
    : list (list (option V)) :=
    map (fun rt => if cond (nth t (fst rt) d) then set_nth t (Some x) (snd rt) else snd rt) (combine rdata tvar).
End PerTurbine.

(** PowerMask.calculate, selection of active entries for one state, power_mask.py:154-168. Arrays are in
    processing order except [P_rated], which initialize built in farm order (lines 117-125).
    Powers are integers here (the tests are comparisons and one subtraction); NaN max_P is [None]. *)
Fixpoint power_mask_sel (p_lim : Z) (P : list Z) (max_P : list (option Z)) (P_rated : list Z) : list bool :=
  match P, max_P, P_rated with
  | p :: P', mp :: M', pr :: R' =>
      match mp with
      | None => false
      | Some m => ((m <? pr) && (m <? p) || (pr <? m) && (pr - p_lim <? p))%Z
      end :: power_mask_sel p_lim P' M' R'
  | _, _, _ => []
  end.
