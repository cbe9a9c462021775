(** Cubic root solver and the thrust update of PowerMask that is built on it.
    A float cell is [option R], [None] being NaN. *)
From Verif Require Import RBase.
Local Open Scope R_scope.

(** one row of coefficients a0, a1, a2, a3 (foxes/utils/cubic_roots.py:4-37; [a3 = None] means "omitted", there for all rows;
    here it is the value 1, which gives the same b_a, c_a, d_a) *)
Record coef := { a0 : R; a1 : R; a2 : R; a3 : R }.
(** foxes/utils/cubic_roots.py:43-46 *)
Definition b_a (p : coef) : R := a2 p / a3 p.
(** foxes/utils/cubic_roots.py:43-46 *)
Definition c_a (p : coef) : R := a1 p / a3 p.
(** foxes/utils/cubic_roots.py:43-46 *)
Definition d_a (p : coef) : R := a0 p / a3 p.
(** foxes/utils/cubic_roots.py:49-53 *)
Definition cQ (p : coef) : R := (3 * c_a p - b_a p * b_a p) / 9.
(** foxes/utils/cubic_roots.py:49-53 *)
Definition cR (p : coef) : R := (9 * b_a p * c_a p - 27 * d_a p - 2 * b_a p * (b_a p * b_a p)) / 54.
(** foxes/utils/cubic_roots.py:49-53 *)
Definition cD (p : coef) : R := cQ p * cQ p * cQ p + cR p * cR p.

(** foxes/utils/cubic_roots.py:40,55-66: first column of the rows with Q == 0 (all other cells are NaN). np.pow of a
    negative base with exponent 1/3 is NaN. *)
Definition row_Q0 (p : coef) : option R :=
  if Reqb (cQ p) 0 then
    if Reqb (cR p) 0 then Some (- (b_a p / 3))
    else if Rltb 0 (cR p) then Some (Rpower (2 * cR p) (1 / 3) - b_a p / 3) else None
  else None.
(** foxes/utils/cubic_roots.py:68-76: rows with D <= 0 are overwritten. If also Q == 0 then R == 0 and
    R/sqrt(-Q3) = 0/0 is NaN, so are arccos, cos and the three cells. *)
Definition row_out (p : coef) : list (option R) :=
  if Rleb (cD p) 0 then
    if Reqb (cQ p) 0 then [None; None; None]
    else
      let theta := acos (cR p / sqrt (- (cQ p * cQ p * cQ p))) in
      let sq := sqrt (- cQ p) in
      [Some (2 * sq * cos (theta / 3) - b_a p / 3);
       Some (2 * sq * cos ((theta + 2 * PI) / 3) - b_a p / 3);
       Some (2 * sq * cos ((theta + 4 * PI) / 3) - b_a p / 3)]
  else [row_Q0 p; None; None].
(** foxes/utils/cubic_roots.py:55-66: the mask [sel2] has the length N of all rows but indexes the rows with Q == 0,
    which numpy refuses (IndexError) unless all rows are selected. *)
Definition mask_ok (l : list coef) : bool :=
  negb (existsb (fun p => Reqb (cQ p) 0) l) || forallb (fun p => Reqb (cQ p) 0) l.
(** foxes/utils/cubic_roots.py:4-78 *)
Definition cubic_roots (l : list coef) : result (list (list (option R))) :=
  if mask_ok l then Ok (map row_out l) else Err IndexError.

(** foxes/models/turbine_models/power_mask.py:191-198: positive values only, NaN and the others are set to +inf; row
    minimum. [None] is +inf. *)
Fixpoint min_positive (l : list (option R)) : option R :=
  match l with
  | [] => None
  | c :: l' =>
      let m := min_positive l' in
      match c with
      | Some x => if Rltb 0 x then match m with Some y => Some (Rmin x y) | None => Some x end else m
      | None => m
      end
  end.
(** foxes/models/turbine_models/power_mask.py:190-194: 4 a^3 - 8 a^2 + 4 a - cp/e = 0 *)
Definition mask_coef (cp_e : R) : coef := {| a0 := - cp_e; a1 := 4; a2 := -8; a3 := 4 |}.
(** foxes/models/turbine_models/power_mask.py:195-206: new induction factor ([None]: +inf) and thrust coefficient
    4 a (1 - a) ([None]: -inf, from 4 * inf * (1 - inf)) of the selected turbines *)
Definition mask_ct (cp_e : list R) : result (list (option R)) :=
  do rts <- cubic_roots (map mask_coef cp_e);
  Ok (map (fun row => match min_positive row with Some a => Some (4 * a * (1 - a)) | None => None end) rts).
