(** Specification for C249. *)
From Verif Require Import RBase Geom_Model AreaPic_Model.
Local Open Scope R_scope.

(** the colour that the name of the fill mode announces for a point *)
Definition colour (g : geo) (m : fill) (p : pt) : option R :=
  match m with
  | FDist => gdist g p
  | FDistInside => if inside g p then gdist g p else None
  | FDistOutside => if inside g p then None else gdist g p
  | FInside => if inside g p then Some 1 else None
  | FOutside => if inside g p then None else Some 1
  | FUnknown => None
  end.
(** the window that the nodes span *)
Definition in_window (pic : picture) (nx ny : nat) (p : pt) : Prop :=
  nth 0 (px pic) 0 <= fst p <= nth (nx - 1) (px pic) 0 /\ nth 0 (py pic) 0 <= snd p <= nth (ny - 1) (py pic) 0.
(** a dictionary with sizes only, or with nothing *)
Definition sizes (nx ny : nat) : pars := {| k_Nx := Some nx; k_Ny := Some ny; k_N := None; k_min := None; k_max := None |}.
Definition nothing : pars := {| k_Nx := None; k_Ny := None; k_N := None; k_min := None; k_max := None |}.
(** corners given by the caller *)
Definition window (a b : arr) : pars := {| k_Nx := None; k_Ny := None; k_N := None; k_min := Some a; k_max := Some b |}.
