(** Specification vocabulary for the chunk store. *)
From Verif Require Import Base ChunkStore_Model.
Local Open Scope Z_scope.

(** Offset and size of chunk number [a] in a list of chunk sizes. *)
Definition zsum (l : list Z) : Z := fold_right Z.add 0 l.
Definition off (l : list Z) (a : nat) : Z := zsum (firstn a l).
Definition size (l : list Z) (a : nat) : Z := nth a l 0.
(** Geometry of chunk (a, b) of a grid with state chunk sizes [ss] and target chunk sizes [ts]. *)
Definition grid (ss ts : list Z) (a b : nat) : geom := mkgeom (off ss a) (size ss a) (off ts b) (size ts b).

(** The value a reader of history [ops] (newest last) expects: the last one stored under this name
    for these offsets since the last reset. *)
Fixpoint last_stored {V} (n : nat) (i0 t0 : Z) (rev_ops : list (@op V)) : option V :=
  match rev_ops with
  | [] => None
  | Reset :: _ => None
  | Add m v g :: r => if (m =? n)%nat && (g_i0 g =? i0) && (g_t0 g =? t0) then Some v else last_stored n i0 t0 r
  end.

(** Chunk (a, b) has been stored since the last reset. *)
Definition stored_chunk {V} (ss ts : list Z) (a b : nat) (s : @store V) : Prop :=
  exists e, In e s /\ c_i0 e = off ss a /\ c_t0 e = off ts b.

(** All additions of a history are made for chunks of the grid. *)
Definition on_grid {V} (ss ts : list Z) (o : @op V) : Prop :=
  match o with
  | Reset => True
  | Add _ _ g => exists a b, (a < length ss)%nat /\ (b < length ts)%nat /\ g = grid ss ts a b
  end.
