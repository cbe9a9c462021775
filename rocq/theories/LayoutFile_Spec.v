(** Specification for C259. *)
From Coq Require Import String.
From Verif Require Import Base LayoutFile_Model.
Open Scope string_scope.

(** a file name with the given ending, and something before it *)
Definition named (n e : string) : Prop := exists stem, stem <> "" /\ n = stem ++ e.
(** the endings of compressed csv files *)
Definition compressed (n : string) : Prop := named n ".csv.gz" \/ named n ".csv.bz2" \/ named n ".csv.zip".
(** the supported files *)
Definition supported (n : string) : Prop := named n ".json" \/ named n ".csv" \/ compressed n.
(** the whole text of a path *)
Definition text (d n : string) : string := d ++ n.
