(** The area of the intersection of two discs, by vertical slices: disc 1 is centred at the origin, disc 2
    at (d, 0); at abscissa x the discs have the half chords [hc r1 x] and [hc r2 (x - d)], both centred at ordinate 0,
    so the intersection has the chord 2 min(..). *)
From Coquelicot Require Import Coquelicot.
From Verif Require Import RBase.
Local Open Scope R_scope.

Definition hc (r x : R) : R := sqrt (Rmax (r * r - x * x) 0).
Definition overlap_area (r1 r2 d : R) : R := RInt (fun x => 2 * Rmin (hc r1 x) (hc r2 (x - d))) (- r1) r1.
