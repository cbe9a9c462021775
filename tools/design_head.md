# Design of the formal model of foxes

The code in `/repo` (python, numpy/xarray) is read as text and modelled by hand in Coq 8.16.1;
nothing is executed or extracted. Every definition carries a comment citing the file and lines
it models and the simplifications made.

## Layout

`rocq/theories/<Area>_Model.v` holds executable definitions only, `<Area>_Spec.v` (where needed) the
independent specification vocabulary, `<Area>_Proofs.v` lemmas, and `<Area>_Props.v` only the property
theorems (`exact lemma.`), each with `Print Assumptions` and non-vacuity `Example`s beside it.
Theorem names start with the property id (`C01_...`). Suffix `_refuted` marks theorems showing that the
unchanged code violates the property; `_partial` marks a proved part of a property.

## Modelling conventions

- Python ints: `Z` (or `nat` for lengths/indices); `int(a/b)` on non-negative ints: `Z.div` (exact below 2^53; recorded as simplification).
- Floats: real numbers `R` (rounding is not modelled) unless a comment says otherwise. Float_Model.v models binary64 rounding with Flocq (division, remainder, np.arange) where rounding decides about counts; overflow, infinities and NaN are not modelled there.
- numpy arrays: (nested) lists or functions from indices; NaN is `None` where it matters.
- Exceptions: `option`/result values; loops: structural recursion or fuel with an explicit error on exhaustion, excluded by theorem.
- Futures/pools: arbitrary permutation of job completion.
- External models (wake models, turbine models, ...): universally quantified functions.

## Trusted base

Coq's kernel; the standard library's axioms for the real numbers (`ClassicalDedekindReals.sig_forall_dec`,
`ClassicalDedekindReals.sig_not_dec`, `FunctionalExtensionality.functional_extensionality_dep`) and, where listed, `Classical_Prop.classic`,
only in the R-valued theorems, as shown by `Print Assumptions` beneath each theorem; integer/list/string theorems are closed
under the global context. The faithfulness of the hand translation is trusted.
