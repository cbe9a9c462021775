# Design of the formal model of foxes

The code in `/repo` (python, numpy/xarray) is read as text and modelled by hand in Coq 8.16.1;
nothing is executed or extracted. Every definition carries a comment citing the file and lines
it models and the simplifications made.

## Layout

`rocq/theories/<Area>_Model.v` holds executable definitions only, `<Area>_Spec.v` (where needed) the
independent specification vocabulary, `<Area>_Proofs.v` lemmas, and `<Area>_Props.v` only the property
theorems (`exact lemma.`), each with `Print Assumptions` and non-vacuity `Example`s beside it.
Theorem names start with the property id (`C01_...`). Suffix `_refuted` marks theorems showing that the
unchanged code violates the property; `_partial` marks a proved part of a property.

## Modelling conventions

- Python ints: `Z` (or `nat` for lengths/indices); `int(a/b)` on non-negative ints: `Z.div` (exact below 2^53; recorded as simplification).
- Floats: real numbers `R` (rounding is not modelled) unless a comment says otherwise. Float_Model.v models binary64 rounding with Flocq (division, remainder, np.arange) where rounding decides about counts; overflow, infinities and NaN are not modelled there.
- numpy arrays: (nested) lists or functions from indices; NaN is `None` where it matters.
- Exceptions: `option`/result values; loops: structural recursion or fuel with an explicit error on exhaustion, excluded by theorem.
- Futures/pools: arbitrary permutation of job completion.
- External models (wake models, turbine models, ...): universally quantified functions.

## Trusted base

Coq's kernel; the standard library's axioms for the real numbers (`ClassicalDedekindReals.sig_forall_dec`,
`ClassicalDedekindReals.sig_not_dec`, `FunctionalExtensionality.functional_extensionality_dep`) and, where listed, `Classical_Prop.classic`,
only in the R-valued theorems, as shown by `Print Assumptions` beneath each theorem; integer/list/string theorems are closed
under the global context. The faithfulness of the hand translation is trusted.

## Per-property plan

| id | property | model and proof |
|---|---|---|
| C01 | Chunks partition the states and the targets | Engine.calc_chunk_sizes over Z, branch by branch, the `while` on fuel with an explicit out-of-fuel error; prove it never runs out, lists are >=1 and sum up. |
| C02 | Chunk sizes are balanced and bounded | same model; balancedness for all inputs; `<= size` refuted by a witness, `<= size+1` proved. |
| C03 | Chunked evaluation equals unchunked evaluation | chunk loop + combine_results over matrices (lists of lists), per-pair oracle function; futures as an arbitrary completion permutation filling a keyed map; equality by induction on the chunk lists. |
| C04 | Parallel map equals sequential map | np.array_split + ordered collection of futures; equality with List.map. |
| C05 | At most one engine is active | state machine (global slot, per-engine flags), invariants over fold_left of ops. |
| C06 | Every chunked dimension is reported as a loop dimension | function of two options; refuted. |
| C07 | Model lifecycle discipline | tree of models with flags, ops returning result or error; invariant over histories. |
| C08 | Running stash round trip | algorithm stores as finite maps; set/unset_running as tree traversals; round trip. |
| C09 | A failed calculation leaves the algorithm usable | calc_farm as steps with an oracle deciding the raising step; refuted, and the exact reachable end state proved. |
| C10 | Chunk store returns what was stored | association-map model of the chunk store; operational laws by induction over histories. |
| C11 | Farm results come back in farm order | permutation gather per state row; inverse via scatter model of `ORDER_INV[ssel,order]=arange`. |
| C12 | The order computation is a downwind-sorted permutation | argsort as a stable insertion sort on keys; permutation + sortedness. |
| C13 | Turbine results do not depend on downstream turbines | downwind loop over abstract contribution/evaluation functions; non-interference by induction on the order. |
| C14 | Results do not depend on the numbering of turbines | composition of C11-C13 models; equivariance under List permutations. |
| C15 | Reported order arrays are mutually inverse | same pipeline; refuted on a 3-cycle; holds iff the order is an involution (proved). |
| C16 | User-set farm variables reach the right turbine | same pipeline with SetFarmVars; refuted; exact characterisation. |
| C17 | Per-turbine rules are applied to the turbine they name | same pipeline with SectorManagement/PowerMask index use; refuted; exact characterisation. |
| C18 | Model merge respects every turbine's model order | greedy merge as fuelled recursion over lists of lists; soundness by induction. |
| C19 | Model merge is complete | completeness of the greedy merge from a rank function. |
| C20 | State selections stay attached to their model | collect_models/_analyze_models index arithmetic; refuted; correct case proved. |
| C21 | The iterative algorithm reproduces the downwind algorithm | Jacobi sweep vs downwind loop over abstract pairwise contributions. |
| C22 | Iterative loop bound | loop on a verdict stream; bounds by induction. |
| C23 | Convergence verdict means small change | R-valued arrays as lists; iff-characterisation. |
| C24 | Wake superposition is order independent | superpositions as folds over R; permutation invariance. |
| C25 | Superposition limits are honoured | clamp arithmetic over R. |
| C26 | More wakes never increase the wind speed | monotonicity over R. |
| C27 | Product superposition leaves unwaked turbines at ambient | vectorised add_wake with whole-array reset; refuted by witness; conditions for correctness proved. |
| C28 | Wind direction differences are shortest signed angles | R arithmetic by cases. |
| C29 | Wind vector and wind direction round trip | R trigonometry with a modelled atan2. |
| C30 | Yaw conversions are mutually inverse | R arithmetic by cases. |
| C31 | Wake coordinates are an isometry | R^2 rotation algebra. |
| C32 | Circle overlap area is correct at its bounds | R with acos; analytic bounds. |
| C33 | Top-hat partial wake weights are fractions | from C32. |
| C34 | Cubic solver returns roots | R with acos/cos triple-angle and cube roots. |
| C35 | Betz axial induction is physical | R sqrt algebra. |
| C36 | Jensen wake deficit is bounded and recovers | R algebra. |
| C37 | Gaussian wake deficit is bounded and decays radially | R exp monotonicity. |
| C38 | Rotor models average a uniform wind exactly | finite sums over R for grid/level weights, moments of constant inflow. |
| C39 | Vertical wind profiles pass through their reference | R ln/power algebra. |
| C40 | Area expressions obey set algebra | expression trees, membership as Prop/bool over abstract atoms; induction. |
| C41 | Bounding boxes contain their area | same trees with boxes over R. |
| C42 | Distance to a boundary is the true distance | R^2 segment projection geometry. |
| C43 | State and turbine reductions are weighted means and sums | finite sums over R. |
| C44 | Yield does not depend on the time resolution | finite sums over R. |
| C45 | Farm efficiency is a fraction | finite sums over R. |
| C46 | Turbine curves stay within the table | piecewise linear interpolation over R lists. |
| C47 | A turbine's power does not depend on other turbines' model lists | small heap model of numpy views vs copies; refuted by witness. |
| C48 | Cut-in modification is applied once | modify_cutin as table transformer; non-idempotence witness. |
| C49 | Model name templates round trip | string model of check_match; round trip by induction on template segments. |
| C50 | Only matching names create models | refuted by witness string; characterisation proved. |
| C51 | Factory dictionary lookup is consistent | FDict state machine. |
| C52 | State weights sum to one | lists over Q/R; cartesian product. |
| C53 | Table columns stay aligned with their variables | column bookkeeping over lists of names; refuted by witness, aligned case proved. |
| C54 | Layouts place turbines as specified | layout generators over Z/R. |
| C55 | Adding a model to one turbine affects only that turbine | heap model of shared python lists; refuted; private lists proved safe. |
| C56 | Data containers keep consistent sizes | Data.add state machine on dimension sizes. |
| C57 | Sub-selected data lookups return the selection | get_data lookup model; refuted for m/t sources, proved for f. |
| C58 | Upper turbulence limit is an upper limit | R; refuted (code takes the maximum), true bound proved. |
| C59 | Mirrored wakes leave the farm geometry untouched | fdata heights as function update; restoration by induction over mirrors. |
| C60 | Farm data model chains accumulate | fold over models with maps. |
| C61 | Every turbine has exactly one turbine type | list filter model. |
| C62 | Wake growth parameter rule | option combinations. |
| C63 | A rejected engine can be entered later | C05's state machine; refuted by a three-operation history, recovery condition proved. |
| C64 | Finalising one model leaves other initialised models complete | model DAG with shared sub-models; refuted by witness. |
| C65 | Chunk store lookup with error=False never raises | chunk store map; refuted by witness. |
| C66 | Merging worker chunk stores loses nothing | map merge over worker results. |
| C67 | Thread pool workers do not disturb each other | interleaving of worker steps on a shared store; refuted by witness schedule. |
| C68 | The iterative algorithm returns its last iteration in farm order | loop of C22 with abstract sweep; last iterate returned. |
| C69 | Iterative results come back in farm order | C11's gather/scatter in the iterative model list. |
| C70 | Wake model list order does not matter | fold over wake model list, permutation. |
| C71 | Upstream results survive farm extension in inhomogeneous wind | order from mean wind; refuted by witness. |
| C72 | Mixed up- and downwind wake models are rejected | decision function; characterisation. |
| C73 | Late pre-rotor models are rejected | merge of C18; characterisation. |
| C74 | A repeated model keeps its own state selections | C20's parameter indices; refuted by witness. |
| C75 | A speed-up never lowers the wind speed | R superposition fold; refuted by witness. |
| C76 | Product superposition is independent of the chunking | whole-array test in add_wake; refuted by witness chunking. |
| C77 | Top-hat partial wake weight refers to the target rotor | C33's weight; refuted for unequal diameters. |
| C78 | Cubic solver finds the real roots | R cubic roots, trigonometric branch; refuted/characterised. |
| C79 | Power mask thrust is consistent with the masked power | cubic from power and thrust; R algebra. |
| C80 | Rotor effective wind speed is never negative | R powers of averages; refuted by witness. |
| C81 | Rotor points lie on the rotor | R^3 geometry of the rotor points. |
| C82 | Superpositions compute the combination they are named after | superposition folds against closed formulas. |
| C83 | Wind profiles are non-negative | R ln/atan; refuted at the roughness length. |
| C84 | Distances to compound boundaries are safe and, outside unions, exact | min/infimum over geometry trees. |
| C85 | Capacity from an automatically determined nominal power is at most one | curve model, maximum. |
| C86 | Wake growth parameters in model names mean what is documented | string model of the number parser; characterisation. |
| C87 | A profile can stand in for a table column | column bookkeeping; refuted. |
| C88 | States can be initialised again | profile dict consumption; refuted. |
| C89 | Farm bounds enclose every turbine with the requested margin | min/max over R lists. |
| C90 | Generated coordinates enumerate their dimension | Data state machine. |
| C91 | Position array follows X, Y and H | Data state machine, refuted for updates. |
| C92 | State counters of slices | state counters of slices over nat lists. |
| C93 | Extra loop axes of size one are removed | squeeze model; refuted for two axes. |
| C94 | Explicit model parameters take precedence | lookup order model. |
| C95 | Dynamic wakes use the data of the state that caused them | state index arithmetic. |
| C96 | A mirror model without mirrors is no ground model | fold over mirrors; refuted by top-hat witness. |
| C97 | Sums of data models behave like chains | nested chains; refuted for defaults. |
| C98 | A mirrored wake is symmetric about the mirror plane | R symmetry. |
| C99 | Wake delta point variables | dict model; refuted when normalised. |
| C100 | Axisymmetric partial wakes weigh the wake by covered rotor area | two-circle areas of C32, telescoping ring sums. |
| C101 | Axisymmetric partial wakes have no blind position | selection masks; refuted at the rim. |
| C102 | Axisymmetric partial wakes average over the target's rotor | diameter lookup; refuted for unequal diameters. |
| C103 | Bastankhah 2016 deficits are bounded and recover | piecewise R functions with exp/sqrt. |
| C104 | Bastankhah 2016 wakes are continuous at the end of the near wake | one-sided limits with Coquelicot. |
| C105 | Yawed wake coordinates are shifted base coordinates | R^3 frame coordinates, lists of points. |
| C106 | Centreline points of a yawed wake lie on the wake's centreline | finite difference tangents, cross product. |
| C107 | Each Bastankhah 2016 model uses its own parameters | cache as option map over call sequences. |
| C108 | IEC wake turbulence is bounded, confined and decays | R, top-hat mask; monotone fractions. |
| C109 | Crespo-Hernandez wake turbulence has no jump and decays | Rpower; one-sided limits; refuted for given lengths. |
| C110 | TurbOPark wakes expand with the total turbulence intensity | antiderivative of sqrt(1+1/u^2) with Coquelicot; mean value theorem. |
| C111 | Centreline integrals are right-point sums, independent of the other targets | grid sums over nat, floor index, Riemann error with RInt; refuted beyond max length. |
| C112 | Vortex sheet blockage is bounded, decays and is mirrored | R, rounding by Flocq's ZnearestE; monotone fractions. |
| C113 | Self-similar blockage is bounded, decays and is mirrored | cosh/Rpower monotonicity; polynomial bounds. |
| C114 | Rathmann blockage grows towards the rotor | algebra of the half angle; exact on-axis value refutes growth. |
| C115 | Rankine half body never reverses the flow | R^3 algebra of the body shape. |
| C116 | Dynamic wakes follow the ambient wind | invariant over all histories of the chunk store (induction): every known point is on its path. |
| C117 | Converged dynamic wakes are complete | fixed point of the exchange: unblocked chunks leave no point to continue; induction over ages. |
| C118 | Dynamic wakes settle within the iterations | upper bound: induction over (iterations, chunk distance); lower bound: information travels one chunk per two iterations. |
| C119 | Dynamic wake results do not depend on the chunk size | exact values of a three-state example; invariant that wakes are cut at chunk borders. |
| C120 | Dynamic wakes in steady wind are straight wakes | nearest point within half a step, then R^2 algebra; index wrap-around at max_age 1. |
| C121 | Point results at a hub are the turbine's inflow | unfold both calculations to the sum over upstream turbines; counter examples with two limited models and with products. |
| C122 | Segregated partial wakes average the wake effect | algebra of weighted means; the paired ambient for equal counts by a concrete case. |
| C123 | Ambient point results need no farm results | symbolic evaluation of the argument checks. |
| C124 | Broadcast results survive recombination | index arithmetic over concatenated chunk blocks, induction over chunk lists. |
| C125 | Turbine models act on exactly the turbines and states that name them | case analysis on the selection kinds, np.all over the whole calculation, order of InitFarmData. |
| C126 | Models with two dimensional tables can be used in wind farms | numpy semantics of index tuples as a four-constructor type. |
| C127 | Two dimensional curves are evaluated at the turbine's own data | filter lemmas on selected cells; counterexample for the thrust wind speed. |
| C128 | Sector management ranges are sectors | modular arithmetic over R (representative in one turn). |
| C129 | Wake growth from turbulence intensity | symbolic evaluation of the lookups. |
| C130 | One-point flow stays within the time series and reproduces it at the reference point | OnePoint_Model follows calc_states_indices and calculate; every result is a convex combination of series values. |
| C131 | One-point flow carries the time series with the wind | Induction over the traced steps in constant wind gives a closed form; the deviations are separate _refuted theorems. |
| C132 | Timelines wake coordinates follow the path of the air | Timelines_Model follows get_wake_coos; invariant of the backward trace against the path specification Timelines_Spec. |
| C133 | Timelines in steady wind are straight wakes | Closed form of the trace for constant displacement; distances decrease until the step is found. |
| C134 | Timelines centreline points lie on the centreline | Closed form of the centreline loop for constant displacement; witnesses for changing wind, chunks, last state. |
| C135 | Streamline wakes follow the wind direction field | Stream_Model follows _calc_streamlines and _calc_coos with NaN as None; argmin characterised (NaN wins, else minimal). |
| C136 | Farm calculations with streamline wakes have wakes | farm_coos models the two accesses to the streamline data during a farm calculation. |
| C137 | Streamline turbine order is the downwind order | np.lexsort modelled by a stable lexicographic sort with NaN last; sortedness by the primary key. |
| C138 | Sequential loop hands out every state once | Seq_Model: the iterator as a state machine with failures; invariant over all call histories. |
| C139 | A second sequential loop repeats the first | Same machine; for SeqDynamicWakes the traces kept after a loop, closed form in steady wind. |
| C140 | Sequential reproduces the calculation of all states | Chunked evaluation with index offsets against single-state evaluation with offset 0. |
| C141 | Sequential dynamic wakes follow the wind | Seq_Model: traces by state, update per state; induction over states against the path specification of DynWakes_Spec; nearest trace by argmin. |
| C142 | Sequential dynamic wakes of a farm are those of its turbines | Rotor positions by downwind position; extensionality for equal orders, two-state counterexample. |
| C143 | Sequential dynamic wakes do not depend on the engine or on earlier evaluations | Updates in a subset of the states, and worker copies; closed form in steady wind. |
| C144 | Turbine positions set by SetFarmVars | SetVars_Model: load_data and InitFarmData for one turbine with numpy broadcasting as shape errors. |
| C145 | Hub heights and rotor diameters set by SetFarmVars | As C144, with None for NaN and defaults of the turbine type. |
| C146 | SetFarmVars once | State machine over the set of done offsets; induction over calls and chunks. |
| C147 | Window of FieldDataNC around the wind farm | FieldNC_Model: get_xy_bounds, self.sel, slices; membership characterised via min and max of lists. |
| C148 | Variables of FieldDataNC | Slots as positions in a list without repetitions; exact failure for fixed WD and WS. |
| C149 | Load modes of FieldDataNC | Loop of load mode fly over file sizes, proved equal to a slice of the concatenation by induction over files. |
| C150 | Interpolation of NaN values in FieldDataNC | pandas forward and backward interpolation as list functions; block lemma. |
| C151 | Interpolated wind vectors | Heights_Model: weighted sums of wd2uv vectors; polar form and trigonometry over the reals; product weights by induction over dimensions. |
| C152 | Heights in MultiHeightStates | scipy interp1d of the unit matrix for sorted heights, cell search and bounds. |
| C153 | Variables in MultiHeightStates | Sources of variables as an inductive type; two-node formula for the speed. |
| C154 | Turbine type FromLookupTable | Lookup_Model: arrays at addresses of a heap, in-place writes; two lookups. |
| C155 | LookupTable | pivot_table as sorted keys without repetitions, full-grid theorem by counting, interpolation weights of Heights_Model. |
| C156 | Window of WRGStates around the wind farm | Wrg_Model: numpy integer conversion, python slices with negative bounds, floor arithmetic. |
| C157 | States and weights of WRGStates | Product of bins and sectors; Weibull density over the reals. |
| C158 | Grid of a horizontal slice | Grid_Model (linspace, make_grid); Grid_Props: rounding of the number of points, coverage of turbines. |
| C159 | Grid of a vertical slice | Grid_Model.get_grid_xz, get_grid_yz; orthonormality of axes, coordinates by dot products. |
| C160 | Same data in all formats of slices | Grid_Model formats on lists; index arithmetic i*nb+j. |
| C161 | Mean over states in slices | Grid_Model.mean_data against Grid_Spec.weighted_mean. |
| C162 | Variables of slice data | Grid_Model.mean_data, np2np_sp with array shapes. |
| C163 | Limits, returned data and rotors of flow pictures | Grid_Model.mod_value, fig_data, ret_data, rotors. |
| C164 | Wind rose frequencies | Rose_Model: arange, bin of numpy histograms; Rose_Spec.in_sector modulo 360; double sums over bins. |
| C165 | Bin values of WindRoseBinPlot | Rose_Model.hist with values; bounds of weighted means. |
| C166 | Values in csv files of farm results | Writer_Model: data frames as lists of named columns; reset_index, set_index, select, rename; invariant that all columns stay right under all calls. |
| C167 | Turbine names in csv files | as C166; condition for set_index. |
| C168 | Calls of the results writer are independent | as C166; state of the writer after calls. |
| C169 | State-turbine tables | as C166; groups by turbine of a row-major table. |
| C170 | Renaming of columns in csv files | as C166 with renaming and the mutated dict. |
| C171 | netCDF files of farm results | as C166; distinct labels. |
| C172 | Files written and read via pandas | writing as a fold over the class-level dict of parameters. |
| C173 | One run of a parameter dictionary | Params: run_dict as a state-and-exception computation over the mutable dictionary, an arbitrary environment deciding success of every external call; log equality with a declarative plan. |
| C174 | Running a parameter dictionary again | Params: the dictionary after a run in closed form (spent), second run on it. |
| C175 | run_dict releases its engine | Params: invariant (tame computations neither start nor stop engines), case analysis over all crash points. |
| C176 | Result labels of output functions | Labels: invariant over the trace of calls and stores; string parsing of label[i,j] by induction. |
| C177 | Directories of input and output files | Paths: closed form of the configuration after any list of runs. |
| C178 | States read their file at every initialisation | Paths: fixed point of resolving, by induction on the number of initialisations. |
| C179 | windIO time series | WindIO: reader as a fold over the entries; invariant that the dictionary of fields holds what the resource says; lookup lemmas for the derived dictionaries. |
| C180 | windIO single conditions and wind roses | WindIO: invariant about coordinates. |
| C181 | windIO resources over time and height | as C179; transposition by induction. |
| C182 | windIO wind farms | WindIO: induction over turbines and layouts. |
| C183 | windIO wake expansion | WindIO + WakeK_Model: case analysis over constructors. |
| C184 | windIO flow field grids | WindIO: floor arithmetic. |
| C185 | foxes_windio command line options | WindIO + Params_Model: equality of runs. |
| C186 | XArrayEngine blocks | the blocks of xarray's chunk() with the minimum chunk sizes partition states and targets; results by C03_any_partition. |
| C187 | XArrayEngine gives each data set its own variables | packing and unpacking of named variables; equality with the data set's own block under compatible names, refutation otherwise. |
| C188 | Dask configuration belongs to the engine | heap of dicts; exact contents after any sequence of constructor calls. |
| C189 | Engine.map passes on its inputs | conversion rules of np.array on lists of scalars and tuples, then C04_pool_map_eq_map. |
| C190 | Worker pools end with their engines | invariant over histories of the engine life cycle extended by pools; orphaned pools stay alive in all continuations. |
| C191 | Layouts from tables | tables with labels and named columns; induction over the rows with pandas' lookup by label. |
| C192 | Layout csv files can be read back | C191 applied to the written table. |
| C193 | Layout JSON files can be read back | dict insertion semantics of the writer, then fold of the reader. |
| C194 | Random layouts | the regeneration loop over arbitrary random draws; invariant on exit. |
| C195 | netCDF files | both rounding passes with in-place semantics; exact characterisation of success. |
| C196 | Point calculation output | case analysis over shapes and options with abstract algorithm. |
| C197 | Names of turbine type files | TypeName: strings as character lists; split/join lemmas; induction over the parts of the name. |
| C198 | Names of pairs of turbine type files | TypeName: common prefix by induction. |
| C199 | Given parameters of turbine types | TurbType: dictionary lookup lemmas. |
| C200 | Turbine types from power coefficients | TurbType: Lipschitz bounds of piecewise linear interpolation by induction over the table. |
| C201 | Nominal power in file names | TurbType: from the lemmas for C199. |
| C202 | Names of rotor and partial wakes models | Book: the registered factories in their search order; matching lemmas of Factory; integer square root. |
| C203 | Names of wake frames with units | Book: as C202, unit endings. |
| C204 | Names of kTI turbine models | Book: as C202; short numbers. |
| C205 | Results do not depend on the choice of the processing order | AnyOrder: the results of one wake model as the unique solution of a system of equations, by induction along an admissible order; any order gives a solution. |
| C206 | Renumbering turbines with equal along-wind coordinates | AnyOrder: as C205, with the composition of permutations. |
| C207 | Farm order wake frame | AnyOrder: corollary of C205; concrete counterexample for unsorted lists. |
| C208 | Thrust to thrust coefficient | TMod: elementwise algebra. |
| C209 | Regularised square root | TMod: real analysis; derivative by gluing the two branches at x0. |
| C210 | Vertical profiles from data | TMod: stable argsort, uniqueness of the sorted table, piecewise linear curve specified independently of sorting. |
| C211 | Values at the rotor centres | TMod: the evaluation loop with partially updated farm data; invariant that only upstream turbines, which are final, contribute. |
| C212 | Turbine models as farm models | TMod: shapes of boolean masks. |
| C213 | Random states data | RandData: induction over draws and columns for an arbitrary generator. |
| C214 | Digits of written random states | RandData: counterexample for given digits; rounding error bound. |
| C215 | Random time series | RandData: the seed determines the state of the generator; counterexample seed 0. |
| C216 | Python code in input values | ExecPy: induction over nested values, arbitrary interpreter; counterexamples for leaking variables and ignored arguments. |
| C217 | Data books | DBook: fold over the history of calls, last added entry; counterexample for copying. |
| C218 | Moving and turning wind farm and wind | Symm: simulation of the farm calculation along corresponding turbines; isometry of wake coordinates and rotor points, invariance of argsort under shifts. |
| C219 | Mirror images of wind farms | Symm: as C218 with reflected coordinates. |
| C220 | Algorithms that share a model book: turbine types | Shared_Model: events create/calculate on the two objects of the book that have memory (controller types, rotor variables); last created algorithm decides; refuted by exchanged types. |
| C221 | Algorithms that share a model book: rotor variables | Shared_Model: rotor variables by induction over histories; agreeing histories are right, the first calculation decides for all later ones; refuted by concrete histories. |
| C222 | Parameters of farm calculations | CalcPars_Model: heap of dictionary objects, the loop of _collect_farm_models; exact parameters of each entry for every heap; refuted for entries of the controller. |
| C223 | Symmetric wind farms | Symm_Model: the reflection as turn, mirror image and turn back (C218, C219); symmetric farms by renumbering with ties (C206). |
| C224 | Areas from shape files | Shp_Model: nested lists of rings with the zone handed on from ring to ring, then Geom_Model; flattening by induction over the nesting; islands in holes refuted. |
| C225 | Names in shape files | Shp_Model: the loop over the names; errors exactly for missing names; equal and missing names refuted. |
| C226 | foxes_yaml command line options | Cli_Model: options as arguments of the run_dict model (Params_Model); from C173_run. |
| C227 | Wake effects at the points of a rotor | Sliced_Model: one source, one state, one target with its rotor points in wake coordinates; algebra on wd2uv and rotor points. |
| C228 | Variables and superpositions of wake models | Sliced_Model: dictionaries of deltas and superpositions; induction over the wake deltas. |
| C229 | Under-relaxation of the iterative algorithm | URelax_Model: python argument binding, the list of models of the first iteration; case analysis over the 32 entry point sets, induction over the list of models. |
| C230 | Turbines without thrust | FarmWakes_Model: filtering cells commutes with passes, sweeps and the order of calculation; Parked_Spec states the conditions, discharged for the superpositions of Superp_Model. |
| C231 | Results do not depend on the length scale | Symm_Model with positions, heights and diameters scaled; linear geometry, sorting invariant under positive factors, formulas of Induction_Model, TiWake_Model, Blockage_Model. |
| C232 | Directions modulo 360 in float arithmetic | Flocq binary64 rounding; exactness of fmod by mantissas and exponents; nearest-float argument at 360. |
| C233 | Numbers of wind direction sectors in float arithmetic | Relative rounding errors for the counts; executable Flocq division for n <= 160 and the witness 161. |
| C234 | The integration grid along a centreline in float arithmetic | Exact products and quotients of integers; witness dx = 12.6 by explicit mantissas. |
| C235 | Wind speed limits in float arithmetic | Absolute and relative rounding errors of the difference and the sum; monotonicity of rounding. |
| C236 | Animations show all pictures of all generators | Anim_Model: generators as lists of yields, one pass, the loop on fuel; invariant by induction over the number of pictures. |
| C237 | Pictures of a sequential run | Anim_Model: plugin state, fold over the states. |
| C238 | Stacks of slices | Slices_Model: slices with names, coordinates and attribute; the stack by concatenation. |
| C239 | Rotors, arrows and pixels in flow pictures | Fig_Model: rotor lines, arrows, transposed pixel grid; compared with the picture plane of Grid_Model by trigonometry. |
| C240 | Pictures of power and thrust curves | Plots_Model: exact arange of Rose_Model, loop over variables with axes; induction over the variables. |
| C241 | Heat maps of states and turbines | Plots_Model: bounds, cells, ticks. |
| C242 | Labels of rotor point weights | Plots_Model: the loop downwards as structural recursion; invariant about the labels so far. |
| C243 | Wind farms that do not reach each other | FarmWakes_Model: filtering cells commutes with passes, sweeps and the order of calculation; effects on the marked turbines are arbitrary. |
| C244 | The order of superposed wakes in float arithmetic | Model the superpositions on Flocq floats (round to nearest even, gradual underflow, no overflow); backward error induction over the list of wakes. |
| C245 | All wind speeds multiplied by a factor | Relate the runs of both farms step by step (a relation per superposition between accumulated values), induction over passes, models and iterations. |
| C246 | Accuracy of converged iterative results | Distances between result arrays; the sweep as a map on wind speeds; contraction implies uniqueness, existence (completeness of R), geometric error and number of iterations of the loop of C22; superpositions shown to be 1-Lipschitz (Minkowski for powers). |
| C247 | Small changes of the wind speeds | Two runs of the pass over the turbines with near inputs; Lipschitz constants of superpositions (from C246); limits act as a clamp of ambient plus delta; induction over the processing order, transport to farm order. |
| C248 | Classes selected by name | Classes as a list in order of definition with names and bases; __subclasses__ as a filter; recursion bounded by the number of classes; inheritance as an inductive relation; iteration order of the set as any list with the same members; foxes.engines as a concrete table. |
| C249 | Pictures of areas | AreaPic_Model: taking sizes and corners out of the dictionary, replacement of infinite corners, margins, nodes, values per fill mode, in-place changes. Colours by the index arithmetic of flattened grids; window by the box theorems of C41; half planes by a case analysis of the normals of the plane and its inverse. |
| C250 | Complete farm calculations | Whole_Model puts the models of the other files together (Symm_Model calc with Jensen or Gauss deficit, superposition with limits, rotor_wd, centre rotor, curves); Whole_Spec writes down the equations of the papers; existence by the downwind pass, uniqueness by solves_unique of AnyOrder_Proofs, bounds by ws_never_above and the curve lemmas. |
| C251 | Energy yields of complete runs | YieldRun_Model composes Whole_Model farm_results per state with the chunk sizes (Chunk_Model), the pool run (EngineRun_Model) and the evaluation (FarmEval_Model); proved from C250, C01, C03 and C44 by composition. |
| C252 | Wind and turbulence wakes together | Both_Model: two wake models on Symm_Model calc and on the sweeps of FarmWakes_Model; Both_Spec: equations for wind and turbulence; sweeps by sweeps_all and uniqueness by induction over the downwind order; two passes of the downwind algorithm by pass_solves; a row of three turbines refutes the downwind algorithm. |
| C253 | Flow fields of complete runs are the superposed wakes, whatever the engine and the other points | Flow_*: YieldRun_Model.run_farm followed by the chunked point calculation (PointWakes_Model.point_value with the wakes of Whole_Model); points equal to wind_at of Flow_Spec by the chunking lemma of C03 and the superposition lemmas of C250. |
| C254 | Further turbines take wind from the others, never give any | More_*: on the balanced results of C250 and the flow of C253; induction along the wind (finite, by counting turbines further upstream), superpositions monotone in each contribution. Counterexample with three turbines and wakes that do not grow. |
| C255 | Far behind a wind farm the wind has recovered | Recover_*: on C253; deficits tend to zero along the wind, combinations of N contributions are small if all contributions are, for each superposition. |
| C256 | The default engine only chooses how to calculate, never what | Default_*: the rule of DefaultEngine with exact reals, proved equivalent to an inequality between integers; runs by the chunking lemmas of C03. |
| C257 | Rotor averages over any set of rotor points are in balance with the wakes | Rotors_*: Symm_Model.calc with lists of wind speeds at the rotor points; every wake pass solves the equations of all rotor points (AnyOrder_Proofs), the solution is unique; means by tangent inequalities. |
| C258 | Wakes mirrored at the ground are in balance with the farm | Ground_*: as C250, every source with its images (Mirror_Model.reflect); the equations of all turbines are solved by the downwind pass and have one solution (AnyOrder_Proofs); symmetry by permuting contributions; comparison by induction along the wind as in C254. |
| C259 | Layout files are read by the reader of their ending | LayoutFile_*: pathlib suffix and text endings on Coq strings, decisions of add_from_file compared with the endings (named). |
| C260 | Misaligned turbines | Misal_Model: rotor results with yaw angle as state of the turbine; simulation to turbines annotated with the yaw angle the rotor sees, then uniqueness of balanced results. |
| C261 | Numbers in written tables | format as a function on sign, fraction and digits, giving characters; a reader of decimals as specification; reading what is written and rounding half to even by arithmetic of N; the table by induction over the columns |
| C262 | Turbulence model listed before the wind deficit model | the models of C252; the two passes as two systems of equations with unique solutions; existence, uniqueness and bounds for all farms; equality with the iterative algorithm for flat thrust; a row of three turbines with falling thrust as counterexample |
| C263 | Turbulence from point data by ready-made models | Point models as elements of the lists of ModelList: lookup of names in foxes.variables, items of the point data, results; the list semantics is the one of C60 and C97. Proved by induction over the models that a failing model makes every list that contains it fail, that a final model changes one variable only, and the formula for the turbulence intensity. |
| C264 | Outputs requested by a windIO file | The request as a record of optional entries, the two readers and the order in which they fail, the outputs list they build; the table and its file as selection by position and rounding; heights as the sorted set of hub heights, linspace or the given list. Proved for every accepted request what the files hold; refuted parts by the explicit request. |
| C265 | Blockage models alone with the downwind algorithm | Concrete model (UpWake_Model) on top of the farm wake loop, the self similar, self similar 2020 and Rathmann blockage and the superposition models; the upwind loop is the downwind loop in reverse order, so the balance follows by the same induction; uniqueness gives independence of numbering. |
| C266 | Wakes and blockage together with the iterative algorithm | iterations as fold over the other turbines; permutation invariance of superpositions; refuted for limits, which act on one wake model at a time. |
| C267 | The turbine model Calculator is applied to the turbine's own values | one state, turbines in processing order; loop over turbines as fold with invariant on all elements; number of applications counted exactly; refuted for in-place functions that ignore the selection. |
