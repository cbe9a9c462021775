import json
props=[json.loads(l) for l in open('/verif/properties.jsonl')]
how={
"C01":"Engine.calc_chunk_sizes over Z, branch by branch, the `while` on fuel with an explicit out-of-fuel error; prove it never runs out, lists are >=1 and sum up.",
"C02":"same model; balancedness for all inputs; `<= size` refuted by a witness, `<= size+1` proved.",
"C03":"chunk loop + combine_results over matrices (lists of lists), per-pair oracle function; futures as an arbitrary completion permutation filling a keyed map; equality by induction on the chunk lists.",
"C04":"np.array_split + ordered collection of futures; equality with List.map.",
"C05":"state machine (global slot, per-engine flags), invariants over fold_left of ops.",
"C06":"function of two options; refuted.",
"C07":"tree of models with flags, ops returning result or error; invariant over histories.",
"C08":"algorithm stores as finite maps; set/unset_running as tree traversals; round trip.",
"C09":"calc_farm as steps with an oracle deciding the raising step; refuted, and the exact reachable end state proved.",
"C10":"association-map model of the chunk store; operational laws by induction over histories.",
"C11":"permutation gather per state row; inverse via scatter model of `ORDER_INV[ssel,order]=arange`.",
"C12":"argsort as a stable insertion sort on keys; permutation + sortedness.",
"C13":"downwind loop over abstract contribution/evaluation functions; non-interference by induction on the order.",
"C14":"composition of C11-C13 models; equivariance under List permutations.",
"C15":"same pipeline; refuted on a 3-cycle; holds iff the order is an involution (proved).",
"C16":"same pipeline with SetFarmVars; refuted; exact characterisation.",
"C17":"same pipeline with SectorManagement/PowerMask index use; refuted; exact characterisation.",
"C18":"greedy merge as fuelled recursion over lists of lists; soundness by induction.",
"C19":"completeness of the greedy merge from a rank function.",
"C20":"collect_models/_analyze_models index arithmetic; refuted; correct case proved.",
"C21":"Jacobi sweep vs downwind loop over abstract pairwise contributions.",
"C22":"loop on a verdict stream; bounds by induction.",
"C23":"R-valued arrays as lists; iff-characterisation.",
"C24":"superpositions as folds over R; permutation invariance.",
"C25":"clamp arithmetic over R.","C26":"monotonicity over R.",
"C27":"vectorised add_wake with whole-array reset; refuted by witness; conditions for correctness proved.",
"C28":"R arithmetic by cases.","C29":"R trigonometry with a modelled atan2.","C30":"R arithmetic by cases.",
"C31":"R^2 rotation algebra.","C32":"R with acos; analytic bounds.","C33":"from C32.",
"C34":"R with acos/cos triple-angle and cube roots.","C35":"R sqrt algebra.","C36":"R algebra.","C37":"R exp monotonicity.",
"C38":"finite sums over R for grid/level weights, moments of constant inflow.","C39":"R ln/power algebra.",
"C40":"expression trees, membership as Prop/bool over abstract atoms; induction.","C41":"same trees with boxes over R.","C42":"R^2 segment projection geometry.",
"C43":"finite sums over R.","C44":"finite sums over R.","C45":"finite sums over R.","C46":"piecewise linear interpolation over R lists.",
"C47":"small heap model of numpy views vs copies; refuted by witness.","C48":"modify_cutin as table transformer; non-idempotence witness.",
"C49":"string model of check_match; round trip by induction on template segments.","C50":"refuted by witness string; characterisation proved.",
"C51":"FDict state machine.","C52":"lists over Q/R; cartesian product.","C53":"column bookkeeping over lists of names; refuted by witness, aligned case proved.",
"C54":"layout generators over Z/R.","C55":"heap model of shared python lists; refuted; private lists proved safe.",
"C56":"Data.add state machine on dimension sizes.","C57":"get_data lookup model; refuted for m/t sources, proved for f.",
"C58":"R; refuted (code takes the maximum), true bound proved.","C59":"fdata heights as function update; restoration by induction over mirrors.",
"C60":"fold over models with maps.","C61":"list filter model.","C62":"option combinations.",
"C63":"C05's state machine; refuted by a three-operation history, recovery condition proved.",
"C64":"model DAG with shared sub-models; refuted by witness.","C65":"chunk store map; refuted by witness.","C66":"map merge over worker results.",
"C67":"interleaving of worker steps on a shared store; refuted by witness schedule.","C68":"loop of C22 with abstract sweep; last iterate returned.",
"C69":"C11's gather/scatter in the iterative model list.","C70":"fold over wake model list, permutation.","C71":"order from mean wind; refuted by witness.",
"C72":"decision function; characterisation.","C73":"merge of C18; characterisation.","C74":"C20's parameter indices; refuted by witness.",
"C75":"R superposition fold; refuted by witness.","C76":"whole-array test in add_wake; refuted by witness chunking.","C77":"C33's weight; refuted for unequal diameters.",
"C78":"R cubic roots, trigonometric branch; refuted/characterised.","C79":"cubic from power and thrust; R algebra.","C80":"R powers of averages; refuted by witness.",
"C81":"R^3 geometry of the rotor points.","C82":"superposition folds against closed formulas.","C83":"R ln/atan; refuted at the roughness length.",
"C84":"min/infimum over geometry trees.","C85":"curve model, maximum.","C86":"string model of the number parser; characterisation.",
"C87":"column bookkeeping; refuted.","C88":"profile dict consumption; refuted.","C89":"min/max over R lists.","C90":"Data state machine.","C91":"Data state machine, refuted for updates.",
"C92":"state counters of slices over nat lists.","C93":"squeeze model; refuted for two axes.","C94":"lookup order model.","C95":"state index arithmetic.",
"C96":"fold over mirrors; refuted by top-hat witness.","C97":"nested chains; refuted for defaults.","C98":"R symmetry.","C99":"dict model; refuted when normalised.",
"C100":"two-circle areas of C32, telescoping ring sums.","C101":"selection masks; refuted at the rim.","C102":"diameter lookup; refuted for unequal diameters.",
"C103":"piecewise R functions with exp/sqrt.","C104":"one-sided limits with Coquelicot.","C105":"R^3 frame coordinates, lists of points.","C106":"finite difference tangents, cross product.","C107":"cache as option map over call sequences.",
"C108":"R, top-hat mask; monotone fractions.","C109":"Rpower; one-sided limits; refuted for given lengths.","C110":"antiderivative of sqrt(1+1/u^2) with Coquelicot; mean value theorem.",
"C111":"grid sums over nat, floor index, Riemann error with RInt; refuted beyond max length.","C112":"R, rounding by Flocq's ZnearestE; monotone fractions.","C113":"cosh/Rpower monotonicity; polynomial bounds.",
"C114":"algebra of the half angle; exact on-axis value refutes growth.","C115":"R^3 algebra of the body shape.",
"C116":"invariant over all histories of the chunk store (induction): every known point is on its path.","C117":"fixed point of the exchange: unblocked chunks leave no point to continue; induction over ages.","C118":"upper bound: induction over (iterations, chunk distance); lower bound: information travels one chunk per two iterations.","C119":"exact values of a three-state example; invariant that wakes are cut at chunk borders.","C120":"nearest point within half a step, then R^2 algebra; index wrap-around at max_age 1.",
"C121":"unfold both calculations to the sum over upstream turbines; counter examples with two limited models and with products.","C122":"algebra of weighted means; the paired ambient for equal counts by a concrete case.","C123":"symbolic evaluation of the argument checks.","C124":"index arithmetic over concatenated chunk blocks, induction over chunk lists.",
"C125":"case analysis on the selection kinds, np.all over the whole calculation, order of InitFarmData.","C126":"numpy semantics of index tuples as a four-constructor type.","C127":"filter lemmas on selected cells; counterexample for the thrust wind speed.","C128":"modular arithmetic over R (representative in one turn).","C129":"symbolic evaluation of the lookups.",
"C130":"OnePoint_Model follows calc_states_indices and calculate; every result is a convex combination of series values.","C131":"Induction over the traced steps in constant wind gives a closed form; the deviations are separate _refuted theorems.","C132":"Timelines_Model follows get_wake_coos; invariant of the backward trace against the path specification Timelines_Spec.","C133":"Closed form of the trace for constant displacement; distances decrease until the step is found.","C134":"Closed form of the centreline loop for constant displacement; witnesses for changing wind, chunks, last state.",
"C135":"Stream_Model follows _calc_streamlines and _calc_coos with NaN as None; argmin characterised (NaN wins, else minimal).","C136":"farm_coos models the two accesses to the streamline data during a farm calculation.","C137":"np.lexsort modelled by a stable lexicographic sort with NaN last; sortedness by the primary key.",
"C138":"Seq_Model: the iterator as a state machine with failures; invariant over all call histories.","C139":"Same machine; for SeqDynamicWakes the traces kept after a loop, closed form in steady wind.","C140":"Chunked evaluation with index offsets against single-state evaluation with offset 0.","C141":"Seq_Model: traces by state, update per state; induction over states against the path specification of DynWakes_Spec; nearest trace by argmin.","C142":"Rotor positions by downwind position; extensionality for equal orders, two-state counterexample.","C143":"Updates in a subset of the states, and worker copies; closed form in steady wind.",
"C144":"SetVars_Model: load_data and InitFarmData for one turbine with numpy broadcasting as shape errors.","C145":"As C144, with None for NaN and defaults of the turbine type.","C146":"State machine over the set of done offsets; induction over calls and chunks.",
"C147":"FieldNC_Model: get_xy_bounds, self.sel, slices; membership characterised via min and max of lists.","C148":"Slots as positions in a list without repetitions; exact failure for fixed WD and WS.","C149":"Loop of load mode fly over file sizes, proved equal to a slice of the concatenation by induction over files.","C150":"pandas forward and backward interpolation as list functions; block lemma.","C151":"Heights_Model: weighted sums of wd2uv vectors; polar form and trigonometry over the reals; product weights by induction over dimensions.","C152":"scipy interp1d of the unit matrix for sorted heights, cell search and bounds.","C153":"Sources of variables as an inductive type; two-node formula for the speed.",
"C154":"Lookup_Model: arrays at addresses of a heap, in-place writes; two lookups.","C155":"pivot_table as sorted keys without repetitions, full-grid theorem by counting, interpolation weights of Heights_Model.","C156":"Wrg_Model: numpy integer conversion, python slices with negative bounds, floor arithmetic.","C157":"Product of bins and sectors; Weibull density over the reals.",
"C158":"Grid_Model (linspace, make_grid); Grid_Props: rounding of the number of points, coverage of turbines.","C159":"Grid_Model.get_grid_xz, get_grid_yz; orthonormality of axes, coordinates by dot products.","C160":"Grid_Model formats on lists; index arithmetic i*nb+j.","C161":"Grid_Model.mean_data against Grid_Spec.weighted_mean.","C162":"Grid_Model.mean_data, np2np_sp with array shapes.","C163":"Grid_Model.mod_value, fig_data, ret_data, rotors.",
"C164":"Rose_Model: arange, bin of numpy histograms; Rose_Spec.in_sector modulo 360; double sums over bins.","C165":"Rose_Model.hist with values; bounds of weighted means.",
"C166":"Writer_Model: data frames as lists of named columns; reset_index, set_index, select, rename; invariant that all columns stay right under all calls.","C167":"as C166; condition for set_index.","C168":"as C166; state of the writer after calls.","C169":"as C166; groups by turbine of a row-major table.","C170":"as C166 with renaming and the mutated dict.","C171":"as C166; distinct labels.","C172":"writing as a fold over the class-level dict of parameters.",
"C173":"Params: run_dict as a state-and-exception computation over the mutable dictionary, an arbitrary environment deciding success of every external call; log equality with a declarative plan.",
"C174":"Params: the dictionary after a run in closed form (spent), second run on it.",
"C175":"Params: invariant (tame computations neither start nor stop engines), case analysis over all crash points.",
"C176":"Labels: invariant over the trace of calls and stores; string parsing of label[i,j] by induction.",
"C177":"Paths: closed form of the configuration after any list of runs.",
"C178":"Paths: fixed point of resolving, by induction on the number of initialisations.",
"C179":"WindIO: reader as a fold over the entries; invariant that the dictionary of fields holds what the resource says; lookup lemmas for the derived dictionaries.","C180":"WindIO: invariant about coordinates.","C181":"as C179; transposition by induction.","C182":"WindIO: induction over turbines and layouts.","C183":"WindIO + WakeK_Model: case analysis over constructors.","C184":"WindIO: floor arithmetic.","C185":"WindIO + Params_Model: equality of runs.",
"C232":"Flocq binary64 rounding; exactness of fmod by mantissas and exponents; nearest-float argument at 360.","C233":"Relative rounding errors for the counts; executable Flocq division for n <= 160 and the witness 161.","C234":"Exact products and quotients of integers; witness dx = 12.6 by explicit mantissas.",
"C235":"Absolute and relative rounding errors of the difference and the sum; monotonicity of rounding.",
"C236":"Anim_Model: generators as lists of yields, one pass, the loop on fuel; invariant by induction over the number of pictures.","C237":"Anim_Model: plugin state, fold over the states.",
"C238":"Slices_Model: slices with names, coordinates and attribute; the stack by concatenation.",
"C267":"one state, turbines in processing order; loop over turbines as fold with invariant on all elements; number of applications counted exactly; refuted for in-place functions that ignore the selection.",
"C266":"iterations as fold over the other turbines; permutation invariance of superpositions; refuted for limits, which act on one wake model at a time.",
"C265":"Concrete model (UpWake_Model) on top of the farm wake loop, the self similar, self similar 2020 and Rathmann blockage and the superposition models; the upwind loop is the downwind loop in reverse order, so the balance follows by the same induction; uniqueness gives independence of numbering.",
"C264":"The request as a record of optional entries, the two readers and the order in which they fail, the outputs list they build; the table and its file as selection by position and rounding; heights as the sorted set of hub heights, linspace or the given list. Proved for every accepted request what the files hold; refuted parts by the explicit request.",
"C263":"Point models as elements of the lists of ModelList: lookup of names in foxes.variables, items of the point data, results; the list semantics is the one of C60 and C97. Proved by induction over the models that a failing model makes every list that contains it fail, that a final model changes one variable only, and the formula for the turbulence intensity.",
"C262":"the models of C252; the two passes as two systems of equations with unique solutions; existence, uniqueness and bounds for all farms; equality with the iterative algorithm for flat thrust; a row of three turbines with falling thrust as counterexample",
"C261":"format as a function on sign, fraction and digits, giving characters; a reader of decimals as specification; reading what is written and rounding half to even by arithmetic of N; the table by induction over the columns",
"C260":"Misal_Model: rotor results with yaw angle as state of the turbine; simulation to turbines annotated with the yaw angle the rotor sees, then uniqueness of balanced results.",
"C259":"LayoutFile_*: pathlib suffix and text endings on Coq strings, decisions of add_from_file compared with the endings (named).",
"C258":"Ground_*: as C250, every source with its images (Mirror_Model.reflect); the equations of all turbines are solved by the downwind pass and have one solution (AnyOrder_Proofs); symmetry by permuting contributions; comparison by induction along the wind as in C254.",
"C257":"Rotors_*: Symm_Model.calc with lists of wind speeds at the rotor points; every wake pass solves the equations of all rotor points (AnyOrder_Proofs), the solution is unique; means by tangent inequalities.",
"C256":"Default_*: the rule of DefaultEngine with exact reals, proved equivalent to an inequality between integers; runs by the chunking lemmas of C03.",
"C255":"Recover_*: on C253; deficits tend to zero along the wind, combinations of N contributions are small if all contributions are, for each superposition.",
"C254":"More_*: on the balanced results of C250 and the flow of C253; induction along the wind (finite, by counting turbines further upstream), superpositions monotone in each contribution. Counterexample with three turbines and wakes that do not grow.",
"C253":"Flow_*: YieldRun_Model.run_farm followed by the chunked point calculation (PointWakes_Model.point_value with the wakes of Whole_Model); points equal to wind_at of Flow_Spec by the chunking lemma of C03 and the superposition lemmas of C250.",
"C252":"Both_Model: two wake models on Symm_Model calc and on the sweeps of FarmWakes_Model; Both_Spec: equations for wind and turbulence; sweeps by sweeps_all and uniqueness by induction over the downwind order; two passes of the downwind algorithm by pass_solves; a row of three turbines refutes the downwind algorithm.",
"C251":"YieldRun_Model composes Whole_Model farm_results per state with the chunk sizes (Chunk_Model), the pool run (EngineRun_Model) and the evaluation (FarmEval_Model); proved from C250, C01, C03 and C44 by composition.",
"C250":"Whole_Model puts the models of the other files together (Symm_Model calc with Jensen or Gauss deficit, superposition with limits, rotor_wd, centre rotor, curves); Whole_Spec writes down the equations of the papers; existence by the downwind pass, uniqueness by solves_unique of AnyOrder_Proofs, bounds by ws_never_above and the curve lemmas.",
"C249":"AreaPic_Model: taking sizes and corners out of the dictionary, replacement of infinite corners, margins, nodes, values per fill mode, in-place changes. Colours by the index arithmetic of flattened grids; window by the box theorems of C41; half planes by a case analysis of the normals of the plane and its inverse.",
"C248":"Classes as a list in order of definition with names and bases; __subclasses__ as a filter; recursion bounded by the number of classes; inheritance as an inductive relation; iteration order of the set as any list with the same members; foxes.engines as a concrete table.",
"C247":"Two runs of the pass over the turbines with near inputs; Lipschitz constants of superpositions (from C246); limits act as a clamp of ambient plus delta; induction over the processing order, transport to farm order.",
"C246":"Distances between result arrays; the sweep as a map on wind speeds; contraction implies uniqueness, existence (completeness of R), geometric error and number of iterations of the loop of C22; superpositions shown to be 1-Lipschitz (Minkowski for powers).",
"C245":"Relate the runs of both farms step by step (a relation per superposition between accumulated values), induction over passes, models and iterations.",
"C244":"Model the superpositions on Flocq floats (round to nearest even, gradual underflow, no overflow); backward error induction over the list of wakes.",
"C243":"FarmWakes_Model: filtering cells commutes with passes, sweeps and the order of calculation; effects on the marked turbines are arbitrary.",
"C240":"Plots_Model: exact arange of Rose_Model, loop over variables with axes; induction over the variables.","C241":"Plots_Model: bounds, cells, ticks.","C242":"Plots_Model: the loop downwards as structural recursion; invariant about the labels so far.",
"C239":"Fig_Model: rotor lines, arrows, transposed pixel grid; compared with the picture plane of Grid_Model by trigonometry.",
"C231":"Symm_Model with positions, heights and diameters scaled; linear geometry, sorting invariant under positive factors, formulas of Induction_Model, TiWake_Model, Blockage_Model.",
"C230":"FarmWakes_Model: filtering cells commutes with passes, sweeps and the order of calculation; Parked_Spec states the conditions, discharged for the superpositions of Superp_Model.",
"C227":"Sliced_Model: one source, one state, one target with its rotor points in wake coordinates; algebra on wd2uv and rotor points.",
"C228":"Sliced_Model: dictionaries of deltas and superpositions; induction over the wake deltas.",
"C229":"URelax_Model: python argument binding, the list of models of the first iteration; case analysis over the 32 entry point sets, induction over the list of models.",
"C226":"Cli_Model: options as arguments of the run_dict model (Params_Model); from C173_run.",
"C224":"Shp_Model: nested lists of rings with the zone handed on from ring to ring, then Geom_Model; flattening by induction over the nesting; islands in holes refuted.",
"C225":"Shp_Model: the loop over the names; errors exactly for missing names; equal and missing names refuted.",
"C223":"Symm_Model: the reflection as turn, mirror image and turn back (C218, C219); symmetric farms by renumbering with ties (C206).",
"C220":"Shared_Model: events create/calculate on the two objects of the book that have memory (controller types, rotor variables); last created algorithm decides; refuted by exchanged types.",
"C221":"Shared_Model: rotor variables by induction over histories; agreeing histories are right, the first calculation decides for all later ones; refuted by concrete histories.",
"C222":"CalcPars_Model: heap of dictionary objects, the loop of _collect_farm_models; exact parameters of each entry for every heap; refuted for entries of the controller.",
"C218":"Symm: simulation of the farm calculation along corresponding turbines; isometry of wake coordinates and rotor points, invariance of argsort under shifts.","C219":"Symm: as C218 with reflected coordinates.",
"C213":"RandData: induction over draws and columns for an arbitrary generator.","C214":"RandData: counterexample for given digits; rounding error bound.","C215":"RandData: the seed determines the state of the generator; counterexample seed 0.","C216":"ExecPy: induction over nested values, arbitrary interpreter; counterexamples for leaking variables and ignored arguments.","C217":"DBook: fold over the history of calls, last added entry; counterexample for copying.",
"C208":"TMod: elementwise algebra.","C209":"TMod: real analysis; derivative by gluing the two branches at x0.","C210":"TMod: stable argsort, uniqueness of the sorted table, piecewise linear curve specified independently of sorting.","C211":"TMod: the evaluation loop with partially updated farm data; invariant that only upstream turbines, which are final, contribute.","C212":"TMod: shapes of boolean masks.",
"C205":"AnyOrder: the results of one wake model as the unique solution of a system of equations, by induction along an admissible order; any order gives a solution.","C206":"AnyOrder: as C205, with the composition of permutations.","C207":"AnyOrder: corollary of C205; concrete counterexample for unsorted lists.",
"C202":"Book: the registered factories in their search order; matching lemmas of Factory; integer square root.","C203":"Book: as C202, unit endings.","C204":"Book: as C202; short numbers.",
"C197":"TypeName: strings as character lists; split/join lemmas; induction over the parts of the name.","C198":"TypeName: common prefix by induction.","C199":"TurbType: dictionary lookup lemmas.","C200":"TurbType: Lipschitz bounds of piecewise linear interpolation by induction over the table.","C201":"TurbType: from the lemmas for C199.",
"C191":"tables with labels and named columns; induction over the rows with pandas' lookup by label.",
"C192":"C191 applied to the written table.",
"C193":"dict insertion semantics of the writer, then fold of the reader.",
"C194":"the regeneration loop over arbitrary random draws; invariant on exit.",
"C195":"both rounding passes with in-place semantics; exact characterisation of success.",
"C196":"case analysis over shapes and options with abstract algorithm.",
"C186":"the blocks of xarray's chunk() with the minimum chunk sizes partition states and targets; results by C03_any_partition.",
"C187":"packing and unpacking of named variables; equality with the data set's own block under compatible names, refutation otherwise.",
"C188":"heap of dicts; exact contents after any sequence of constructor calls.",
"C189":"conversion rules of np.array on lists of scalars and tuples, then C04_pool_map_eq_map.",
"C190":"invariant over histories of the engine life cycle extended by pools; orphaned pools stay alive in all continuations.",
}
s=open('/verif/tools/design_head.md').read()
s+="\n## Per-property plan\n\n| id | property | model and proof |\n|---|---|---|\n"
for p in props: s+=f"| {p['id']} | {p['title']} | {how.get(p['id'],'see MANIFEST')} |\n"
open('/verif/DESIGN.md','w').write(s)
