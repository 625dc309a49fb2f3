# Design

Model: shallow Gallina transcriptions of the Python functions (exceptions as values, random draws and
numerical library calls as universally quantified oracles), in rocq/theories. Spec vocabulary is in
Trees.v and small `*Spec` sections. Theorems are in the `Props*.v` files.

## Plan per property

- **C01 Token completion always yields exactly one expression** - Model `_finish_tokens` over Z cumulative sums as written; random padding is an arbitrary list of input tokens of the required size. Spec: `complete` from Trees.v. Proof: slot counting.
- **C02 Program cache is transparent and its counters add up** - State machine over request history, cache = association list keyed by completed tokens. Invariant by induction over the history.
- **C03 Stack execution equals recursive evaluation of the expression** - Stack machine with fuel-free recursion (`push`/`reduce`), operators an arbitrary partial function. Refinement to recursive evaluation.
- **C04 Derivative operators differentiate with respect to their own second argument** - Same machine with the dimension flag in the state; proof that at a derivative node the flag is that of its right child.
- **C05 Parent and sibling features are those of the expression tree** - `parents_siblings`, the batched version and `get_next_obs` transcribed as loops; spec = parent/left sibling of the next open slot of a partial tree.
- **C06 Ancestor masks mark exactly the open subtrees of the effectors** - `ancestors` transcribed; spec = next slot lies under an effector; expected to hold for unary effectors only (refutation for binary).
- **C07 Length constraint bounds every sampled expression** - `LengthConstraint` masks transcribed with their early-return guards; sampling = any sequence of permitted draws; invariant on open slots.
- **C08 Length constraint never deadlocks the sampler** - Same model; existence of a permitted token at each step.
- **C09 Relational constraints forbid exactly the configured pairs** - Relational masks transcribed; theorem over any permitted sequence.
- **C10 Repeat constraint caps token occurrences** - Repeat mask; counting invariant.
- **C11 Every sampled expression depends on a state variable** - NoInputs mask; invariant on open slots.
- **C12 Constraint-violation checkers agree with the tree relation** - Checkers transcribed; agreement or refutation against tree relations.
- **C13 Unique memory queue: no duplicates, bounded, most recent kept** - UniqueQueue as a step function over push; invariant and refinement to 'last distinct pushes'.
- **C14 Priority memory keeps the best distinct programs** - heapq modelled by sift operations; permutation/heap invariant; top-k theorem.
- **C15 Splitting an expression into terms preserves its value** - `rebuild_tree`/`split_forest` on binary trees; value semantics in Z (any commutative ring); proof or refutation of sum preservation.
- **C16 Tree building and preorder flattening are mutually inverse** - Recursive `rebuild_tree`/`build_tree` with explicit consumed counts, against Trees.v.
- **C17 Regression terms and coefficients stay aligned and bounded** - Filter of terms / solver as oracle; alignment lemma.
- **C18 Best program of a search never gets worse** - One-step transition of the best-tracking variables over arbitrary batches.
- **C19 Risk-seeking selection keeps exactly the elite** - Quantile over sorted list; filter.
- **C20 Randomly generated SGA trees are well formed** - Level-wise generation with random oracle; invariants on level sizes.
- **C21 SGA mutation preserves tree well-formedness** - Mutation with random oracle.
- **C22 SGA population is elitist, sorted and constant in size** - Population step with oracle offspring; sorted/truncated.
- **C23 SGA term evaluation keeps terms and columns aligned** - Deletion loop on aligned lists.
- **C24 Derivative keys round-trip** - Strings as lists of characters; rsplit model.
- **C25 Finite differences are exact on low degree polynomials** - Over R/Q with indices; field/ring.
- **C26 Sparse regression keeps the best error seen** - Iteration with oracle solver; best-so-far invariant.
- **C27 A dataset that constructs is consistent** - Constructor as decision function over shapes.
- **C28 Coordinate range selection and points are in bounds** - searchsorted model on sorted lists; sampling index oracle.
- **C29 Train/validation split is a partition of a sample without replacement** - Permutation oracle; firstn/skipn partition.
- **C30 Full-grid coordinates match the flattened field** - Strides / row-major unravel.
- **C31 Estimator parameters round-trip** - Parameter dictionaries as finite maps.
- **C32 Remote job status machine is consistent** - Status map finite; polling loop over status histories; failure points as oracle.
- **C33 Pareto front is exactly the non-dominated set** - The scan loop transcribed; spec non-dominated.
- **C34 DISCOVER tokens to equation terms recombination** - `reconstruct_tokens` + split.
- **C35 GA mutation in the DISCOVER aggregator preserves expression validity** - `mutate_single` with oracle.
- **C36 Library index arithmetic** - Library constructor transcribed.
- **C37 SGA equation rendering keeps coefficients and terms together** - Equation extraction transcribed.
- **C38 DLGA population operators** - DLGA population operators with oracle.
- **C39 Retrospective prior equals the stepwise prior** - `at_once` and the stepwise call transcribed over the same prior list; proof by induction over the priors and over the token sequence.
- **C40 Constraint counting reports one count per constraint** - `JointPrior.__call__` with its counter list, index errors as values; exact condition on the order of hard and soft priors.
- **C41 Configured constraints are in force in every training run** - Estimator as a state machine over imports and trainings; `make_prior` really pops the `on` key from the shared configuration.
- **C42 Operator set follows the current dataset only** - Function-set selection as a fold over dataset imports; theorem: result depends only on the last import.
- **C43 Depth limit on regression terms** - Term filter of `STRidge.calculate` transcribed (depth = log2 of size); two-sided bound plus a refuting tower.
- **C44 Every accepted term contains the unknown** - Same filter; shape analysis of every accepted term.
- **C45 Error log attributes each failure to the failing evaluation** - Invalid log as a state machine over mixed numpy/torch evaluations; every history by reverse induction.
- **C46 Removal of duplicate terms loses no distinct term** - `drop_duplicates` transcribed over exact values; soundness and coverage by induction on the scan.
- **C47 The aggregator never loses its best expression** - Aggregator call transcribed with oracle offspring; best-of invariant.
- **C48 Recombined programs are trained with the observations sampling would give** - Observation construction for recombined programs against the sampler of C05.
- **C49 Every accepted metric is usable and rewards accuracy and parsimony** - Metrics over rationals with square root as oracle where needed; bounds and monotonicity.
- **C50 Weighted quantile is the quantile of the weighted distribution** - `weighted_quantile` transcribed (sort, cumulative sum, argmax); against the distribution function.
- **C51 Filtering equivalent programs keeps one of each class** - `filter_same` transcribed; equivalence-class specification.
- **C52 Different SGA candidates have different names** - Infix rendering as lists of characters; injectivity by an unambiguous-parse argument.
- **C53 Torch evaluation is recursive evaluation with screening** - Torch stack machine (own fallbacks) refined to recursive evaluation with NaN/Inf screening.
- **C54 SGA scores each candidate once** - Population machine with the name library; counting how often each name is scored.
- **C55 SGA runs on one solver are independent** - Two runs on one solver: library of the first run carried over.
- **C56 Resolved field names never collide** - Collision resolution as a loop on character lists with fresh suffixes; total and collision free.
- **C57 SGA terminals are unique and aligned with the grid** - Registry construction transcribed; uniqueness and grid alignment of terminals.
- **C58 Explicit SGA target and left-hand side are honoured** - Keyword assembly of KD_SGA.fit_dataset as finite maps, duplicate keywords are TypeErrors.
- **C59 Scoring an SGA candidate does not change the data** - Evaluation loop with a store of mutable arrays; leaf caches alias user arrays; divide mutates its divisor.
- **C60 A dataset's derivative is the derivative with respect to its coordinate** - Dataset derivative over rationals, grid spacing explicit.
- **C61 A GPU run's result file tells what happened** - Runner `main` with every step failing or not (oracle); result file as function of outcomes.
- **C62 The web session tracks the GPU job consistently** - Web session as a state machine over clicks and platform answers; invariants over every history.
- **C63 Loading a dataset keeps every value at its coordinates** - Loaders as shape/orientation decisions on indexed arrays; value-at-coordinate specification.
- **C64 The page offers exactly the models the registry allows** - Registry table transcribed; membership characterised.
- **C65 Dataset metadata round-trips** - DatasetInfo as finite maps with declared fields; round trips.
- **C66 Comma-separated operator lists are parsed faithfully** - Character-list model of split/strip; parser specification.
- **C67 Which DLGA runs go through** - DLGA generations with explicit index errors; exact set of runnable configurations.
- **C68 DLGA individuals are separate** - Individuals in a heap; aliasing tracked through select and mutation.
- **C69 The printed DLGA equation is the fitted one** - Rendering as strings; independent reader reads back genes and coefficients.
- **C70 The LaTeX equation of DLGA shows the fitted equation** - LaTeX tokens; rounding error bound for displayed coefficients.
- **C71 DLGA's operator library matches the operator list** - Theta columns by name; mismatch of skipped names tracked.
- **C72 DLGA's training data are the data set's pairs and the data set is left alone** - Shuffle as permutation oracle on stores; alias of `usol` explicit.
- **C73 DLGA's derivatives come from the best checkpoint of this run** - Training loop over steps with checkpoint files as a store.
- **C74 LaTeX of an SGA term means the term** - Renderer as string functions on level tables; independent reader for Leibniz notation.
- **C75 The printed SGA equation names the quantities it relates** - Label inference and the summary string transcribed.
- **C76 The visualization registry finds the adapter of the exact class, else of the first registered ancestor** - Registry with lazy entries as state; class hierarchy an arbitrary ancestor relation.
- **C77 render never leaks matplotlib settings and enters the adapter only for a supported intent** - Facade as a state machine over matplotlib settings with failing callees.
- **C78 Which model classes can be plotted after a sequence of imports** - Module graph transcribed; import machine with partially initialised modules; every import sequence.
- **C79 Plot data containers accept exactly consistent data and hold true differences** - Arrays as shape + index function; constructor decisions, residual values pointwise.
- **C80 Slicing N-D field data to 2-D picks the requested plane and keeps every value** - Slicing as index remapping; clamping arithmetic.
- **C81 The named expression shows the user's variable names** - String functions transcribed (`replace`, join); renaming shown token by token, default names identity.
- **C82 Printed constants are the fitted constants** - `round`/`.6f`/`rstrip` transcribed; the text read back by an independent decimal reader.
- **C83 A regression estimator after any history of fits** - Estimator as state machine, engine an argument; induction over histories.
- **C84 Predictions are the expression's values row by row** - Columns and executor transcribed; row-wise semantics independent.
- **C85 Other estimators do not change a fitted regression model's predictions** - Shared class-level task/library as a store; events of other estimators.
- **C86 The regression reward prefers accurate and short expressions** - Reward over Q with clipped error; monotonicity.
- **C87 A user configuration overrides exactly the entries it names** - Nested dictionaries; path-wise specification.
- **C88 A PySR estimator after any history of fits** - State machine with arbitrary back end.
- **C89 The PySR back end receives exactly the configured arguments** - Keyword assembly as finite maps.
- **C90 The LaTeX text of a PySR model comes from the documented sources in order** - Decision function over the answers of each source.
- **C91 PySR plots show the model's predictions for the data and report the files written** - Plot functions as data builders, file system an argument.
- **C92 Equation texts are drawn as formulas in a figure of bounded width** - Math-mode wrapping and width arithmetic.
- **C93 SGA time slices show the grid times nearest to the requests** - clip/unique/argmin transcribed over Q; nearest-point specification, monotonicity.
- **C94 SGA field comparison shows both fields at the same grid point** - Named-axis grids, transposition as index remapping; context preparation modelled.
- **C95 SGA parity plot pairs prediction and target point by point** - Fallback chain as decision function; reshape as C-order list.
- **C96 SGA residual plot shows u_t minus the problem's template** - Residual arrays pointwise; slicing loop by induction on the axes.
- **C97 DLGA parity plot shows the fitted equation point by point** - Transcribed data builder; agreement with the library columns of the fit by induction over the genome.
- **C98 DLGA term charts show the largest terms in order** - Sorting specification (permutation, decreasing); grid arithmetic.
- **C99 DLGA time slices: one panel per requested time, nearest grid time** - argmin/linspace over Q; panels related to requests by Forall2.
- **C100 A DLGA plot's reported file holds that plot** - File system as a map; all call histories by induction.
- **C101 DLGA optimization plot shows the search history** - Entries with optional fields; builders as list functions.
- **C102 DLGA equation plot shows one individual's own terms and coefficients** - Three parallel lists; composed with the generation step of Dlga.v.
- **C103 Plot helpers pass on exactly the user's arguments and report in one line** - Signatures as a table; dictionary updates; lookup characterised for every key.
- **C104 KD_EqGPT accepts exactly the documented arguments** - Constructor checks on an argument type by kind; iff characterisation.
- **C105 EqGPT candidates** - Sampling loop with arbitrary draws filtered by the mask; induction over the loop, epochs and mask updates.
- **C106 EqGPT reported text** - Split at plus, keep first of equal factor multisets; inductive specification of products, idempotence.
- **C107 EqGPT top ten** - Search as a fold over epochs; invariant "every seen reward is listed or below the list", pigeonhole for the ten picked.
- **C108 EqGPT reward** - Column loop equals left-to-right product values at each point; row and column selection characterised; score relation per case.
- **C109 EqGPT surrogates** - Case loop over sorted names with an event log; induction gives the case set, order and clean-up; minimum index of the check points; regular expression specified by concatenation. Refuted: NaN validation error, training versus evaluation coordinates.
- **C110 EqGPT terms** - Each branch as an expression tree; the word's reading is a second tree written from its name; equality of values in every differential algebra. Refuted (witnesses in Z[e]/(e^2)): five words and one unused branch.
- **C111 DISCOVER history plots** - Loops over the recorded batches and epochs; maxima by induction, selections as arithmetic progressions; label clashes as refuted theorems.
- **C112 DISCOVER fields** - Both evaluators (search and plot) over the same term trees; equality by induction on the class of terms where they agree; the residual as an independent sum; the disagreements as refuted theorems.
- **C113 SPR time bins** - The five intervals over rationals; cover and disjointness by linear arithmetic.
- **C114 DISCOVER term text** - The f-strings as templates; a lexer and parser for the text as specification; round trip by induction on terms; values in every algebra.
- **C115 DISCOVER LaTeX equation** - The assembly loop with SymPy as an argument; rounding over rationals.
- **C116 Stability selection** - bincount/argmax over the winners; the candidate list reuses the deduplication of C11's file.
- **C117 Pretraining** - The loop with step and validation loss as arguments; invariant: the check point is the first best epoch.
- **C118 Refinement** - Residual over rationals; the loop as in C117; the objective with NaN.
- **C119 Iteration** - Searches, scores and refinements as arguments; a run is described round by round.
- **C120 Search data** - Quantile against sorted permutations; the cut as a filter of row numbers.
- **C121 Settings** - Imports fold over the settings record; scaling over rationals.
- **C122 Web training** - _run_local with training and imports as arguments; the shipped module list is concrete.
- **C123 GPU parameters** - Page fields to JSON parameters to the runner's call, compared with the local call.
- **C124 Page fields** - Field groups, presets and the model list under all histories of choices.
- **C125 Web plots** - run_viz over the viz configuration of C77's model and a list of directories.
- **C126 Sampling** - The sampling loop with the recurrent cell and the draws as arguments; loop invariant over the prefix.
- **C127 Training probabilities** - The unrolled cell over the recorded observations compared with the sampling loop; a counting cell refutes equality.
- **C128 Loss** - Sums over masked steps in extended rationals; the settings decide the terms; concrete witnesses for the shipped settings.
- **C129 Network input** - One-hot encodings are injective; ranges from the library's invariants.
- **C130 Network settings** - Constructor, first call and optimizer as a chain of checks; exact characterization.
- **C131 Fine-tuning loss** - The decoder with abstract layers over unmasked positions; prefix independence by induction over layers; the batch loss as a flat mean.
- **C132 Fine-tuning sentences** - _prepare_train_data against C105/C106's stored candidates.
- **C133 Rearranged equations** - Sentences cut at + and *; permutations characterized; multiset equality of products.
- **C134 Balanced coordinates** - Occurrences of x1, x2, ... in the printed token list; lemma: the separators of the print never complete an occurrence, so the count is the sum over names.
- **C135 Cropping of noisy data** - Row-major grid points; the slice of every axis equals the filter of surviving points; rounding of the bounds left open.
- **C136 Constants in equations** - Programs with own constant tokens beside the library tokens used by the regression; an unset constant stops every evaluation.
- **C137 Network derivatives** - metann.py and the autograd branch of context.py over rationals, networks with their derivatives as arguments; chain rule proved with an epsilon-delta derivative, loop invariant over the fields.
- **C138 Refined grid** - linspace, grid sums and their mean and variance in closed form; the scale is refuted for every uniform axis.
- **C139 Edge deletion** - index arithmetic on cropped arrays, second construction on the overwritten configuration.
- **C140 FiniteDifferenceOperator** - heap of arrays; exactness from C25, frame conditions for every call history.
- **C141 RegularData** - file system as an argument; the object's space list is shared with the data handed out.
- **C142 Attrdict** - association lists in insertion order; attribute and item histories compared by induction.
- **C143 setup_logger** - the logger tree as a function of names; induction over the number of calls.
- **C144 create_tokens** - the operator table as a list checked by computation once (membership, arities, protected versions); requests by `Forall2` between function_set and tokens; libraries through `make_library`.
- **C145 torch switch** - induction over the function set (dictionary) and over the expression.
- **C146 stability test** - the draws as a list with the ranges np.random.choice guarantees; least squares and deviation as hypotheses on the arguments; row-wise induction.
- **C147 expression tree picture** - the tree builder against `preorder`, the drawing as the list of nodes/edges a subtree adds; identifiers injective through the last underscore.
- **C148 several models** - the class attributes of Program as shared state, histories of calls; the cache as an invariant (every entry is what the current task says), the searcher by relational parametricity in its programs, isolation by simulation with the model's own history.
- **C149 SGA problem settings** - name normalisation as a function on strings against an independent spelling relation; label, data source, template and default check point as functions of the data set; templates as functions over Q; the slice curves of plot_figures as lists of points.
- **C150 named constraints** - the make_/…_prior functions of NamedPriors.v/Prior.v against a specification over tree positions (argument, first argument, later argument, neighbours, inside) and token names; proved from the general constraint theorems of C21 by showing which token sets each name selects.
- **C151 text to program** - from_str_tokens with the program cache of C28; words, numbers and placeholders as a written list (token, value), history invariant: values length = number of placeholders of the cached expression.
- **C152 DLGA's score** - get_fitness with the singular value decomposition as a function argument; spec: columns as products of powers written from the genome, mean squared error, exact recovery from a unit singular vector of a matrix with kernel of dimension one; counterexamples for dependent terms, sign and scale.
- **C153 network** - NN/Sin/Rational as lists of layers over Q; shape invariant (kept by training, which changes numbers only), batch evaluation row by row, value of one row as an inductive relation, oddness of a new network.
- **C154 tabular data** - load_regression over a file system argument with the shared var_names lists as state; names exported by the package as a literal list.
- **C155 several objects** - get_position, get_mask, RepeatConstraint and LengthConstraint for Program.n_objects > 1; rows are complete objects followed by one begun, read with a stack-free arity count independent of the model; sampling as an inductive relation over the length constraint.
- **C156 N-D figures** - _residual_plot_nd, _field_comparison and _field_comparison_nd on the data contracts of VizData.v: of a picture the cells, coordinates, colour range and title time are kept. Proved by induction on the axes cut, reusing C80; the two figures are compared with each other cell by cell.
- **C157 older parity figure** - plot_pde_parity with its in-place sum and its lookups that raise; proved equal, point for point, to the figure of the adapter (C97) whenever it is drawn, by induction on the modules.
- **C158 term figures** - plot_equation_terms on recorded columns; products characterised pointwise by recursion on the variable names.
- **C159 evolution figure** - plot_evolution: the curves by Forall2 with the entries, the improvement as a rational with its sign proved by nra.
- **C160 residual figure** - _build_residual_data and the summary of _residual, from C79 and sums over all index tuples.
- **C161 data files** - suffix/base name on strings, _find_file over the four extensions, csv cells through an abstract number reader; suffix characterised by `has_extension`.
- **C162 normalising** - normalize/unnormalize per column over Q, the standard deviation an argument; affine laws of mean and variance.
- **C163 splitting** - Python slices of a permutation of the sample numbers.
- **C164 spatial completion** - itertools.permutations as lists of picks, substitution by position; the variants characterised by the subsequences at axis, state and other places.
- **C165 SPR figures** - the figures as lists of marks with axis positions and values, griddata as an argument; broadcasting of one value, hstack and the 100 x 100 grid explicit.


## Where the code does not do what a user would expect

A property whose first wording turned out false of the code is stated in `properties.jsonl` with its exact
condition, and the failing case is a theorem `Cnn_..._refuted` with a concrete witness. The theorems with this
suffix are therefore findings about /repo, not gaps of the proof. No theorem is left with the suffix
`_partial`.

## Trusted base

- The kernel of Coq 8.16.1 (`coqc`, no kernel check switched off, no plugin beyond those loaded by the
  standard library; `vm_compute` is used for concrete cases, so the bytecode conversion is trusted too).
- Axioms: `Print Assumptions` follows every theorem of the `Props*.v` files and answers "Closed under the
  global context" for each of them. No file declares an axiom, parameter, functor or module type. Only the
  standard library is imported (`List`, `Bool`, `Arith`, `ZArith`, `QArith`, `Qround`, `Qabs`, `Lqa`, `String`,
  `Ascii`, `Decimal*`, `Permutation`, `Sorted`, `FinFun`, `Lia`).
- Fidelity of the transcription: each definition in a model file cites the file and lines of /repo it
  transcribes; that the Gallina text means what the Python text means is checked by reading only (the code
  cannot be run here).

## What is modelled, and how

- *Exceptions* are values (`res`, `out`, `vres`): the model says which exception, not its message, except where
  the message is the subject.
- *Random draws* (numpy, torch, controller sampling) are arguments: theorems hold for every sequence of draws.
- *Numerical back ends* (least squares, neural networks, autograd, optimisers) are arguments: theorems hold for
  every answer of the back end.
- *Floating point numbers* are rationals, with infinities and NaN where the code's behaviour depends on them
  (`Num.v`). Rounding of single operations is not modelled; where the code itself rounds (printing, `round`,
  float32 tie breaking) the rounding is transcribed.
- *Aliasing* is modelled by stores in the places where it matters (C31, C59, C68, C72, C140) and ignored elsewhere.
- *Histories*: every property about state is proved for all sequences of calls (C02, C13, C14, C18, C41, C42, C45,
  C54, C55, C62, C76, C77, C78, and the estimators), by induction over the history.

Modelled files: `kd/base.py`, `kd/__init__.py` (imports), `kd/dataset/{__init__,_base,_info,_registry}.py`,
`kd/runner.py`, `app.py` (not the Gradio layout), `kd/job.py`-style submission code, `kd/model/kd_discover.py` (setup and
function sets), `kd/model/discover/{library,program,execute,stridge,functions (diff),aggregator,ga_utils,searcher,
utils,adapter}.py`, `kd/model/discover/dso/{prior,subroutines,memory}.py`, `kd/model/discover/task/pde/pde.py`
(metrics), `kd/model/sga/sgapde/{tree,pde,solver,context,config,naming,equation,PDE_find}.py`,
`kd/model/{kd_sga,kd_dlga,dlga,kd_discover_regression,kd_pysr}.py`, `kd/model/discover/task/regression.py` (reward),
`safe_merge_dicts`, `kd/viz/{core,equation_renderer,_adapters/{pysr,sga},registry,_contracts,_style,_helpers,dlga_eq2latex}.py`,
`kd/viz/{api,_adapters/dlga,dlga_viz (optimization analysis)}.py`, `kd/model/kd_eqgpt.py`,
`kd/model/eqgpt/continue_train_GPT_all.py` (reward, mask, top list) and `gpt_model.py` (the filter of `GPT.step`; networks are arguments), `kd/model/eqgpt/calculate_terms.py` (not env(u)), `kd/model/eqgpt/read_dataset.py` (not get_words, calculate_words), the decoder masks of `gpt_model.py`, `MyDataSet`.
`kd/viz/_adapters/discover.py` (history plots, best program, time bins), `kd/viz/discover_viz.py` (109-373), `kd/viz/discover_eq2latex.py` (assembly).
`kd/model/kd_discover.py` (KD_Discover_SPR: iteration, settings), `kd/model/discover/{pinn,loss}.py` (loops and losses; the network is an argument),
`kd/model/discover/task/pde/{pde_pinn (parameters, targets),utils_noise (cuts)}.py`, `kd/model/discover/const.py`, `searcher.py` (stability selection).
`kd/model/discover/{controller,state_manager}.py`, `task/task.py` (HierarchicalTask), `config/__init__.py` (the recurrent cell, softmax and gradients are arguments or left out).
`ga_utils.py` (spatial_complete, complete, include_term), `kd/dataset/_base.py` (PDEDataLoader and readers), `utils_noise.py` (normalize, unnormalize), `utils_nn.py` (split_data), `kd/model/discover/functions.py` (operator table, create_tokens, add_torch_tokens), `Program.switch_tokens`, `PDEPINNTask.stability_test`/`cal_mse_cv`, `kd/model/discover/plotter.py` (expression tree picture), the class attributes of `Program` shared by all models of a process (`setup`, `set_task`, `from_tokens`, `r_ridge`, `Searcher.search`), `kd/model/sga/adapter.py` and `kd/model/sga/sgapde/config.py` (SolverConfig without the seed and `_find_data_file`), `kd/model/kd_sga.py` (fit_dataset settings, plot_results), `kd/model/sga/sgapde/visualizer.py` (plot_figures: slices), `kd/model/discover/program.py` (from_str_tokens, set_constants), `kd/model/discover/dso/prior.py` (the named constraints), `kd/model/dlga.py` (get_fitness), `kd/utils/utils_GA.py` (NN, Sin, Rational without Batch_Norm and without training), `kd/dataset/__init__.py` (load_regression, exported names). `kd/model/discover/dso/prior.py` (RepeatConstraint and LengthConstraint for several objects). `NdFigures.v` models the heat maps of kd/viz/_adapters/discover.py 326-536; `LegacyDlga.v` models plot_pde_parity, plot_equation_terms and plot_evolution of kd/viz/dlga_viz.py and the residual figure of kd/viz/_adapters/dlga.py 219-240, 343-372. `PropsSharper.v`, `PropsSharper2.v`, `PropsSharper3.v`, `PropsSharper4.v`, `PropsSharper5.v` and `PropsSharper6.v` hold theorems added to older properties after automatic mutation of the definitions showed parts of the model no statement depended on.
`kd/utils/{solver,attrdict,logging}.py`, `kd/data.py` (SparseData, RegularData).
`kd/model/sga/sgapde/metann.py` (training table and rows) and the autograd, metadata and edge branches of `context.py` (networks are arguments).

Not modelled: neural network training itself (PyTorch / TensorFlow graphs), the gradient step of the
controller (its loss is modelled), the
numerical accuracy of solvers, matplotlib drawing, HTTP traffic of the platform client, the
interpreted cython executor, text of log and warning messages.
