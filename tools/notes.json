{
 "C01": {
  "note": "single-object completion and multi-object truncation/splitting"
 },
 "C02": {
  "note": "all clauses for every request history; 'same tokens => same program' only for requests of the same integer width, refuted across widths (key is tobytes())",
  "status": "proved"
 },
 "C03": {
  "note": "equality with recursive evaluation for every expression, every operator semantics, and trailing tokens; a value is only returned for a complete expression; success implies success of all subexpressions"
 },
 "C04": {
  "status": "proved",
  "note": "for every expression whose derivative operators have a variable as last argument, and for everything sampled under diff_right; the refutation shows the constraint is needed"
 },
 "C05": {
  "note": "one-step and whole-row routines, arities <= 2 (all operators of functions.py)"
 },
 "C06": {
  "note": "exact characterisation: inside the first argument of an effector; equals 'descendant' for unary effectors; refuted for binary ones",
  "status": "proved"
 },
 "C07": {
  "status": "proved",
  "note": "for max >= 3 (the refutation shows max = 2 is not enforced)"
 },
 "C08": {
  "note": "length prior alone and every subset of the default priors never stuck; refuted for three accepted configurations",
  "status": "proved"
 },
 "C09": {
  "note": "all six relations, descendant for unary effectors; for binary effectors exactly the first argument is protected (refutation)",
  "status": "proved"
 },
 "C10": {
  "status": "proved",
  "note": "for caps >= 1 (cap 0 refuted: first token is not masked)"
 },
 "C11": {
  "status": "proved",
  "note": "together with the length prior (refuted without it)"
 },
 "C12": {
  "note": "child/sibling/uchild and counting checks exact; descendant check exact under the stated conditions, refuted outside; lchild/rchild raise",
  "status": "proved"
 },
 "C36": {
  "note": "library of arities <= 2 for the partition; the rest for any library"
 },
 "C40": {
  "note": "counts are right iff soft priors come last; default order raises IndexError",
  "status": "proved"
 },
 "C41": {
  "note": "every history of imports and trainings, both models",
  "status": "proved"
 },
 "C13": {
  "status": "proved",
  "note": "for capacity >= 1 or unbounded; capacity 0 refuted (the queue then holds one item)"
 },
 "C14": {
  "note": "push/pop histories: distinct, bounded, no exception; top-k and maximum for one score per key (documented assumption) with exact CPython heapq sift operations; refuted for remove_same=True and for rescored items",
  "status": "proved"
 },
 "C15": {
  "note": "signed sum exact; recorded symbols under right_atomic; refutation otherwise",
  "status": "proved"
 },
 "C16": {
  "note": "arities <= 2; exact characterisation of failure"
 },
 "C17": {
  "note": "alignment always; range except for the re-fit after dropping the constant (refuted there)",
  "status": "proved"
 },
 "C34": {
  "note": "every non-empty list of complete terms"
 },
 "C35": {
  "note": "kinds, arity sequence and completeness preserved; refuted for the derivative constraint and for constants",
  "status": "proved"
 },
 "C43": {
  "note": "a shallow term is never rejected; refuted: the depth is estimated as log2 of the size, deep towers pass",
  "status": "proved"
 },
 "C44": {
  "note": "each accepted term mentions u or has exactly the shape shown; refuted by mul(x1,x1)",
  "status": "proved"
 },
 "C45": {
  "note": "every mixed history; refutations show the stale entry and the swapped fields",
  "status": "proved"
 },
 "C46": {
  "note": "soundness always; coverage when lengths all equal or all different (linked by a chain of close values); refuted in general",
  "status": "proved"
 },
 "C47": {
  "note": "monotone and attained; refuted: batch best dropped as near duplicate, IndexError with no expression",
  "status": "proved"
 },
 "C48": {
  "note": "Agrees with what sampling records for training (C48_as_recorded); differs by one step from the open slots shown while sampling (C48_as_seen, C48_open_slots_refuted).",
  "status": "proved"
 },
 "C18": {
  "note": "for every history with fair rewards (invalid <= 0, aggregated not NaN, at most 1e6); five refutations show what happens otherwise (crash without positive reward, NaN forgets the best, stability selection ...)",
  "status": "proved"
 },
 "C19": {
  "note": "complete characterisation incl. NaN, ties, None, totality; index of the quantile in exact arithmetic"
 },
 "C33": {
  "note": "proved for tables without NaN; of equal points only the first is reported (refutes the exact claim)",
  "status": "proved"
 },
 "C49": {
  "note": "bounds and monotonicity proved; inv_nrmse and R2 are accepted by name but unusable (refuted)",
  "status": "proved"
 },
 "C50": {
  "note": "for q at most the total weight; refuted when rounding makes the total smaller than q",
  "status": "proved"
 },
 "C51": {
  "note": "complete"
 },
 "C20": {
  "note": "max_depth >= 2; for max_depth < 2 generation always raises IndexError (refuted)",
  "status": "proved"
 },
 "C21": {
  "note": "variable names: no axis named like an operator, and a variable x is an axis (otherwise refuted by C21_field_x_refuted); termination needs two axes or the axis x in simple mode (C21_endless_refuted shows the endless loop otherwise)",
  "status": "proved"
 },
 "C23": {
  "note": "arrays abstract; regression itself is Train (C26)"
 },
 "C52": {
  "note": "names as produced by naming.py; variable names distinct"
 },
 "C53": {
  "note": "tensors and token functions abstract"
 },
 "C22": {
  "note": "Proved for every draw history when no initial individual scores NaN; NaN acceptance, the randint(0) crash it enables, and the discarding of perfect initial fits are refuted parts.",
  "status": "proved"
 },
 "C54": {
  "note": "Holds when no term is deleted; refuted for initial individuals (recorded as objects) and for candidates that lose terms (name tested before, recorded after).",
  "status": "proved"
 },
 "C55": {
  "note": "any library left behind by earlier runs; the expectation 'as good as the first run' is refuted",
  "status": "proved"
 },
 "C26": {
  "note": "Search and STRidge proved for every data set and least-squares routine (as an optimality hypothesis); refuted parts: NaN criterion kept, Lasso branch, un-rescaled early return, ties, DISCOVER's array/[] comparison.",
  "status": "proved"
 },
 "C25": {
  "note": "orders 1, 2 exact incl. boundary for all three copies (kd.utils, SGA incl. N-D axis, DISCOVER 1-4), order 4 interior, linearity, short inputs; refuted: order 3 has the wrong sign, other orders silently give zeros, DISCOVER 2-D routines wrap periodically",
  "status": "proved"
 },
 "C24": {
  "note": "Round trip proved exactly when no other listed axis spells the same suffix; refuted without a list of axes for multi-letter axes, for names ending in a newline, and for legacy keys equal to a field name.",
  "status": "proved"
 },
 "C56": {
  "note": "Proved for names that are valid; refuted: a reserved name such as d is rejected although a prefix would make it usable, and a bystander field can be renamed because an earlier renaming took its name.",
  "status": "proved"
 },
 "C57": {
  "note": "Proved without parameter fields; refuted for parameter fields, whose names are not checked (duplicates, derivative keys, left-hand-side derivative, wrong shape).",
  "status": "proved"
 },
 "C58": {
  "note": "Refuted for N-D datasets: any explicit choice raises TypeError (duplicate keyword).",
  "status": "proved"
 },
 "C59": {
  "note": "Proved: first evaluation of new terms, data without zeros, bounded drift in general; refuted: scoring x/u twice changes u, and then the value of u^2.",
  "status": "proved"
 },
 "C27": {
  "note": "Constructor modelled for both modes; every constructed dataset is consistent, every failure is ValueError, and all consistent arguments are accepted. Refuted corner: a pde_data dictionary lacking 'x' is accepted with a NaN coordinate when the field has one row. dtype conversions are not modelled.",
  "status": "proved"
 },
 "C28": {
  "note": "get_datapoint, random and uniform sampling, mesh and get_range proved for legacy datasets and N-D datasets with axes (x, t). Refuted: get_range excludes the upper bound (own boundaries lose the last row/column); spline sampling pairs values with transposed points; N-D datasets with another axis order, without x, or with three axes are misread.",
  "status": "proved"
 },
 "C60": {
  "note": "Refuted: the derivative is per index (unit spacing), so it is off by the factor of the grid spacing; proved exactly that factor for linear fields and the axis handling.",
  "status": "proved"
 },
 "C29": {
  "note": "Both sparse adapters (x-t grids and N-D grids): C29_split/C29_legacy/C29_nd prove the train and validation rows are the points and values of distinct grid cells, together exactly the sampled points (a sub-multiset when data_ratio shrinks them), with exact sizes; C29_colloc bounds the collocation points; C29_noise: noise changes only values; totality theorems. Refuted: data_ratio is applied twice with spline sampling; sample count ignored by spline sampling; random_state does not fix the split. Random draws are arguments constrained by without_replacement; rounding of int(total*ratio) in floating point is not modelled.",
  "status": "proved"
 },
 "C30": {
  "note": "C30_legacy, C30_nd: row k of the coordinate table and entry k of the flattened field belong to the same grid cell, in any number of dimensions and any axis order, and every cell occurs; C30_regular: the arrays for the grid search have the left-hand axis first and the derivative along it; exact on quadratics (C30_ut_exact). Refuted: cut_quantile does not cut parameter fields; uniformity of tiny time steps is not checked.",
  "status": "proved"
 },
 "C31": {
  "note": "every nested dictionary of plain values on estimators forming a tree with clean names (success, values set, others unchanged, keys that succeed are exactly nested names); any values for direct parameters; round trip for any sharing; unknown names; refuted: rejected calls are not atomic, shared sub-estimators, names ending in '_', KD_Discover/KD_DLGA/KD_Discover_Regression raise on every call",
  "status": "proved"
 },
 "C32": {
  "note": "status codes, temp files, what is submitted, for every failure point; refuted: an uploaded data file is never used by the runner",
  "status": "proved"
 },
 "C61": {
  "status": "proved",
  "note": "for every failure combination; KeyboardInterrupt/SystemExit inside training not modelled"
 },
 "C62": {
  "note": "all clauses for every click history; refuted extras: download failure drops a finished job, an errored run is announced as finished, local training forgets a running job",
  "status": "proved"
 },
 "C63": {
  "note": "for different numbers of x and t points; refuted for square data stored with x along rows, and for .npy uploads stored with t along rows; unreadable registered .mat gives None",
  "status": "proved"
 },
 "C64": {
  "note": "KD_SGA, KD_DLGA, KD_EqGPT exact; refuted for DISCOVER: registry keys differ from the ones looked up",
  "status": "proved"
 },
 "C65": {
  "note": "for instances made by the constructor or from_dict; update refuted as atomic, as normalising, and for method names",
  "status": "proved"
 },
 "C66": {
  "status": "proved",
  "note": "ASCII strings"
 },
 "C38": {
  "note": "Crossover exchanges modules, mutation and duplicate removal keep genomes well formed, selection keeps the best half, the best score never increases after the first generation. Refuted: the best individual of the initial population is lost (the initial scores are not used to order the population).",
  "status": "proved"
 },
 "C67": {
  "note": "Proved for every runnable configuration (population even for DLGA, at least as many individuals as generations rounded to even). Refuted otherwise: cross_over loops over n_generations/2 pairs, an odd population of DLGA shrinks, zero generations leave no coefficients.",
  "status": "proved"
 },
 "C68": {
  "note": "Holds right after delete_duplicates; refuted after select when scores tie.",
  "status": "proved"
 },
 "C70": {
  "note": "Proved for operator lists that are a prefix of the standard list. Refuted: operator_names is ignored, u_tt on the left is not styled. The printed text is represented by its parts (sign, magnitude in 1e-4, base/power pairs).",
  "status": "proved"
 },
 "C71": {
  "note": "Proved when all names exist. Refuted: an unknown name is skipped in the columns but counted and printed.",
  "status": "proved"
 },
 "C72": {
  "note": "Partition of pairs proved. Refuted: a full-grid fit shuffles dataset.usol in place, a second fit trains on wrong pairs.",
  "status": "proved"
 },
 "C73": {
  "note": "Loaded weights are of this run and have the smallest recorded error. Refuted: the recorded error is that of the weights one step before the saved ones.",
  "status": "proved"
 },
 "C37": {
  "note": "Extraction (any default names, terms, coefficients), its composition with evaluation of an evolved candidate, and the layout of the LaTeX text. Number formatting is a parameter; floats are rationals; the deepcopy of the elements and real_if_close are not modelled."
 },
 "C74": {
  "note": "Proved: every evolved term is drawn; in Leibniz notation the text is read back by an independent reader with the term's meaning, provided names are plain and no product ending in a sum is raised to a power. Refuted without the proviso (power of (u+x)(u+x)) and for subscript notation (d(u*u) and u*u_x have one text).",
  "status": "proved"
 },
 "C75": {
  "note": "Summary text proved; labels refuted: u_t and u are used whatever the target field and axis are, and the summary raises TypeError when the regression was skipped.",
  "status": "proved"
 },
 "C76": {
  "status": "proved",
  "note": "Stronger expectations are refuted with witnesses: nearest ancestor wins (C76_nearest_ancestor_refuted), lookups are independent of each other (C76_lookups_independent_refuted: a subclass of KD_PySR has no adapter until KD_PySR itself was looked up), a failed lazy import is retried (C76_failed_resolution_retried_refuted), unregister removes a pending lazy entry (C76_unregister_lazy_refuted)."
 },
 "C77": {
  "status": "proved",
  "note": "Refuted stronger expectations: a back end passed to one render call stays global (C77_backend_one_call_only_refuted); a raising configure() is not atomic (C77_configure_atomic_refuted)."
 },
 "C78": {
  "status": "proved",
  "note": "Refuted expectations: with the import order of examples/dlga_example.py KD_DLGA never gets an adapter (C78_dlga_example_refuted); `import kd; kd.viz` / `from kd import viz` recurses without end unless kd.viz was imported already (C78_kd_dot_viz_refuted); a failing `import kd.viz.core` succeeds when repeated (C78_failed_import_repeats_refuted). Internal modules of kd.dataset, kd.model.discover, kd.model.sga are summarised."
 },
 "C79": {
  "status": "proved",
  "note": "Values are exact rationals (no NaN, no integer wrap-around). Refuted stronger expectation: parity data do not flatten before subtracting, so an (n,1) column against an n-vector is rejected (C79_parity_flattens_first_refuted)."
 },
 "C80": {
  "status": "proved",
  "note": "Refuted stronger expectation: metadata are dropped by slicing (C80_metadata_kept_refuted)."
 },
 "C39": {
  "status": "proved",
  "note": "exact for every prior list except the empty one (refuted)"
 },
 "C81": {
  "status": "proved",
  "note": "exact condition; refuted for swapped default names"
 },
 "C82": {
  "status": "proved",
  "note": "finite floats as exact rationals with sign; refuted: non-finite, underflow to 0.0"
 },
 "C83": {
  "status": "proved",
  "note": "every history; refuted: a fit failing after validation desynchronises program and width"
 },
 "C84": {
  "status": "proved",
  "note": "operators elementwise and arbitrary; derivative and laplacian tokens excluded"
 },
 "C85": {
  "status": "proved",
  "note": "refuted: torch estimators zero the predictions"
 },
 "C86": {
  "status": "proved",
  "note": "over rationals, for any monotone square root"
 },
 "C87": {
  "status": "proved",
  "note": "aliasing not modelled; refuted for Python >= 3.10 (collections.Mapping)"
 },
 "C88": {
  "note": "positive history theorems; C88_failed_training_refuted and C88_cached_data_refuted show the mixtures a failed call leaves.",
  "status": "proved"
 },
 "C89": {
  "note": "exact; C89_niterations_refuted: extra_model_kwargs override the attribute.",
  "status": "proved"
 },
 "C90": {
  "note": "exact order; C90_lhs_shown_refuted: lhs is ignored when PySR has latex().",
  "status": "proved"
 },
 "C91": {
  "note": "exact; refutations for undrawable equations, one-sided options, empty data.",
  "status": "proved"
 },
 "C92": {
  "note": "ASCII white space for str.strip(); C92_single_formula_refuted shows texts that are left with inner dollar signs.",
  "status": "proved"
 },
 "C93": {
  "status": "proved",
  "note": "Proved for every grid and request list. _refuted theorems: panels can repeat; reported requests and shown times are not aligned."
 },
 "C94": {
  "status": "proved",
  "note": "Proved for every dimension and axis order. _refuted theorems: by default the plot compares the field with itself; edge deletion or metadata on another grid makes it raise."
 },
 "C95": {
  "status": "proved",
  "note": "Proved with the prediction sources as arguments. _refuted theorems: compare='original' falls back silently on shape mismatch; last fallback drops generated terms."
 },
 "C96": {
  "status": "proved",
  "note": "Proved for every dimension. _refuted theorems: the discovered equation is not used; the reported residual data mix two fields."
 },
 "C97": {
  "note": "C97_unknown_operator_refuted: a configured but unknown operator makes plot and fit use different columns.",
  "status": "proved"
 },
 "C98": {
  "note": "Stable sort order among equal coefficients left open by by_size (any order by decreasing size, ties in list order per model).",
  "status": "proved"
 },
 "C99": {
  "note": "C99_title_refuted: titles show the request.",
  "status": "proved"
 },
 "C100": {
  "note": "C100_second_field_comparison_refuted: os.rename only when the target is absent.",
  "status": "proved"
 },
 "C101": {
  "note": "C101_legend_refuted and C101_single_generation_refuted record real defects.",
  "status": "proved"
 },
 "C102": {
  "note": "C102_negative_index_refuted: mixed individuals for negative indices.",
  "status": "proved"
 },
 "C103": {
  "note": "C103_dlga_spatial_coords_refuted: spatial_coords is not read by the DLGA adapter.",
  "status": "proved"
 },
 "C104": {
  "note": "construct is __init__'s checks; values by kind.",
  "status": "proved"
 },
 "C105": {
  "note": "draws are arbitrary sequences allowed by the filter; softmax and sampling are arguments.",
  "status": "proved"
 },
 "C106": {
  "note": "with two refuted readings (quotients dropped, dangling operator).",
  "status": "proved"
 },
 "C107": {
  "note": "torch.topk is any descending permutation; NaN handled by the refuted theorem.",
  "status": "proved"
 },
 "C108": {
  "note": "numpy's least squares is an argument; arithmetic on rationals with infinities and NaN.",
  "status": "proved"
 },
 "C109": {
  "note": "Networks, training and files are arguments; events record the file system. Two properties are refuted with witnesses.",
  "status": "proved"
 },
 "C110": {
  "note": "Fields are any commutative differential algebra (commuting derivations); refutations use polynomials. env(u) is not modelled (not in the vocabulary).",
  "status": "proved"
 },
 "C111": {
  "note": "Drawing not modelled; rewards are extended reals with NaN excluded where needed; the mean is an argument.",
  "status": "proved"
 },
 "C112": {
  "note": "Rationals; one snapshot at a time; the sine etc. are arguments. The Laplacians are modelled on the plot side only; disagreements are refuted theorems.",
  "status": "proved"
 },
 "C113": {
  "note": "Rationals; griddata interpolation not modelled.",
  "status": "proved"
 },
 "C114": {
  "note": "SymPy's own parser is replaced by a grammar of the calls, sums, quotients and negations that occur; names outside SymPy's local dictionary are not modelled (SymPy splits them).",
  "status": "proved"
 },
 "C115": {
  "note": "SymPy's printing and the expansion of derivatives are an argument.",
  "status": "proved"
 },
 "C116": {
  "note": "Which of several equal minima np.argsort puts first is left open (any choice satisfies the theorem). Invalid programs (evaluate None) are not modelled.",
  "status": "proved"
 },
 "C117": {
  "note": "Networks and optimisers are arguments; losses are rationals, infinities or NaN.",
  "status": "proved"
 },
 "C118": {
  "note": "Term values are arguments, exact rationals.",
  "status": "proved"
 },
 "C119": {
  "note": "The searches, scores and refinements are arguments.",
  "status": "proved"
 },
 "C120": {
  "note": "Exact rationals; rounding of numpy's quantile is not modelled.",
  "status": "proved"
 },
 "C121": {
  "note": "",
  "status": "proved"
 },
 "C122": {
  "note": "Training, loading and rendering are arguments. ModuleNotFoundError is OtherError.",
  "status": "proved"
 },
 "C123": {
  "note": "The JSON of the parameters is read back as written.",
  "status": "proved"
 },
 "C124": {
  "note": "Gradio fires a change event when the value changes.",
  "status": "proved"
 },
 "C125": {
  "note": "Figures are opaque.",
  "status": "proved"
 },
 "C126": {
  "note": "The recurrent cell, soft priors and random draws are arguments; one row of the batch. C126_permitted connects to C07-C12.",
  "status": "proved"
 },
 "C127": {
  "note": "Exact logits of training and of sampling proved; general agreement refuted (C127_refuted).",
  "status": "proved"
 },
 "C128": {
  "note": "softmax and log_softmax are arguments; arithmetic over rationals with inf and NaN. Gradients themselves are not modelled, only the loss as a function of the log probabilities. Default settings refuted.",
  "status": "proved"
 },
 "C129": {
  "note": "One-hot encoding; the embedding branch fails (C130).",
  "status": "proved"
 },
 "C130": {
  "note": "Exact characterization; the documented alternatives are refuted.",
  "status": "proved"
 },
 "C131": {
  "note": "Layers are arguments that see exactly the unmasked positions (weight of a masked position is exactly 0).",
  "status": "proved"
 },
 "C132": {
  "note": "Uses C105/C106 for what a run stores; reachability refuted.",
  "status": "proved"
 },
 "C133": {
  "note": "random.sample is an argument drawing different positions.",
  "status": "proved"
 },
 "C134": {
  "note": "Entries of x are arrays; at most nine coordinates.",
  "status": "proved"
 },
 "C135": {
  "note": "Rounding of the floating point bounds is arbitrary except in the both-ends theorem, which is exact.",
  "status": "proved"
 },
 "C136": {
  "note": "The value of a whole program with its constants is an argument; the default mode uses the modelled executor.",
  "status": "proved"
 },
 "C137": {
  "status": "proved",
  "note": "Networks are arguments with their derivatives (differentiable: epsilon-delta over Q); standard deviations are an argument. The refuted part is C137_origin_refuted."
 },
 "C138": {
  "status": "proved",
  "note": "C138_scale_refuted gives the general inequality, C138_scale_witness an exact instance."
 },
 "C139": {
  "status": "proved",
  "note": "int(0.1 n), int(0.9 n) are taken exactly."
 },
 "C140": {
  "status": "proved",
  "note": "Arrays live in a heap so that aliasing is visible. Division by a zero spacing is not modelled."
 },
 "C141": {
  "status": "proved",
  "note": "File contents are an argument; the three chafee-infante files count as one."
 },
 "C142": {
  "status": "proved",
  "note": "Names of dict in Python 3.11."
 },
 "C143": {
  "status": "proved",
  "note": "Level names in capitals; the standard library's level and propagation rules are part of the model."
 },
 "C144": {
  "status": "proved",
  "note": "Operators are the registered table, transcribed; str(float32) is an argument printing numerals. decision_tree_threshold_set and torch_add (unused) are left out. The claim that parameter names cannot disturb constraints is refuted (C144_param_diff_refuted, for every such request)."
 },
 "C145": {
  "status": "proved",
  "note": "Functions are names. The 'subgrid' branch is not modelled."
 },
 "C146": {
  "note": "np.linalg.lstsq, np.std and the random draws are arguments of the model with the stated property (least squares, a deviation); exact rationals, nan/inf as None",
  "status": "proved"
 },
 "C147": {
  "note": "graphviz is modelled as the lists of nodes and edges handed to it, with its colon rule; str(token) is an argument",
  "status": "proved"
 },
 "C148": {
  "note": "the score of an expression under a task is an argument; samples are part of the history (np.random/torch generators are global and reseeded at import); best-program bookkeeping is Searcher.v's; stability selection off",
  "status": "proved"
 },
 "C149": {
  "note": "names are ASCII; explicit target_field/lhs_axis are C58; the heat maps of plot_figures are only modelled as file names",
  "status": "proved"
 },
 "C150": {
  "note": "library with distinct names, derivatives of arity 2; sampling as in C21",
  "status": "proved"
 },
 "C151": {
  "note": "float parsing of a word is a parameter; set_constants in the order of const positions",
  "status": "proved"
 },
 "C152": {
  "note": "svd is a parameter (any vector of the right length; recovery for unit kernel vectors); floats are rationals; v_0 = -1e-8 excluded",
  "status": "proved"
 },
 "C153": {
  "note": "Batch_Norm=True, the optimiser and the distribution of the random weights are not modelled",
  "status": "proved"
 },
 "C154": {
  "note": "np.load is a parameter giving a table of rows",
  "status": "proved"
 },
 "C155": {
  "note": "rows are the tokens since the start; the controller's own bookkeeping for several objects is not modelled",
  "status": "proved"
 },
 "C156": {
  "note": "NdFigures.v on the data contracts of VizData.v; cells, coordinates, colour range and title time are kept of a picture; exact rationals. C156_residual_map, C156_steps, C156_comparison_2d, C156_comparison, C156_same_plane, C156_titles, C156_refused, C156_options_refuted.",
  "status": "proved"
 },
 "C157": {
  "note": "LegacyDlga.v; metadata columns flattened; attributes other than metadata are present; exact rationals.",
  "status": "proved"
 },
 "C158": {
  "note": "LegacyDlga.v; colour arrays of length 3 or 4 that matplotlib could read as one RGB colour are not treated separately.",
  "status": "proved"
 },
 "C159": {
  "note": "LegacyDlga.v; an improvement numpy prints as inf or nan is None.",
  "status": "proved"
 },
 "C160": {
  "note": "LegacyDlga.v on the data contracts of VizData.v; the coordinates option (colours) is left out.",
  "status": "proved"
 },
 "C161": {
  "note": "Decoding of text, SciPy's and NumPy's readers and the value of a cell are arguments; paths in pathlib's normal form.",
  "status": "proved"
 },
 "C162": {
  "note": "Values are rationals and the standard deviation is an argument constrained to be the square root of the variance; columns with spread 0 (NaN or infinity in NumPy) are excluded.",
  "status": "proved"
 },
 "C163": {
  "note": "Products of sizes and ratios are exact rationals, not floats.",
  "status": "proved"
 },
 "C164": {
  "note": "Tokens are library indices, none is both an axis and a state variable; evaluation and closeness of values are arguments.",
  "status": "proved"
 },
 "C165": {
  "note": "Exact rationals; scipy's griddata is an argument (any partial function of the points and values); drawing is a list of marks.",
  "status": "proved"
 }
}