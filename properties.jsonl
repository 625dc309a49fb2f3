{"id": "C01", "title": "Token completion always yields exactly one expression", "statement": "Completing a sampled token sequence for a program (Program creation with finish_tokens, n_objects = 1) returns exactly one complete prefix expression: if some prefix of the sequence is already a complete expression the result is that (unique) prefix, otherwise the result is the whole sequence followed only by input tokens, as many as there are open argument slots. Completing a second time changes nothing.", "quantifier": "every library, every finite non-empty token sequence, every outcome of the random padding", "why_tests_cant": "The set of token sequences is infinite and the padding is random; tests see a handful of sequences.", "anchors": ["kd/model/discover/program.py:_finish_tokens", "kd/model/discover/program.py:from_tokens"]}
{"id": "C02", "title": "Program cache is transparent and its counters add up", "statement": "Requesting a program for a token sequence returns the program of the completed sequence; two non-skipped requests of the same integer width with the same completed tokens return the same program; on-policy plus off-policy counts of a program equal the number of requests that returned it, and the on-policy count the number of on-policy ones. (Across integer widths the cache does hold two programs for one sequence, because the key is the raw byte string.)", "quantifier": "every history of program requests (any tokens, any mix of on/off policy, skip_cache on or off)", "why_tests_cant": "It is a statement about every history of requests.", "anchors": ["kd/model/discover/program.py:from_tokens", "kd/model/discover/program.py:Program"]}
{"id": "C03", "title": "Stack execution equals recursive evaluation of the expression", "statement": "Executing the flat preorder token list of an expression returns the value obtained by evaluating the expression tree recursively, consumes all tokens and leaves nothing on the stack; an exception in any operator makes the whole execution fail rather than return a partial value.", "quantifier": "every expression tree, every assignment of operator semantics, every input data", "why_tests_cant": "Trees are unbounded; the evaluator is stateful (explicit stack, running dimension flag).", "anchors": ["kd/model/discover/execute.py:python_execute"]}
{"id": "C04", "title": "Derivative operators differentiate with respect to their own second argument", "statement": "In an executed expression each derivative operator diff(f, x_i) is applied with dimension index i of its own right argument, whatever other input variables occur elsewhere in the expression.", "quantifier": "every expression whose derivative operators have a variable as right argument", "why_tests_cant": "The dimension is passed through a variable shared by the whole traversal; which expressions confuse it is a question about all trees.", "anchors": ["kd/model/discover/execute.py:python_execute"]}
{"id": "C05", "title": "Parent and sibling features are those of the expression tree", "statement": "For every prefix of every expression, the parent and sibling reported to the policy for the next token (both by the one-step and by the whole-batch routine) are the true parent token (in parent numbering) and true left sibling of the next node of the tree, or the EMPTY markers where there is none.", "quantifier": "every library, every (possibly incomplete) preorder token sequence and every position in it", "why_tests_cant": "Unbounded trees; the routines reconstruct structure from flat lists with running counters.", "anchors": ["kd/model/discover/dso/subroutines.py:parents_siblings", "kd/model/discover/dso/subroutines.py:jit_parents_siblings_at_once", "kd/model/discover/task/task.py:get_next_obs"]}
{"id": "C06", "title": "Ancestor masks mark exactly the open subtrees of the effectors", "statement": "For a set of effector tokens the ancestor mask of a partial traversal is true exactly when the next token to be generated lies inside the first argument of an effector; for unary effectors this is: exactly when it will be a descendant of one. (For binary effectors 'descendant' fails: the second argument is not covered.)", "quantifier": "every library, every effector set and every partial traversal", "why_tests_cant": "Needs an argument for all trees and all nestings of effectors.", "anchors": ["kd/model/discover/dso/subroutines.py:ancestors", "kd/model/discover/dso/prior.py:RelationalConstraint"]}
{"id": "C07", "title": "Length constraint bounds every sampled expression", "statement": "If a sampler only draws tokens the length prior leaves possible, then every sampled expression is complete within max_length tokens and has at least min_length tokens; its root is never a terminal.", "quantifier": "every library containing a terminal, every min/max, every sequence of draws", "why_tests_cant": "Ranges over every sequence of random choices.", "anchors": ["kd/model/discover/dso/prior.py:LengthConstraint", "kd/model/discover/controller.py"]}
{"id": "C08", "title": "Length constraint never deadlocks the sampler", "statement": "At every step of sampling under the length prior (maximum at least 3, library with a terminal and, if a minimum is set, a unary token or minimum < maximum with some operator) at least one token has non-zero probability; the same holds for every subset of the default constraints that contains the default length prior. (Three other configurations the validation accepts do deadlock.)", "quantifier": "every library with a terminal and a non-terminal, every min <= max, every history of draws", "why_tests_cant": "Deadlocks need one specific arity history among infinitely many.", "anchors": ["kd/model/discover/dso/prior.py:LengthConstraint"]}
{"id": "C09", "title": "Relational constraints forbid exactly the configured pairs", "statement": "A sequence sampled under a child / left child / right child / sibling / unary-child / descendant (unary effectors) relational constraint contains no target token in the forbidden relation to an effector token, and the constraint masks no token that is not a target in that relation; for binary effectors the descendant constraint protects exactly the first argument (so a forbidden descendant in the second argument can be sampled).", "quantifier": "every library, target/effector set, relation and every sampled sequence", "why_tests_cant": "Ranges over all sampled trees.", "anchors": ["kd/model/discover/dso/prior.py:RelationalConstraint"]}
{"id": "C10", "title": "Repeat constraint caps token occurrences", "statement": "No sequence sampled under a repeat constraint with maximum m contains more than m constrained tokens.", "quantifier": "every token set, every m, every sequence of draws", "why_tests_cant": "Ranges over all histories of draws.", "anchors": ["kd/model/discover/dso/prior.py:RepeatConstraint"]}
{"id": "C11", "title": "Every sampled expression depends on a state variable", "statement": "Under the no-inputs constraint every completed sampled expression contains at least one state variable token.", "quantifier": "every library and every sequence of draws", "why_tests_cant": "Ranges over all histories of draws.", "anchors": ["kd/model/discover/dso/prior.py:NoInputsConstraint"]}
{"id": "C12", "title": "Constraint-violation checkers agree with the tree relation", "statement": "The violation check of a child / sibling / unary-child constraint answers true for a complete traversal exactly when some target is in the forbidden relation in the expression tree; the repeat, length and no-inputs checks are exact; the nested-trigonometry check and, if no effector is nested in an effector and there are as many effectors as (disjoint) targets, the descendant check are exact for 'inside the first argument'. (Left/right-child checks raise UnboundLocalError; outside those conditions the descendant check misses violations.)", "quantifier": "every library and every complete traversal", "why_tests_cant": "Needs agreement on all trees.", "anchors": ["kd/model/discover/dso/subroutines.py:jit_check_constraint_violation", "kd/model/discover/dso/subroutines.py:jit_check_constraint_violation_descendant_no_target_tokens", "kd/model/discover/dso/subroutines.py:jit_check_constraint_violation_descendant_with_target_tokens"]}
{"id": "C13", "title": "Unique memory queue: no duplicates, bounded, most recent kept", "statement": "After any sequence of pushes a unique queue holds no key twice, never more than its capacity, and holds exactly the most recently pushed distinct keys in order of last push, each with the data of its last push.", "quantifier": "every capacity, every sequence of pushes", "why_tests_cant": "It is an invariant of every history.", "anchors": ["kd/model/discover/dso/memory.py:UniqueQueue"]}
{"id": "C14", "title": "Priority memory keeps the best distinct programs", "statement": "After any sequence of pushes and pops the unique priority queue holds distinct keys, at most capacity many, and raises nothing; if each key is always pushed with one score, every evicted or rejected item scores no better than every kept one, and the maximum it reports is the largest ever pushed. (An item pushed again with another score, or remove_same=True, can lose better items.)", "quantifier": "every capacity, every sequence of pushes", "why_tests_cant": "Depends on a heap invariant over every history.", "anchors": ["kd/model/discover/dso/memory.py:UniquePriorityQueue"]}
{"id": "C15", "title": "Splitting an expression into terms preserves its value", "statement": "The value of an expression is the sum of the terms it is split into, each with the sign it has in the expression; no term is itself a sum; the recorded symbols are those signs whenever no right argument of a subtraction is itself a sum. (Otherwise the recorded symbols can be wrong: u-(u+u).)", "quantifier": "every expression tree, every valuation of the operators with add/sub interpreted as + and -", "why_tests_cant": "Ranges over all nestings of additions and subtractions.", "anchors": ["kd/model/discover/stridge.py:STRidge.split_forest", "kd/model/discover/stridge.py:STRidge.rebuild_tree"]}
{"id": "C16", "title": "Tree building and preorder flattening are mutually inverse", "statement": "Building a tree from a complete prefix token list and flattening it in preorder gives the list back; the number of tokens consumed is the whole list, and the number of tokens reported for each term is its real size.", "quantifier": "every complete prefix token list", "why_tests_cant": "Unbounded recursion over trees.", "anchors": ["kd/model/discover/stridge.py:STRidge.rebuild_tree", "kd/model/discover/stridge.py:build_tree", "kd/model/discover/stridge.py:STRidge.preorder_traverse"]}
{"id": "C17", "title": "Regression terms and coefficients stay aligned and bounded", "statement": "When a program is valid, the number of coefficients equals the number of kept terms, coefficient i belongs to term i and is printed beside it, and no coefficient is outside the thresholds - except after the second fit that follows dropping a tiny constant, whose coefficients are not checked.", "quantifier": "every list of candidate terms and every outcome of term evaluation and of the least squares solver", "why_tests_cant": "Depends on every interleaving of discarded and kept terms.", "anchors": ["kd/model/discover/stridge.py:STRidge.calculate", "kd/model/discover/stridge.py:STRidge.coef_calculate"]}
{"id": "C18", "title": "Best program of a search never gets worse", "statement": "Over any sequence of search iterations in which invalid programs score at most 0 and aggregated ones not NaN, the best reward never decreases, is at least every positive reward seen, belongs to an evaluated program (the one reported when stability selection is off); keep_history carries it into later searches and without it a later search is a fresh one. (Outside these conditions: crash on a batch without positive rewards, NaN forgets the best, stability selection reports another program.)", "quantifier": "every sequence of batches of rewards and invalidity flags", "why_tests_cant": "A statement about every history of the search.", "anchors": ["kd/model/discover/searcher.py:Searcher.search_one_step"]}
{"id": "C19", "title": "Risk-seeking selection keeps exactly the elite", "statement": "Elite selection keeps, from a batch, exactly the valid programs whose reward reaches the (1-epsilon) empirical quantile, in batch order, with all companion arrays filtered consistently; NaN rewards count as zero.", "quantifier": "every batch of rewards, every epsilon", "why_tests_cant": "All batches, with ties and NaN.", "anchors": ["kd/model/discover/searcher.py:Searcher.quantile_select"]}
{"id": "C20", "title": "Randomly generated SGA trees are well formed", "statement": "For maximal depth at least 2, every randomly generated SGA tree stores a term of the grammar: at every level exactly as many nodes as the arities of the level above demand, children at the recorded positions, height at most the maximal depth, the second argument of a derivative a differentiation variable. For maximal depth below 2 generation always raises IndexError.", "quantifier": "every symbol table, depth and every outcome of the random choices", "why_tests_cant": "Ranges over all random histories.", "anchors": ["kd/model/sga/sgapde/tree.py:Tree.__init__"]}
{"id": "C21", "title": "SGA mutation preserves tree well-formedness", "statement": "Mutating a tree that was generated (and any number of times mutated) yields a well formed tree with the same shape (level sizes, child positions and arities), provided no axis is named like an operator and a variable called x is an axis; mutation finishes when there are two axes or the axis x in simple mode. (A field called x is mistaken for an axis; with one axis not called x the redraw loop need not end.)", "quantifier": "every well formed tree and every outcome of the random choices", "why_tests_cant": "Ranges over all trees and random histories.", "anchors": ["kd/model/sga/sgapde/tree.py:Tree.mutate"]}
{"id": "C22", "title": "SGA population is elitist, sorted and constant in size", "statement": "After every generation of the SGA search started from an initial population without NaN scores, the population has its configured size, is sorted by score, every individual stands beside its own score, the scores are the best among all accepted ones, and the k-th best is never worse than in the previous generation. (A NaN score in the initial population is accepted as the best or leads to a crash, and initial individuals scoring below -100 are discarded however good.)", "quantifier": "every initial population and every sequence of crossover / mutation / replacement outcomes", "why_tests_cant": "A statement about every evolution history.", "anchors": ["kd/model/sga/sgapde/solver.py:SGA"]}
{"id": "C23", "title": "SGA term evaluation keeps terms and columns aligned", "statement": "After evaluation of a candidate PDE the columns of the regression matrix are exactly the values of the kept terms, in order; terms that evaluate to zero or that contain the left-hand-side derivative are removed from both.", "quantifier": "every list of terms and every evaluation outcome", "why_tests_cant": "Simultaneous deletion from several lists, for every pattern of deletions.", "anchors": ["kd/model/sga/sgapde/pde.py:PDE.evaluate_mse"]}
{"id": "C24", "title": "Derivative keys round-trip", "statement": "For valid field and axis names, parsing the key built for a derivative against the list of axes gives back field, axis and order exactly when no other listed axis spells the same suffix (in particular for axes with distinct initials), different derivatives then get different keys, and what parses is what was built. (Without a list of axes multi-letter axes do not round-trip, names ending in a newline are accepted, and a legacy key can be the name of a field.)", "quantifier": "every valid name, axis and order", "why_tests_cant": "Infinite set of names containing separators and digits.", "anchors": ["kd/model/sga/sgapde/naming.py:build_derivative_key", "kd/model/sga/sgapde/naming.py:parse_derivative_key"]}
{"id": "C25", "title": "Finite differences are exact on low degree polynomials", "statement": "On a uniform grid the finite difference routines return, at every grid point including the boundary, the exact derivative of every quadratic for orders 1 and 2 (all copies, any axis), the interior exact fourth derivative of quartics, are linear in the data, and report short inputs as stated. (Order 3 has the wrong sign, orders other than 1-4 silently give zeros, and the 2-D DISCOVER routines wrap around at the boundary: they are exact inside and on periodic data only.)", "quantifier": "every grid size, spacing and polynomial", "why_tests_cant": "Universally quantified over reals and sizes.", "anchors": ["kd/utils/utils_fd.py:FiniteDiff"]}
{"id": "C26", "title": "Sparse regression keeps the best error seen", "statement": "The tolerance search around sequential threshold ridge regression returns, with its own errors, the coefficient vector with the smallest criterion among all it tried (never worse than least squares, if the criterion of that is a number), and fails only if STRidge does; STRidge's result vanishes outside the surviving columns and no vector doing so fits better, unless all coefficients are below the tolerance at once or one equals it. (In those cases, with a NaN criterion, in the Lasso branch and in DISCOVER's copy when nothing is cut, this fails.)", "quantifier": "every data set, every tolerance schedule, every ridge solver", "why_tests_cant": "All iteration histories.", "anchors": ["kd/model/sga/sgapde/PDE_find.py:Train", "kd/model/discover/ga_utils.py:TrainSTRidge"]}
{"id": "C27", "title": "A dataset that constructs is consistent", "statement": "If a PDEDataset can be constructed, its field(s) have one axis per coordinate with matching length in the coordinate order and parameter fields have the shape of the field and only finite values; consistent arguments are accepted and stored as given in both forms; otherwise ValueError is raised. (A pde_data dictionary without coordinates is accepted, with a NaN coordinate, when the field has one row.)", "quantifier": "every combination of constructor arguments", "why_tests_cant": "The argument space is a product of modes and shapes.", "anchors": ["kd/dataset/_base.py:PDEDataset.__init__"]}
{"id": "C28", "title": "Coordinate range selection and points are in bounds", "statement": "For datasets of x-t form, point queries, random and uniform sampling and mesh return only points of the grid together with the field value at that same point, without repetition for random sampling, and range queries return exactly the grid values with lower bound <= coordinate < upper bound. (The upper bound is exclusive; uniform sampling can repeat points; spline sampling transposes; N-D datasets with another axis order or count are misread.)", "quantifier": "every dataset, every range", "why_tests_cant": "All grids and ranges.", "anchors": ["kd/dataset/_base.py:PDEDataset.get_range", "kd/dataset/_base.py:PDEDataset.sample"]}
{"id": "C29", "title": "Train/validation split is a partition of a sample without replacement", "statement": "The sparse DISCOVER adapters split the sampled points into train and validation rows that are grid points with their values at distinct cells, together exactly the sampled points (fewer when data_ratio shrinks them), with sizes determined by ratio; noise changes only the values; collocation points stay in the domain. (With spline sampling data_ratio is applied twice and the sample count ignored; random_state does not fix the split.)", "quantifier": "every dataset size, ratio and permutation", "why_tests_cant": "All sizes and random permutations.", "anchors": ["kd/model/discover/adapter.py:DiscoverSparseAdapter", "kd/data.py:SparseData"]}
{"id": "C30", "title": "Full-grid coordinates match the flattened field", "statement": "Row k of the flattened coordinate table handed to the PINN is the coordinate of the k-th entry of the flattened field, in any number of dimensions and axis order, and every cell occurs; the arrays for the grid search have the left-hand axis first with the derivative along it, exact on quadratics; uneven left-hand steps are refused. (cut_quantile does not cut parameter fields; steps below the comparison tolerance are not checked.)", "quantifier": "every number of dimensions and every shape", "why_tests_cant": "All shapes.", "anchors": ["kd/model/discover/adapter.py"]}
{"id": "C31", "title": "Estimator parameters round-trip", "statement": "For estimators forming a tree with clean names, get_params lists exactly the nested parameters; after set_params(**p) with plain values succeeds, get_params returns p for the set names and leaves all others unchanged; set_params succeeds whenever every name is listed and none is nested below another; an unknown name raises ValueError; set_params(get_params()) changes nothing. (A rejected call is not undone, shared sub-estimators and names ending in '_' behave differently, and KD_Discover, KD_DLGA and KD_Discover_Regression raise on every call.)", "quantifier": "every parameter dictionary, every nesting", "why_tests_cant": "All parameter sets.", "anchors": ["kd/base.py:BaseEstimator.set_params", "kd/base.py:BaseEstimator.get_params"]}
{"id": "C32", "title": "Remote job status machine is consistent", "statement": "Every status code maps to exactly one status or error as documented; temporary files are removed whatever happens; a job is submitted at most once, with exactly the configured content, and not at all without a project. (A data file uploaded with the job is never used by the runner.)", "quantifier": "every status history and every failure point", "why_tests_cant": "All histories and failure points.", "anchors": ["kd/job.py"]}
{"id": "C33", "title": "Pareto front is exactly the non-dominated set", "statement": "For cost tables without NaN the Pareto filter returns true for a row exactly when no other row is at least as good in every cost and strictly better in one and no earlier row is equal to it; without repeated rows that is exactly the non-dominated set. (Of equal rows only the first is reported; a NaN row removes every other point.)", "quantifier": "every finite set of cost vectors", "why_tests_cant": "The algorithm mutates the candidate set while scanning; all inputs matter.", "anchors": ["kd/model/discover/utils.py:is_pareto_efficient"]}
{"id": "C34", "title": "DISCOVER tokens to equation terms recombination", "statement": "Joining a list of term token lists into one program with the addition operator gives one complete expression whose split gives the terms back in order.", "quantifier": "every non-empty list of complete terms without top level additions", "why_tests_cant": "All lists of terms.", "anchors": ["kd/model/discover/aggregator.py:gpAggregator.reconstruct_tokens"]}
{"id": "C35", "title": "GA mutation in the DISCOVER aggregator preserves expression validity", "statement": "Mutating one token of a term replaces it by a token of the same kind, different unless there is no other candidate (hence keeps the arity sequence and a complete expression complete), with terminal_only leaves all operators, and crossover exchanges whole terms without losing or inventing any. (Mutation can put a non-variable under a derivative operator, and a constant token crashes it.)", "quantifier": "every complete term and every random choice", "why_tests_cant": "All terms and choices.", "anchors": ["kd/model/discover/ga_utils.py"]}
{"id": "C36", "title": "Library index arithmetic", "statement": "Terminal, unary and binary token index sets partition the library, name lookup inverts index lookup, EMPTY markers are distinct from all token indices, and parent numbering is injective on non-terminals.", "quantifier": "every token list", "why_tests_cant": "All libraries.", "anchors": ["kd/model/discover/library.py:Library"]}
{"id": "C37", "title": "SGA equation rendering keeps coefficients and terms together", "statement": "The structured equation extracted from an SGA result lists exactly the default and discovered terms whose coefficient is at least the tolerance (1e-5) in magnitude, in order, each with the coefficient that belongs to its own column of the regression matrix; no term is listed if the regression was skipped. In the LaTeX text every term with non-zero coefficient appears in order behind the sign of its coefficient, and its magnitude is left out only within 1e-5 of one.", "quantifier": "every list of terms and coefficients", "why_tests_cant": "All sign and zero patterns.", "anchors": ["kd/model/sga/sgapde/equation.py"]}
{"id": "C38", "title": "DLGA population operators", "statement": "Crossover, mutation, duplicate removal and selection of DLGA keep genomes well formed; selection keeps the best half; from the first generation on the best score never gets worse and the answer beats every individual scored. (The best individual of the initial population can be lost, because its scores are not used to order it.)", "quantifier": "every population and every random outcome", "why_tests_cant": "All evolution histories.", "anchors": ["kd/model/dlga.py"]}
{"id": "C39", "title": "Retrospective prior equals the stepwise prior", "statement": "Given a full token sequence and at least one prior, computing the joint prior at all time steps at once masks, at every step and for every prior, exactly the tokens that the step-by-step prior masks after the same history. (With no prior at all the at-once call raises IndexError.)", "quantifier": "all token sequences, prior lists and libraries", "why_tests_cant": "quantifies over all sequences and all combinations of priors", "anchors": ["kd/model/discover/dso/prior.py:JointPrior.at_once", "kd/model/discover/dso/prior.py:JointPrior.__call__"]}
{"id": "C40", "title": "Constraint counting reports one count per constraint", "statement": "With count_constraints on, a call of the joint prior adds to the count of each hard constraint the number of tokens it masked, provided no soft prior comes before a hard one; otherwise - the default configuration included - the call raises IndexError.", "quantifier": "all orders of priors, all calls", "why_tests_cant": "the order of priors is user configuration", "anchors": ["kd/model/discover/dso/prior.py:JointPrior.__call__"]}
{"id": "C41", "title": "Configured constraints are in force in every training run", "statement": "Over every history of import_dataset and train calls, the constraints in force are those the configuration switches on (and that validate) after they have been built once, and none at all after they have been built a second time. They are built at every import, and by the sparse model also at every training: so they are in force for the first import of the regular model only, and never when the sparse model trains.", "quantifier": "all histories of import_dataset/train calls and all configurations", "why_tests_cant": "histories of API calls", "anchors": ["kd/model/discover/dso/prior.py:make_prior", "kd/model/kd_discover.py:KD_Discover.setup", "kd/model/kd_discover.py:KD_Discover_SPR.train"]}
{"id": "C42", "title": "Operator set follows the current dataset only", "statement": "After importing a dataset the operator set contains the derivative tokens of that dataset's dimension and the non-derivative tokens of the base configuration, each once, and neither it nor the N-D settings of the sparse model depend on datasets imported before.", "quantifier": "all base function sets, dimensions and import histories", "why_tests_cant": "histories of imports", "anchors": ["kd/model/kd_discover.py:KD_Discover._auto_select_function_set", "kd/model/kd_discover.py:KD_Discover_SPR._inject_nd_config"]}
{"id": "C43", "title": "Depth limit on regression terms", "statement": "A term not deeper than the configured maximal depth is never rejected for its depth. (The converse fails: depth is estimated from the size, a tower of depth 16 passes the limit 4.)", "quantifier": "all terms and depth limits", "why_tests_cant": "terms of every shape", "anchors": ["kd/model/discover/stridge.py:STRidge.calculate"]}
{"id": "C44", "title": "Every accepted term contains the unknown", "statement": "In a valid expression every term has a token whose name contains 'u', and, if it has a derivative operator, a later token whose name starts with 'u'. (The check is on names: a term without state variable, such as mul(x1,x1), is accepted.)", "quantifier": "all expressions and evaluation outcomes", "why_tests_cant": "all expressions", "anchors": ["kd/model/discover/stridge.py:STRidge.calculate"]}
{"id": "C45", "title": "Error log attributes each failure to the failing evaluation", "statement": "After any history of numpy and torch evaluations, a numpy evaluation is reported invalid exactly when it emitted a warning or torch evaluations since the last numpy one left an entry in the log, and the first such entry is the one reported; with numpy evaluations only each is reported for its own first warning; a torch evaluation is reported for its own outcome. (A stale torch entry invalidates the next numpy evaluation; node and type of the error are swapped.)", "quantifier": "all histories of program evaluations, numpy and torch", "why_tests_cant": "histories", "anchors": ["kd/model/discover/stridge.py:InvalidLog", "kd/model/discover/stridge.py:unsafe_execute", "kd/model/discover/stridge.py:unsafe_execute_torch"]}
{"id": "C46", "title": "Removal of duplicate terms loses no distinct term", "statement": "Removing duplicates from a term library returns only members of the library, no two of them equal by the comparison used; if all lengths are equal or all are different, every removed term is linked to a kept one by a chain of equal values. (Otherwise an unrelated term can be lost; the comparison is by sum, so different columns can be merged.)", "quantifier": "all lists of terms, values and lengths", "why_tests_cant": "lists of every size and tie pattern", "anchors": ["kd/model/discover/ga_utils.py:drop_duplicates"]}
{"id": "C47", "title": "The aggregator never loses its best expression", "statement": "After every call the best reward of the aggregator is at least the previous best and at least that of the last recombined program, and is the reward of an actual program (or the previous best). (A batch's best reward can be dropped as near-duplicate of a worse one; without expressions the call raises IndexError.)", "quantifier": "all histories of batches and random choices", "why_tests_cant": "histories and floating ties", "anchors": ["kd/model/discover/aggregator.py:gpAggregator.__call__"]}
{"id": "C48", "title": "Recombined programs are trained with the observations sampling would give", "statement": "For a program built outside the sampler, the previous token and the number of open slots fed to training equal, at every step, those sampling records for training for the same tokens. (Both record the open slots after the step; what the policy was shown when choosing the token is the number before it, so that observation is shifted by one step.)", "quantifier": "all complete token sequences", "why_tests_cant": "all sequences", "anchors": ["kd/model/discover/aggregator.py", "kd/model/discover/controller.py"]}
{"id": "C49", "title": "Every accepted metric is usable and rewards accuracy and parsimony", "statement": "The default reward is at most 1, strictly decreasing in the error (as long as the complexity penalty is below 1) and strictly decreasing in the number of terms; the metric names that can be used are exactly pde_reward and correlation with one parameter. (inv_nrmse and R2 are accepted by name but raise TypeError.)", "quantifier": "all metric names, penalties, term counts and errors", "why_tests_cant": "real-valued ranges", "anchors": ["kd/model/discover/task/pde/pde.py:make_pde_metric", "kd/model/discover/task/pde/pde.py:PDETask.reward_function"]}
{"id": "C50", "title": "Weighted quantile is the quantile of the weighted distribution", "statement": "For q at most the sum of the weights as computed, the weighted quantile at q is a value v of the sample such that the weight of values at most v is at least q and the weight of values below v is less than q. (When rounding makes the total weight smaller than q the call fails.)", "quantifier": "all samples with non-negative weights, all 0 < q <= total weight", "why_tests_cant": "ties and all sizes", "anchors": ["kd/model/discover/utils.py:weighted_quantile"]}
{"id": "C51", "title": "Filtering equivalent programs keeps one of each class", "statement": "Filtering programs with nearly equal reward keeps programs whose rewards pairwise differ by at least 1e-5, and for each dropped program a kept one within 1e-5.", "quantifier": "all lists of programs", "why_tests_cant": "all tie patterns", "anchors": ["kd/model/discover/utils.py:filter_same"]}
{"id": "C52", "title": "Different SGA candidates have different names", "statement": "The textual form of a candidate equation used by the duplicate test determines its list of terms: two different candidates never share a name, so no new candidate is discarded as a duplicate.", "quantifier": "every pair of candidate equations over valid, distinct variable names", "why_tests_cant": "an injectivity statement over all pairs of trees of any depth", "anchors": ["kd/model/sga/sgapde/pde.py:PDE.visualize", "kd/model/sga/sgapde/tree.py:tree2str_merge", "kd/model/sga/sgapde/solver.py:SGA"]}
{"id": "C53", "title": "Torch evaluation is recursive evaluation with screening", "statement": "Evaluating a traversal with the torch back end gives the recursive value of the expression; a value is returned only for a complete expression none of whose sub-expressions is all NaN, all infinite or untestable.", "quantifier": "every traversal, every operator implementation and every data", "why_tests_cant": "all traversals and all failure positions", "anchors": ["kd/model/discover/execute.py:python_execute_torch"]}
{"id": "C54", "title": "SGA scores each candidate once", "statement": "If the evaluation deletes no terms, no printed form is scored twice after the initial population of one SGA search: every later score records one new form. (A candidate equal to an initial individual is scored again, and candidates that lose terms are scored again and again.)", "quantifier": "every initial population, every sequence of random outcomes, every evaluation", "why_tests_cant": "copies appear only for particular draw sequences and term deletions over a history", "anchors": ["kd/model/sga/sgapde/solver.py:SGA.cross_over", "kd/model/sga/sgapde/solver.py:SGA.change"]}
{"id": "C55", "title": "SGA runs on one solver are independent", "statement": "A further run on a solver that has been used never scores a printed form recorded before, and records one new form per score (if the evaluation deletes no terms); size, order and elitism of the population hold for it as for the first. (Hence the same search on the same data and draws can end with a worse equation than the first run: the equation found first is skipped.)", "quantifier": "every search and every history of earlier runs", "why_tests_cant": "depends on the accumulated libraries of all earlier runs", "anchors": ["kd/model/sga/sgapde/solver.py:SGAPDE_Solver.run"]}
{"id": "C56", "title": "Resolved field names never collide", "statement": "When valid field names clash with coordinate names, the resolved names keep the order of the fields, are valid, not reserved, pairwise distinct and distinct from every coordinate, and a field whose name is free keeps it unless an earlier renaming took that name; resolution succeeds for distinct valid names and coordinates without underscore. (A reserved name such as d is rejected although a prefix would make it usable.)", "quantifier": "every list of fields and coordinates, every set of reserved names, every prefix", "why_tests_cant": "all combinations of names and prefixes, including chains of renamings that collide with each other", "anchors": ["kd/model/sga/sgapde/naming.py:resolve_field_name_conflicts"]}
{"id": "C57", "title": "SGA terminals are unique and aligned with the grid", "statement": "A problem without parameter fields accepted by SGA has one terminal per field, per first derivative along a right-hand-side axis and per right-hand-side coordinate, each under its own name and with the grid's shape; nothing along the left-hand-side axis is a terminal or a derivative denominator; every well-posed problem is accepted. (Parameter fields are not checked: names can clash and shapes differ.)", "quantifier": "every set of fields, coordinates, parameter fields, axis order, target and left-hand-side axis", "why_tests_cant": "depends on all combinations of names and shapes", "anchors": ["kd/model/sga/sgapde/context.py:ProblemContext"]}
{"id": "C58", "title": "Explicit SGA target and left-hand side are honoured", "statement": "The target field and left-hand-side axis used by the SGA estimator are those of the dataset when not given, and those given for legacy (x, t) datasets. (For N-D datasets any explicit choice raises TypeError.)", "quantifier": "every dataset form, every choice of target and axis", "why_tests_cant": "two code paths with different keyword sets", "anchors": ["kd/model/kd_sga.py:KD_SGA"]}
{"id": "C59", "title": "Scoring an SGA candidate does not change the data", "statement": "Evaluating newly generated terms, or any term on data without zeros, leaves the data arrays unchanged; after any history of evaluations every array is the original one or (only if it had a zero) the original one shifted once, by at most its length times 1e-10. (Scoring x/u twice does change a zero of u, and then the value of u^2.)", "quantifier": "every history of evaluations, every data", "why_tests_cant": "needs all orders and repetitions of evaluations on data with zeros", "anchors": ["kd/model/sga/sgapde/pde.py:evaluate_mse", "kd/model/sga/sgapde/config.py:SolverConfig.divide", "kd/model/sga/sgapde/tree.py:Node"]}
{"id": "C60", "title": "A dataset's derivative is the derivative with respect to its coordinate", "statement": "get_derivative(axis) returns the derivative along the named coordinate with respect to the grid index: on fields linear in the coordinate exactly the slope times the grid spacing, zero on constants; an unknown axis raises ValueError. (It is therefore the derivative with respect to the coordinate only for unit spacing.)", "quantifier": "every field, axis, grid size and spacing", "why_tests_cant": "All fields and spacings.", "anchors": ["kd/dataset/_base.py:PDEDataset.get_derivative"]}
{"id": "C61", "title": "A GPU run's result file tells what happened", "statement": "The runner's exit code is 0 exactly when result.json says \"success\", and then it holds the equation of a completed training of the requested model on the requested data; otherwise result.json says \"error\" with the traceback; a submitted training that works shows that equation on the page.", "quantifier": "every config, every failure of loading, training and writing", "why_tests_cant": "All combinations of inputs and failure points.", "anchors": ["kd/runner.py:main", "kd/runner.py:load_dataset", "kd/runner.py:save_output", "kd/job.py:submit_gpu_job", "kd/job.py:download_result"]}
{"id": "C62", "title": "The web session tracks the GPU job consistently", "statement": "After any clicks the check button is shown exactly when a job is tracked, a tracked job is the last one submitted, polling keeps it exactly until a terminal status, and an equation is shown only for a finished job whose output was downloaded. (A failed download drops a finished job, a run that ended in an error is announced as finished, and local training forgets a running job.)", "quantifier": "every sequence of train/cancel/check clicks and platform answers", "why_tests_cant": "All click histories.", "anchors": ["app.py:run_training", "app.py:check_gpu_status"]}
{"id": "C63", "title": "Loading a dataset keeps every value at its coordinates", "statement": "The dataset built from files holds, at grid point (x_i, t_j), the value the file stores for that point, whichever way round the matrix is stored, when the numbers of x and t points differ; wrong shapes are errors, unknown names raise ValueError, and every shipped dataset file has the assumed layout. (Square data stored with x along rows, and .npy uploads stored with t along rows, are transposed; an unreadable registered .mat file gives None.)", "quantifier": "every file content and shape", "why_tests_cant": "All shapes and values.", "anchors": ["kd/dataset/__init__.py:load_pde", "kd/dataset/_base.py:load_pde_dataset", "kd/runner.py:load_dataset"]}
{"id": "C64", "title": "The page offers exactly the models the registry allows", "statement": "For every dataset the offered models are exactly KD_EqGPT and those of KD_SGA and KD_DLGA the registry marks as working with it, each once; none when no dataset is selected. (DISCOVER models are never offered: the registry's key for them is not the one looked up.)", "quantifier": "every dataset name", "why_tests_cant": "All names and registry contents.", "anchors": ["app.py:get_compatible_models", "kd/dataset/_registry.py:PDE_REGISTRY"]}
{"id": "C65", "title": "Dataset metadata round-trips", "statement": "For metadata made by the constructor or from_dict, from_dict(to_dict(i)) and copy(i) equal i, unknown keys are ignored by from_dict, and update with known names sets exactly the given fields. (A rejected update is not undone, update does not normalise keywords, and it overwrites methods.)", "quantifier": "every metadata dictionary and update", "why_tests_cant": "All dictionaries.", "anchors": ["kd/dataset/_info.py:DatasetInfo"]}
{"id": "C66", "title": "Comma-separated operator lists are parsed faithfully", "statement": "The operators parsed from a text are its non-empty comma-separated parts in order without surrounding blanks; writing names separated by commas and parsing gives the names back.", "quantifier": "every text", "why_tests_cant": "All texts.", "anchors": ["app.py:_parse_ops", "kd/runner.py:_parse_ops"]}
{"id": "C67", "title": "Which DLGA runs go through", "statement": "A DLGA search with a usable configuration (at least two individuals, an even number of them for DLGA, n_generations/2 <= pop_size/2) and at least one generation completes for every sequence of draws and returns an equation, with a population of the configured size; with n_generations/2 > pop_size/2 or (DLGA, two generations or more) an odd population it always raises IndexError, and with no generation AttributeError.", "quantifier": "every population size, generation count and sequence of draws", "why_tests_cant": "All sizes and random draws.", "anchors": ["kd/model/dlga.py:DLGA.evolution", "kd/model/dlga.py:DLGA.cross_over", "kd/model/kd_dlga.py:KD_DLGA.evolution"]}
{"id": "C68", "title": "DLGA individuals are separate", "statement": "Mutating one individual leaves every individual that is another object unchanged, and after duplicate removal all individuals are different objects. (After selection individuals with tied scores can be one object, and mutating one then changes the other.)", "quantifier": "every population reachable by the search", "why_tests_cant": "All histories of draws and scores, including ties.", "anchors": ["kd/model/dlga.py:DLGA.select", "kd/model/dlga.py:DLGA.mutation", "kd/model/dlga.py:DLGA.delete_duplicates"]}
{"id": "C69", "title": "The printed DLGA equation is the fitted one", "statement": "Reading the printed equation back gives, in order, each printed coefficient with exactly the operator names of its term; equations with different terms print differently.", "quantifier": "every operator list, chromosome and coefficient vector", "why_tests_cant": "All equations.", "anchors": ["kd/model/kd_dlga.py:KD_DLGA.convert_chrom_to_eq", "kd/model/dlga.py:DLGA.convert_chrom_to_eq"]}
{"id": "C70", "title": "The LaTeX equation of DLGA shows the fitted equation", "statement": "For operators that are a prefix of the standard list, the LaTeX equation shows each term in order with its coefficient to four decimals and correct sign and with exactly the operators of the term, powers included. (The operator_names argument has no effect, so other operator lists are shown under wrong names, and u_tt on the left is not styled.)", "quantifier": "every operator list, chromosome, coefficients and left side", "why_tests_cant": "All equations.", "anchors": ["kd/viz/dlga_eq2latex.py:dlga_eq2latex", "kd/viz/dlga_eq2latex.py:chromosome_to_latex"]}
{"id": "C71", "title": "DLGA's operator library matches the operator list", "statement": "When all operator names are known, gene i stands for the i-th operator of the list given by the user: its column is that operator's values, and a term's column is the point-wise product of its operators; genes past the known operators fail. (An unknown name is skipped in the columns but counted and printed, which shifts the names.)", "quantifier": "every operator list and genome", "why_tests_cant": "All operator lists, including names that do not exist.", "anchors": ["kd/model/kd_dlga.py:KD_DLGA.generate_meta_data", "kd/model/dlga.py:DLGA.translate_DNA"]}
{"id": "C72", "title": "DLGA's training data are the data set's pairs and the data set is left alone", "statement": "Training and validation pairs of DLGA are distinct pairs of the data without overlap; a fit on sampled points leaves the data set alone; a fit on the full grid shuffles the values of the data set in place. (So a second fit on the full grid trains on wrong pairs.)", "quantifier": "every data set, shuffle, ratios and sampling choice", "why_tests_cant": "All shuffles, sizes and ratios; several fits on one data set.", "anchors": ["kd/model/dlga.py:DLGA.train_NN", "kd/model/kd_dlga.py:KD_DLGA.fit_dataset"]}
{"id": "C73", "title": "DLGA's derivatives come from the best checkpoint of this run", "statement": "The weights loaded after DLGA training are weights saved by this run, whatever earlier runs left in the directory, and their recorded validation error is the smallest recorded. (The recorded error is that of the weights one step before the saved ones, so better saved weights may exist.)", "quantifier": "every number of steps, error sequence and directory content", "why_tests_cant": "All training histories.", "anchors": ["kd/model/dlga.py:DLGA.train_NN", "kd/model/dlga.py:DLGA.generate_meta_data"]}
{"id": "C74", "title": "LaTeX of an SGA term means the term", "statement": "Every term the search can evolve is drawn by the LaTeX renderer, as a function of the term alone; in Leibniz notation the text can be read back in one way and means what the term means, provided names are plain and no product ending in a sum is raised to a power. (Without the proviso, and in subscript notation, two different terms can have one formula.)", "quantifier": "every term the search can generate or mutate, every interpretation of names and operations", "why_tests_cant": "Every tree shape; ambiguity needs a pair of terms.", "anchors": ["kd/model/sga/sgapde/equation.py:_render_tree", "kd/model/sga/sgapde/equation.py:_combine_node"]}
{"id": "C75", "title": "The printed SGA equation names the quantities it relates", "statement": "For the built-in problems the printed left side is u_t, what is fitted; the one-line summary shows each sufficiently large coefficient directly before its own term. (For user data the left side is printed u_t and the default term u whatever the target field and axis are called, and the summary raises TypeError when the regression was skipped.)", "quantifier": "every target field and axis, every list of coefficients", "why_tests_cant": "Names are chosen by the user; sign and zero patterns are unbounded.", "anchors": ["kd/model/sga/sgapde/equation.py:_infer_lhs_label", "kd/model/sga/sgapde/context.py:ProblemContext", "kd/model/sga/sgapde/pde.py:PDE.concise_visualize"]}
{"id": "C76", "title": "The visualization registry finds the adapter of the exact class, else of the first registered ancestor", "statement": "After any history of register/unregister/clear/lazy-register/lookup calls: (a) the adapter last registered for the target's exact class is returned, whatever ancestors or lazy entries exist, and that lookup changes nothing; (b) otherwise a lazy entry for the class name is run once, on the first lookup, and is gone afterwards whether it produced an adapter, nothing, or an exception; (c) otherwise the answer is the adapter of the first class in iter_registered() order that is an ancestor of the target, and None exactly when there is none; iter_registered() lists every class once, in order of first registration; a lookup that did not raise is repeatable with the same answer; clear_registry() removes everything, unregister_adapter(cls) removes cls's own registration.", "quantifier": "every class hierarchy, every resolver behaviour (also varying over time), every history of registry calls", "why_tests_cant": "tests register a couple of classes in one order; the answers depend on the whole order of registrations, removals and lookups", "anchors": ["kd/viz/registry.py:get_adapter", "kd/viz/registry.py:_resolve_lazy", "kd/viz/registry.py:register_adapter", "kd/viz/adapters.py:register_default_adapters"]}
{"id": "C77", "title": "render never leaks matplotlib settings and enters the adapter only for a supported intent", "statement": "For every history of configure() and render() calls with arbitrary adapters (which may change rcParams and may raise): every rcParam except 'backend' has its original value afterwards; the style in force is DEFAULT_STYLE overlaid with the last style passed to configure(), the save directory is the last one passed; the adapter is entered exactly when there is one, it lists the intent, and back end and style settings are accepted by matplotlib, and then each parameter has the request's value, else the configured, else the ambient one, and the caller gets exactly what the adapter returned or raised; with no adapter or an unlisted intent the caller gets a content-free result with one warning and nothing changes.", "quantifier": "every adapter, style, back end, matplotlib validator and history of calls", "why_tests_cant": "a test sees a few adapters and styles; the restoration claim quantifies over every adapter and every failure point", "anchors": ["kd/viz/core.py:render", "kd/viz/core.py:configure", "kd/viz/_style.py:style_context", "kd/viz/_style.py:configure", "kd/viz/_helpers.py:resolve_output_path"]}
{"id": "C78", "title": "Which model classes can be plotted after a sequence of imports", "statement": "For every sequence of imports of the package's public modules and names (failed ones survived), with any of the optional third-party packages missing: KD_Discover, KD_SGA and the lazy KD_PySR entry have a visualization adapter as soon as kd.viz was imported directly or indirectly; KD_DLGA has one exactly when kd.viz was imported before anything of the DLGA model; adapters once registered stay; with the base packages installed every import other than `from kd import viz` succeeds in every order exactly when its own packages are installed.", "quantifier": "every finite sequence of public import statements and every combination of installed third-party groups", "why_tests_cant": "a test process runs one import order; circular imports and swallowed ImportErrors make the outcome depend on the whole order", "anchors": ["kd/__init__.py:__getattr__", "kd/model/__init__.py:__getattr__", "kd/viz/__init__.py", "kd/viz/adapters.py:register_default_adapters", "kd/model/dlga.py", "kd/model/kd_dlga.py"]}
{"id": "C79", "title": "Plot data containers accept exactly consistent data and hold true differences", "statement": "Residual, parity, history, field-comparison, time-slice and term-relationship containers accept exactly the inputs whose shapes agree (fields: sizes of the spatial axes followed by the number of times; one coordinate row per sample; slice times between the smallest and largest time; at least one term, all of equal length) and raise otherwise; what is accepted is held unchanged, and residuals computed by the container are actual (true) minus predicted at every index.", "quantifier": "all array shapes and values, all optional arguments present or absent", "why_tests_cant": "shape checks interact with numpy broadcasting and flattening; tests try a handful of shapes", "anchors": ["kd/viz/_contracts.py:ResidualPlotData", "kd/viz/_contracts.py:ParityPlotData", "kd/viz/_contracts.py:FieldComparisonData", "kd/viz/_contracts.py:TimeSliceComparisonData", "kd/viz/_contracts.py:TermRelationshipData", "kd/viz/_contracts.py:OptimizationHistoryData", "kd/viz/_contracts.py:RewardEvolutionData"]}
{"id": "C80", "title": "Slicing N-D field data to 2-D picks the requested plane and keeps every value", "statement": "slice_3d_to_2d on data with three or more spatial axes returns the first two axes left after removing the requested one, the same times, and true/predicted/residual values equal to the original ones at the requested index of the requested axis (negative axes from the end, out-of-range axes and indices clamped, default index the midpoint) and at the midpoint of every other dropped axis; with one or two axes it returns the data unchanged; an empty axis raises IndexError.", "quantifier": "any number of axes, sizes, fields, requested axis and index", "why_tests_cant": "index bookkeeping over repeated axis removal; tests use one 3-D example", "anchors": ["kd/viz/_contracts.py:slice_3d_to_2d"]}
{"id": "C81", "title": "The named expression shows the user's variable names", "statement": "In the result of KD_Discover_Regression.fit, expression_named is expression with every input variable xi replaced by the i-th entry of var_names and every other token unchanged, whenever no name contains the text xj of a variable with smaller index; with default names both texts are equal. (Names that do contain such a text, such as var_names=['x2','x1'], are themselves rewritten.)", "quantifier": "all token sequences over the regression library, all numbers of variables (x1 against x12), all name lists", "why_tests_cant": "substring replacement goes wrong only for special combinations of names, indices and neighbouring text; a test sees a few", "anchors": ["kd/model/kd_discover_regression.py:KD_Discover_Regression._render_named_expression", "kd/model/kd_discover_regression.py:KD_Discover_Regression._serialize_program"]}
{"id": "C82", "title": "Printed constants are the fitted constants", "statement": "A constant in expression is a decimal numeral with one to six decimals whose value differs from the fitted finite constant by at most 5e-7, exactly the constant when it is a multiple of 1e-6, without padding zeros; constants with the same text differ by at most 1e-6. (NaN and infinities are printed as nan.0 and inf.0; a constant below 5e-7 is printed as 0.0.)", "quantifier": "all finite constants", "why_tests_cant": "rounding and zero stripping have corner cases (ties, integers, trailing zeros, sign) that samples miss", "anchors": ["kd/model/kd_discover_regression.py:KD_Discover_Regression._format_constant"]}
{"id": "C83", "title": "A regression estimator after any history of fits", "statement": "KD_Discover_Regression.fit raises ValueError for data that are not a matrix with matching target and names and then changes nothing; otherwise it returns exactly when set-up, training and evaluation succeed. After any history, predict uses the program of the last fit whose training finished, demands the columns of the last accepted fit, and result_ is that of the last fit that returned; if every accepted fit returned these belong to one fit. The user's operators are kept in order with one const appended. (After a fit that fails later, the old program is left with the new column count.)", "quantifier": "all sequences of fits with all failure points", "why_tests_cant": "failure points and histories cannot be enumerated", "anchors": ["kd/model/kd_discover_regression.py:KD_Discover_Regression.fit", "kd/model/kd_discover_regression.py:KD_Discover_Regression.set_task"]}
{"id": "C84", "title": "Predictions are the expression's values row by row", "statement": "predict(X) of a fitted regression model raises RuntimeError before a fit and ValueError unless X is a matrix with the fitted number of columns; otherwise it returns for each row the value of the found expression at that row, also for expressions that are constant, and predicting stacked matrices is stacking the predictions; it fails exactly when a constant of the expression has no value.", "quantifier": "all expressions over elementwise operators, all matrices", "why_tests_cant": "broadcasting of scalars, size-one vectors and columns must agree for every expression shape", "anchors": ["kd/model/kd_discover_regression.py:KD_Discover_Regression.predict", "kd/model/discover/program.py:Program.execute_direct"]}
{"id": "C85", "title": "Other estimators do not change a fitted regression model's predictions", "statement": "After a fit, setting up any number of estimators that use the numpy executor does not change predict. (Setting up an estimator that uses torch, such as KD_Discover_SPR, makes every later prediction zero without an error, because the executor is chosen class-wide.)", "quantifier": "all histories of other estimators being set up", "why_tests_cant": "interference through class attributes shows only in particular interleavings", "anchors": ["kd/model/discover/task/task.py:set_task", "kd/model/discover/program.py:Program.set_execute", "kd/model/kd_discover_regression.py:KD_Discover_Regression.predict"]}
{"id": "C86", "title": "The regression reward prefers accurate and short expressions", "statement": "The regression reward lies between 0 and 1, does not increase with the mean squared error or with the number of tokens, is 1 exactly for an exact fit when there is no length penalty, and is 0 from 1/coeff tokens on.", "quantifier": "all targets, predictions, coefficients and lengths", "why_tests_cant": "inequalities over all data", "anchors": ["kd/model/discover/task/regression.py:make_regression_metric"]}
{"id": "C87", "title": "A user configuration overrides exactly the entries it names", "statement": "Under Python 3.9 the configuration of a DISCOVER estimator contains every value of the user's dictionary at its path, keeps every default whose path the user's dictionary neither mentions nor replaces, and is accepted whenever no user dictionary meets a default that is neither a dictionary nor null; without configuration the defaults are used. (From Python 3.10 on every non-empty configuration raises AttributeError.) The same holds for the values of a configuration file given by its path, if the base files exist. Refuted: a path works in the package as shipped (config_common.json is missing, so it always raises).", "quantifier": "all nested dictionaries", "why_tests_cant": "nesting depth and combinations of keys are unbounded", "anchors": ["kd/model/discover/utils.py:safe_merge_dicts", "kd/model/kd_discover.py:KD_Discover.set_config", "kd/model/discover/config/__init__.py:load_config"]}
{"id": "C88", "title": "A PySR estimator after any history of fits", "statement": "After a fit that returns normally, predictions, cached training data, best equation and SymPy expression of KD_PySR are all those of that call, whatever was called before and however many calls with unusable data were rejected since; a rejected call changes nothing; before any back end was built predict and equation_latex raise RuntimeError. (Not guaranteed by the code, and proved so: a call that fails in training or in building the back end leaves a mixture of the old and the new fit.)", "quantifier": "all estimators, all histories of fit calls, all outcomes of import, construction and training", "why_tests_cant": "the history of successes and failures is unbounded and the failures come from a third-party package", "anchors": ["kd/model/kd_pysr.py:KD_PySR.fit", "kd/model/kd_pysr.py:KD_PySR.predict", "kd/model/kd_pysr.py:_update_equation_info"]}
{"id": "C89", "title": "The PySR back end receives exactly the configured arguments", "statement": "The back end is built with every entry of extra_model_kwargs, with niterations and the operator lists given to KD_PySR for the names not in extra_model_kwargs, and with nothing else.", "quantifier": "all parameter values and dictionaries", "why_tests_cant": "all combinations of overriding names", "anchors": ["kd/model/kd_pysr.py:_build_backend"]}
{"id": "C90", "title": "The LaTeX text of a PySR model comes from the documented sources in order", "statement": "equation_latex returns PySR's own LaTeX if it is a non-blank string, otherwise 'lhs = ' followed by the SymPy expression, otherwise the best equation's text, otherwise str(model); a fitted model that can be printed always gives a text. (The lhs argument has an effect only in the SymPy case: proved.)", "quantifier": "all back end behaviours, all lhs", "why_tests_cant": "every combination of failing and blank sources", "anchors": ["kd/model/kd_pysr.py:equation_latex"]}
{"id": "C91", "title": "PySR plots show the model's predictions for the data and report the files written", "statement": "A parity plot shows for every sample the true value against the model's prediction, a residual plot exactly the differences and their mean, in the reported file and no other; a request that cannot be served gives a warning and writes nothing; an equation matplotlib accepts is drawn in the file reported. (Violations proved: undrawable equations are reported as drawn, data given without their counterpart are ignored, no samples raise.)", "quantifier": "all models, data, options and file systems", "why_tests_cant": "all data and prediction shapes, all failures of drawing", "anchors": ["kd/viz/_adapters/pysr.py:PySRVizAdapter", "kd/viz/equation_renderer.py:render_latex_to_image"]}
{"id": "C92", "title": "Equation texts are drawn as formulas in a figure of bounded width", "statement": "The text drawn is between dollar signs: itself if it already is (up to surrounding white space), else wrapped once; wrapping is idempotent; the figure width is at least the width asked for, at most 40 inches unless more is asked for, and never decreases with the length of the text.", "quantifier": "all texts, all widths", "why_tests_cant": "all strings", "anchors": ["kd/viz/equation_renderer.py:_ensure_math_mode", "kd/viz/equation_renderer.py:render_latex_to_image"]}
{"id": "C93", "title": "SGA time slices show the grid times nearest to the requests", "statement": "plot_time_slices of a fitted SGA model draws, for every requested time, the field at the grid time nearest to it (requests outside the grid are moved to its first or last time); every panel is asked for by some request, carries the time it draws, panels come in order of time, and without requests the first and the last time are shown. Panels need not be distinct, and the reported list of requests is not aligned with the list of shown times.", "quantifier": "every time grid (any order, any spacing, repeated times), every list of requests, every slice count", "why_tests_cant": "nearest-point selection over all real requests and grids, including ties, duplicates and unsorted grids", "anchors": ["kd/viz/_adapters/sga.py:_resolve_time_indices", "kd/viz/_adapters/sga.py:_time_slices_1d", "kd/viz/_adapters/sga.py:_time_slices_nd"]}
{"id": "C94", "title": "SGA field comparison shows both fields at the same grid point", "statement": "The field comparison of a fitted SGA model shows the searched field and the user's field at the same grid point, whatever the number and order of axes, with their difference; titles name the drawn times. The searched field is the user's own field by default (difference zero everywhere), and after edge deletion or metadata generation on another grid the plot raises ValueError for every data set.", "quantifier": "all grids with distinct axes, all orders of axes, all fields, every preparation option", "why_tests_cant": "axis permutations and shapes in every dimension; failing combinations of options are never exercised together by tests", "anchors": ["kd/viz/_adapters/sga.py:_field_comparison", "kd/viz/_adapters/sga.py:_build_field_comparison_nd", "kd/model/sga/sgapde/context.py:_apply_edge_deletion"]}
{"id": "C95", "title": "SGA parity plot pairs prediction and target point by point", "statement": "The parity plot of a fitted SGA model pairs, in grid order, the equation's right-hand side with the time derivative named in its report; the stored right-hand side is used when its size fits, else the re-evaluated terms, else the default terms only. Asking for the original derivative falls back to the prepared one when shapes differ, and the last source leaves out generated terms.", "quantifier": "all contexts, stored and re-evaluated predictions, shapes and options", "why_tests_cant": "reshape order and fallback chain over all shapes and failures", "anchors": ["kd/viz/_adapters/sga.py:_parity", "kd/viz/_adapters/sga.py:_evaluate_equation_prediction"]}
{"id": "C96", "title": "SGA residual plot shows u_t minus the problem's template", "statement": "The residual plot of a fitted SGA model shows, at every grid point, u_t minus the right-hand side of the analytic template of the problem name (not of the discovered equation); it can be drawn exactly when there is a template and both fields have equally many points; with more than two spatial axes it shows the middle of every further axis at the middle time; histogram bins are clamped. The residual data in the report mix the original u_t with the prepared field's right-hand side.", "quantifier": "all contexts, dimensions, templates and preparation options", "why_tests_cant": "values at every point in every dimension; dependence on the equation cannot be seen from examples", "anchors": ["kd/viz/_adapters/sga.py:_residual", "kd/viz/_adapters/sga.py:_safe_bins", "kd/model/sga/sgapde/context.py:1058-1092"]}
{"id": "C97", "title": "DLGA parity plot shows the fitted equation point by point", "statement": "After a DLGA fit plot_parity pairs, point by point, the recorded left-hand side with the sum of coefficient times named product over the terms whose operators were recorded, and reports residuals left minus right with their mean, largest absolute value and mean square; without a result the answer is a warning. When every configured operator exists the plotted right side is exactly what the regression used; with an unknown operator it is not.", "quantifier": "all fitted models, genomes, coefficients, recorded columns and operator lists", "why_tests_cant": "values at every point for every genome, and agreement with the internal library cannot be enumerated", "anchors": ["kd/viz/_adapters/dlga.py:_build_parity_data", "kd/viz/_adapters/dlga.py:_parity", "kd/model/dlga.py:_translate"]}
{"id": "C98", "title": "DLGA term charts show the largest terms in order", "statement": "plot_derivative_relationships draws, for a fitted DLGA model, the terms with the largest coefficients in decreasing size, as many as asked for (4 by default and for 0, 1 for a negative number) or as there are, each with its own coefficient, name and values and a chart of its own; nothing to draw is a warning.", "quantifier": "all fitted models and requested numbers", "why_tests_cant": "sorting and layout for every number of terms and ties", "anchors": ["kd/viz/_adapters/dlga.py:_build_term_relationship_data", "kd/viz/_adapters/dlga.py:_derivative_relationships"]}
{"id": "C99", "title": "DLGA time slices: one panel per requested time, nearest grid time", "statement": "plot_time_slices of a DLGA model draws one panel per requested time inside the range of the grid, with the columns of both fields at a nearest grid time; a request outside the range fails; without requests as many evenly spaced times as asked for (3 by default, at least one, at most one per grid time) are drawn, from the first to the last grid time. The title shows the requested time, not the time of the data drawn.", "quantifier": "all grids, fields, requests and numbers of slices", "why_tests_cant": "every request and every grid, also non-uniform or unordered ones", "anchors": ["kd/viz/_adapters/dlga.py:_build_time_slice_data", "kd/viz/_adapters/dlga.py:_time_slices"]}
{"id": "C100", "title": "A DLGA plot's reported file holds that plot", "statement": "For every DLGA plot but the field comparison the reported file holds the picture just drawn whatever the directory held, and no other file changes; different plots use different files. The field comparison reports field_comparison.png but from the second call on the new picture stays in pde_comparison.png and the reported file is the first one.", "quantifier": "all histories of plot calls into one directory", "why_tests_cant": "depends on the history of calls and prior files", "anchors": ["kd/viz/_adapters/dlga.py:_field_comparison", "kd/viz/dlga_viz.py:plot_pde_comparison"]}
{"id": "C101", "title": "DLGA optimization plot shows the search history", "statement": "plot_optimization shows one step per history entry with its fitness (or objective), optional series exactly when every entry has them, and first, last and least objective in the summary; nothing is shown iff the history is empty or an entry has neither. The curve of unique modules has no legend entry; the older analysis plot fails after a single generation.", "quantifier": "all evolution histories", "why_tests_cant": "every combination of present and missing fields, every history length", "anchors": ["kd/viz/_adapters/dlga.py:_build_optimization_data", "kd/viz/_adapters/dlga.py:_plot_optimization", "kd/viz/dlga_viz.py:plot_optimization_analysis"]}
{"id": "C102", "title": "DLGA equation plot shows one individual's own terms and coefficients", "statement": "render_equation of a DLGA model with index k >= 0 shows individual k's terms with its own coefficients and left-hand side, or a warning when there is no such individual; after a generation the indices below half the population are shown, the others warn. A negative index mixes one individual's terms with another's coefficients.", "quantifier": "all populations, indices and generations", "why_tests_cant": "pairing of three parallel lists of different lengths after any evolution", "anchors": ["kd/viz/_adapters/dlga.py:_equation", "kd/model/dlga.py:_select"]}
{"id": "C103", "title": "Plot helpers pass on exactly the user's arguments and report in one line", "statement": "Each kd.viz helper asks the adapter for its intent with exactly the user's keyword arguments under their own names (show_info excepted, optional None left out, top_n_terms 4 by default); a missing required argument is a TypeError. One line is printed unless show_info is off: warnings, else saved paths, else whether there is a figure. For DLGA time slices the offered spatial_coords is ignored.", "quantifier": "all keyword arguments and results", "why_tests_cant": "every combination of names, values and results", "anchors": ["kd/viz/api.py:plot_time_slices", "kd/viz/api.py:_dispatch", "kd/viz/api.py:_emit_info"]}
{"id": "C104", "title": "KD_EqGPT accepts exactly the documented arguments", "statement": "KD_EqGPT(...) succeeds exactly when the scenario is wave_breaking, the numbers of epochs and samples are integers of at least 1, the case filter is N or all and the seed is a number not below 0; it stores the values given. Every refusal is a ValueError, or a TypeError when an argument has the wrong type.", "quantifier": "all argument values", "why_tests_cant": "the argument space is infinite", "anchors": ["kd/model/kd_eqgpt.py:KD_EqGPT.__init__"]}
{"id": "C105", "title": "Every candidate KD_EqGPT draws is an equation for ut without other time derivatives", "statement": "Whatever the language model and the random sources answer, in every epoch every candidate is ut + followed by terms and operators in turn, at most 48 tokens, the end symbol only at the end; no term after ut has t, y or z in its name, and a word that evaluated to NaN is not drawn again. The square roots are never drawn, because their names contain a t.", "quantifier": "all probabilities, draws, epochs and cases", "why_tests_cant": "the model weights and random draws cannot be enumerated", "anchors": ["kd/model/kd_eqgpt.py:fit_dataset", "kd/model/eqgpt/gpt_model.py:GPT.step", "kd/model/eqgpt/continue_train_GPT_all.py:get_mask_invalid"]}
{"id": "C106", "title": "The reported equation is the evaluated candidate, each product once", "statement": "The text reported for a candidate is its products in order, those with the same factors as an earlier one left out, joined by +, and the reward stored with the candidate is the reward of exactly that equation. A quotient counts as a repeat of the product of the same factors, and a cut off candidate is reported with a dangling operator.", "quantifier": "all candidates, cases and runs", "why_tests_cant": "the equality must hold for every token sequence", "anchors": ["kd/model/eqgpt/continue_train_GPT_all.py:delete_duplicate", "kd/model/kd_eqgpt.py:_format_results"]}
{"id": "C107", "title": "The result lists the best different rewards of all epochs", "statement": "After any number of epochs without NaN rewards the reported list is strictly decreasing, has as many entries as the first epoch had different rewards (at most ten), each entry is a candidate of some epoch beside its own reward, every reward seen is on the list or below all of it, and the best equation has the greatest reward of the run. The list never grows after the first epoch, and NaN rewards hide all others.", "quantifier": "all numbers of epochs, samples and rewards", "why_tests_cant": "the invariant spans unbounded histories of epochs", "anchors": ["kd/model/kd_eqgpt.py:_update_top10", "kd/model/eqgpt/continue_train_GPT_all.py:find_min_no_repeat", "kd/model/kd_eqgpt.py:fit_dataset"]}
{"id": "C108", "title": "A candidate's reward is the penalised fit of its products to ut, averaged over the cases", "statement": "For a completed candidate each case evaluates every product from left to right at every point, drops equal columns and points with an infinite value, fits ut by the other products and scores (1 - 0.02 log10 of the number of columns) times the coefficient of determination; the reward is the mean over the cases that could be evaluated, and 0 for mutually replaceable terms, for equations without x and for cut off candidates. Cases that fail are left out rather than counted 0, if all fail the reward is NaN and is ranked best, and a product equal to ut is dropped instead of explaining it.", "quantifier": "all candidates, cases, values (with NaN and infinities) and solvers", "why_tests_cant": "values range over all arrays and networks", "anchors": ["kd/model/eqgpt/continue_train_GPT_all.py:calculate_reward"]}
{"id": "C109", "title": "KD_EqGPT uses exactly the selected cases, cleans up its temporary directory and loads the best check point", "statement": "Surrogate networks are prepared for exactly the cases that pass the case filter (and, without retraining, have a shipped network), in sorted order, each with its own network; with none the result is a RuntimeError. Retraining works in a temporary directory removed also after a failure; otherwise nothing is written. After training, the saved check point with the smallest validation error is loaded, the first of equals; training and validation rows are disjoint. Case names give their wave parameters exactly when they contain G<digits>Tp<digits>A<digits>. Refuted: with a NaN validation error (always with fewer than 20 rows) the first check point is used; a retrained network is evaluated in other coordinates than it was trained in.", "quantifier": "all sets of case names, filters, training outcomes, epoch numbers, validation errors, names and coordinates", "why_tests_cant": "needs every history of validation errors and every failure point", "anchors": ["kd/model/kd_eqgpt.py:_load_surrogates", "kd/model/kd_eqgpt.py:_train_single_surrogate", "kd/model/kd_eqgpt.py:_build_single_surrogate"]}
{"id": "C110", "title": "The value of a KD_EqGPT term is what its word says", "statement": "For every set of variables and every vocabulary word that can be evaluated, the value computed is that of the expression the word denotes (derivatives, powers, products, Laplacians), for any differentiable field. Every word after the six special ones has a branch. Refuted for: (u(u^2)xx)xx (one derivative too many, no factor 2; it can be drawn), sint (is sin x), uyyt (differentiated in x), sqrt(u) (root of the absolute value), BiLaplace(u) in three dimensions (z missing), and the unreachable branch (u^2)xx.", "quantifier": "all variable lists, vocabulary words, fields and points", "why_tests_cant": "the identity must hold for every differentiable field and point", "anchors": ["kd/model/eqgpt/calculate_terms.py:calculate_terms", "kd/model/kd_eqgpt.py:KD_EqGPT"]}
{"id": "C111", "title": "The history plots of a DISCOVER run show its history", "statement": "Reward evolution: one point per recorded batch, numbered from 1, with the largest and the mean reward of the batch and the best reward of all batches so far, which never falls; no history gives a warning, an empty batch a ValueError. Densities: requested epochs that exist each give one curve with that epoch's rewards and label; without a request every epoch is drawn if there are at most max_curves, otherwise an ascending selection with the first and last epoch and at most twice max_curves curves. The program drawn is the model's own (the first of a list), else the searcher's. Refuted: a request for a missing epoch shifts the labels of the other curves; max_curves is not a bound; a negative epoch counts from the end under its negative label.", "quantifier": "all histories without NaN, epoch requests and curve limits", "why_tests_cant": "needs every history and every request", "anchors": ["kd/viz/_adapters/discover.py:_build_reward_evolution", "kd/viz/_adapters/discover.py:_density", "kd/viz/_adapters/discover.py:_get_best_program"]}
{"id": "C112", "title": "The fields drawn for a DISCOVER equation are those the search scored", "statement": "On uniform axes of at least 3 points (ascending in 3-D), a term built from the field, sums, differences, products, powers, negation, sine, cosine, tangent and first derivatives (1-D: also the coordinate) has the same value at every point in the search and in the plot; the 1-D residual at point i and time t is the measured derivative minus the equation's right-hand side (terms times coefficients, plus the extra coefficient if there is one), at the position of point i and the number t; any other number of coefficients is an error. Refuted: second derivatives, quotients, 2-D derivatives at the edges, 2-D coordinates, descending axes, operators and leaves the plot does not know.", "quantifier": "all fields, grids, terms of the class, coefficients", "why_tests_cant": "needs every tree and every grid", "anchors": ["kd/viz/discover_viz.py:_evaluate_term_recursively", "kd/viz/discover_viz.py:_calculate_pde_fields", "kd/viz/discover_viz.py:_calculate_pde_fields_nd", "kd/model/discover/execute.py:python_execute"]}
{"id": "C113", "title": "The time bins of the SPR comparison cover every measurement", "statement": "Every measured time lies in one of the five bins, in only one if a fifth of the range is wider than the comparison tolerance; a bin uses exactly its own measurements and is empty below four; its title is the time in its middle. Refuted: times that are large compared with their range all count for the last bin as well.", "quantifier": "all time ranges, times and measurement tables", "why_tests_cant": "needs every real time value, including the edges", "anchors": ["kd/viz/_adapters/discover.py:_spr_field_comparison_nd"]}
{"id": "C114", "title": "The text KD_Discover gives SymPy for a term says what the term is", "statement": "For every term built from plain names with the operators add, sub, mul, div, powers, derivatives of any order in a variable, Laplacian, sigmoid, expneg, logabs, sin, cos, tan, exp, log, sqrt, abs and tanh (also in their torch spelling), to_sympy_string succeeds, its text has exactly one reading as an expression, and that expression has the value of the term in every commutative ring with inverse, functions and derivatives. A node with a missing child is an IndexError. Refuted: neg and inv become functions SymPy does not know.", "quantifier": "all trees of the class, all values of the names", "why_tests_cant": "needs every tree and every nesting of infix and call text", "anchors": ["kd/model/discover/stridge.py:Node.to_sympy_string"]}
{"id": "C115", "title": "The LaTeX equation of KD_Discover shows every term with its coefficient", "statement": "An equation has one shown term per term, in order, with the LaTeX of its term and a coefficient within 0.00005 of the fitted coefficient times the factor split off by expanding the derivative; the first term has no plus sign; the left side is u_t or the derivative in lhs_axis. An unknown notation is a ValueError; a missing program or a wrong number of coefficients is reported in the text; without expansion of derivatives nothing else raises. Refuted: a program fitted with a constant term is reported as invalid.", "quantifier": "all coefficient lists, terms, notations and renderers", "why_tests_cant": "needs every coefficient value and every number of terms", "anchors": ["kd/viz/discover_eq2latex.py:discover_program_to_latex", "kd/viz/dlga_eq2latex.py:_format_full_latex_term"]}
{"id": "C116", "title": "Stability selection of KD_Discover_SPR picks the program that wins most resamplings", "statement": "With stability_selection = k > 0, the program reported by a search is one of the first k candidates (programs of the priority queue, pairwise at least 1e-5 apart in error), namely the one with the smallest product of error and coefficient variation in most of the resamplings, the earliest on a tie; NaN products count as largest. With k <= 0 or an empty queue the program of the search is kept; otherwise the selection always answers. Refuted: the program with the highest reward is always among the tested ones.", "quantifier": "all queues, errors, lengths, test results and numbers of resamplings", "why_tests_cant": "needs every outcome of the resamplings and every queue", "anchors": ["kd/model/discover/searcher.py:Searcher.search", "kd/model/discover/utils.py:criterion"]}
{"id": "C117", "title": "Pretraining of the SPR network stops after the configured patience and keeps the best check point", "statement": "For every network, optimiser and validation loss, pretraining runs m epochs and hands on the network of the last of them; the check point file holds the network of the first epoch with the smallest validation loss below 1e8 (none if there is none); m is the smaller of the configured number of epochs and k + duration + 2, where k is the epoch of the check point. A configured pretrain_path is loaded instead and nothing is trained. Afterwards the observations are training and validation observations with each input beside its own value. Refuted: the search uses the best network.", "quantifier": "all step functions, validation losses (NaN included), durations and epoch counts", "why_tests_cant": "needs every loss history", "anchors": ["kd/model/discover/pinn.py:PINN_model.pretrain"]}
{"id": "C118", "title": "Refinement with an equation drives the residual of exactly that equation", "statement": "The residual at each point is u_t minus the sum of coefficient times term; the loss is nonnegative and zero exactly when the equation holds at every point. The objective of one equation is coef times (residual at collocation points plus residual at the observations) plus the data misfit. Without the last flag all epochs are run; in the last round training stops after 201 epochs without improvement. More coefficients than terms is an IndexError, no equation an UnboundLocalError, and a first loss of at least 1e8 or NaN in the last round an UnboundLocalError. An undefined residual at collocation points counts as zero. Refuted: all of several equations count; extra_gradient differentiates both sides; the _best check point holds the network of the smallest loss (it holds the one a step later).", "quantifier": "all networks, optimisers, coefficients, terms, losses and epoch counts", "why_tests_cant": "needs every loss history and every set of collocation points", "anchors": ["kd/model/discover/loss.py:pinn_loss", "kd/model/discover/stridge.py:STRidge.calculate_RHS", "kd/model/discover/pinn.py:PINN_model.train_pinn"]}
{"id": "C119", "title": "The SPR iteration embeds the better of the new and the previous equation", "statement": "A run does iter_num rounds; each searches the data of the current network and refines the network with the program found or, if that scores strictly higher on the current data, the program of the round before; only the last refinement has the last flag; the reported program is that of one more search on the data of the final network. The embedded program never scores lower on the current data than the one found or the one embedded before. Refuted: the reported program is at least as good as the program embedded last.", "quantifier": "all scores, searches, refinements and numbers of rounds", "why_tests_cant": "needs every history of rounds", "anchors": ["kd/model/kd_discover.py:KD_Discover_SPR.callIterPINN"]}
{"id": "C120", "title": "The collocation points of the SPR search are cut at quantiles without mixing rows", "statement": "A row is kept exactly when each space coordinate lies strictly between the q and 1-q quantile of its column and t lies between them with ends included; kept rows stay in order with all coordinates together; quantiles are numpy's linear interpolation of the sorted values, the smallest value for 0 and the largest for 1. A cut of 0 still drops the extreme space coordinates. A parameter field that is constant within numpy's tolerance is replicated at all points, any other is a NotImplementedError. Refuted: a coordinate that is the same for all points leaves any point; a field that is treated as constant is constant.", "quantifier": "all point sets, cut ratios and parameter fields", "why_tests_cant": "needs every point set, with ties and repeated values", "anchors": ["kd/model/discover/task/pde/utils_noise.py:cut_bound_quantile", "kd/model/discover/task/pde/pde_pinn.py:PDEPINNTask"]}
{"id": "C121", "title": "The settings and arrays of an SPR run depend only on the current dataset", "statement": "After any history of imports the dimension, generation method, number of inputs and parameters are those of the last dataset and the configuration file: from the dataset for more than one space dimension, else as configured; parameters only if the dataset has some. Training, collocation and validation arrays hold each coordinate of each row in its own column, time last, and nothing of the built-in data. Scaled network inputs lie in [-1,1] exactly for rows inside the bounds, which go to -1 and 1, and determine the row.", "quantifier": "all import histories, datasets, rows and bounds", "why_tests_cant": "needs every history of imports", "anchors": ["kd/model/kd_discover.py:KD_Discover_SPR._inject_nd_config", "kd/model/discover/pinn.py:PINN_model.import_outter_data", "kd/model/discover/pinn.py:PINN_model.net_u"]}
{"id": "C122", "title": "Training in the web page shows the trained model and its equation", "statement": "With every imported module present, pressing the button trains exactly when the dataset loads, the fields are numbers and fitting succeeds; the page then keeps the model, shows its equation and offers its plots, sorted, without the spr_ ones unless it is an SPR model. EqGPT needs no dataset and its case filter is N exactly when the chosen entry contains 'N only'. Refuted: in the package as shipped a model other than EqGPT can be trained on the page (kd.model.kd_dscv does not exist, so even a finished training ends in an error).", "quantifier": "all datasets, model names, page fields, training results and capabilities", "why_tests_cant": "needs every combination of fields, models and failures", "anchors": ["app.py:_run_local", "app.py:_get_model_capabilities", "kd/model/__init__.py"]}
{"id": "C123", "title": "A GPU job trains with the parameters of the page", "statement": "For the models that run as GPU jobs, the call made by the runner from the submitted parameters is the call the page itself would make, and an unusable field fails with the same exception. Without a selection the page only shows a hint; a GPU model on the platform is submitted once; everything else is trained here. Refuted: a fractional sample below one (all points on the platform, none locally); an empty field is reported on the page when a job is submitted (the exception escapes).", "quantifier": "all page fields, models and platform answers", "why_tests_cant": "needs every value of every field through two conversions", "anchors": ["app.py:run_training", "app.py:_submit_gpu_training", "kd/runner.py:run_dlga", "kd/runner.py:run_dscv_spr"]}
{"id": "C124", "title": "The page shows the fields that matter and presets that fit the model", "statement": "Fields in hidden groups have no influence on training here or on the platform. As long as nothing is typed the operator boxes hold the presets of the selected model (torch operators exactly for SPR), and choosing another model always brings its presets. The selected model is always one of the list offered for the dataset, and every dataset has one. Refuted: every visible field matters (search epochs for SPR).", "quantifier": "all histories of choices and typed text, all field values", "why_tests_cant": "needs every history of choices", "anchors": ["app.py:on_model_change", "app.py:on_dataset_change", "app.py:_run_local"]}
{"id": "C125", "title": "A plot in the web page shows the figure or says why there is none", "statement": "A plot is shown exactly when the message says it was generated: the figure, or else the first saved file; warnings, exceptions and empty results are reported instead. Style, back end and other directories are untouched, the temporary directory is gone afterwards, and without a trained model nothing happens. Refuted: the directory for saved plots is restored (it stays the removed temporary one).", "quantifier": "all render results, files, configurations and directories", "why_tests_cant": "needs every result of an adapter and every prior configuration", "anchors": ["app.py:run_viz", "kd/viz/_style.py:configure"]}
{"id": "C126", "title": "Every expression is drawn from the policy and the priors of its own prefix, and recorded as drawn", "statement": "An episode has max_length steps (one if that is 0). Each token is drawn among the tokens whose logit - the network's output for the observed previous token, parent, sibling and open slots of the prefix plus the prior of that prefix - is finite, so every token was permitted by all priors. Tokens, priors and observations are recorded step by step; the recorded number of open slots is the one after the step. Sampling succeeds whenever every prefix leaves a permitted token and the observation can be encoded.", "quantifier": "all cells, libraries, priors, draws and lengths", "why_tests_cant": "needs every random draw and every library", "anchors": ["kd/model/discover/controller.py:Controller.sample_episodes", "kd/model/discover/controller.py:Controller.loop_fn", "kd/model/discover/task/task.py:HierarchicalTask.get_next_obs"]}
{"id": "C127", "title": "Training evaluates the probabilities the expressions were sampled with", "statement": "Training recomputes, for the recorded observations and priors, the logits of every step. For the first token, and for networks whose output ignores their state, these are the logits the token was drawn from. Refuted in general: sampling never carries the recurrent state from one token to the next (the cell always gets the zero state), training does, so from the second token on the probabilities differ and sampling has no memory beyond parent, sibling, previous token and prior.", "quantifier": "all cells, episodes and steps", "why_tests_cant": "needs every network and every sampled sequence", "anchors": ["kd/model/discover/controller.py:Controller.sample_episodes", "kd/model/discover/controller.py:Controller.make_neglogp_and_entropy"]}
{"id": "C128", "title": "The training loss rewards better expressions", "statement": "The negative log probability of a program is summed over its own tokens only and does not depend on later steps; the entropy is discounted per step; the loss is minus the weighted mean entropy, plus mean((reward - baseline) * neglogp) when the policy gradient is on, plus the weighted mean neglogp of the memory's batch when priority queue training is on; so a program gains probability exactly if its reward exceeds the baseline. Refuted: with the shipped settings of KD_Discover and KD_Discover_Regression the loss depends neither on rewards nor on the memory (pqt on, pqt_use_pg off, pqt_weight 0). A forbidden padding token makes the loss NaN.", "quantifier": "all batches, rewards, baselines, settings and networks", "why_tests_cant": "needs every batch and every setting", "anchors": ["kd/model/discover/controller.py:Controller.train_step", "kd/model/discover/controller.py:Controller.make_neglogp_and_entropy", "kd/model/discover/config/config_pde.json"]}
{"id": "C129", "title": "The network input encodes what was observed, and nothing else", "statement": "Every observation sampling can meet is encoded without error in a vector of one fixed length; two observations have the same input exactly if the observed features (previous token, parent, sibling, as configured) agree. With the shipped settings the sampler runs whenever every prefix leaves a permitted token.", "quantifier": "all libraries, prefixes and feature choices", "why_tests_cant": "needs every library and every prefix", "anchors": ["kd/model/discover/state_manager.py:HierarchicalStateManager.get_tensor_input", "kd/model/discover/library.py:Library"]}
{"id": "C130", "title": "Every documented setting of the policy network can be used", "statement": "The policy network can be built, sampled and trained exactly with cell 'lstm', one layer, initializer 'zeros', optimizer 'adam' or 'sgd', without embeddings, without observing open slots, with at least one observed feature and a maximal length from the first length prior or the settings; the length prior wins. Refuted: the documented alternatives gru, var_scale, rmsprop, several layers, embedding and observe_dangling work (each raises).", "quantifier": "all settings", "why_tests_cant": "needs every combination of settings", "anchors": ["kd/model/discover/controller.py:Controller.__init__", "kd/model/discover/controller.py:StructureAwareLSTM", "kd/model/discover/state_manager.py:HierarchicalStateManager"]}
{"id": "C131", "title": "Fine-tuning KD_EqGPT scores each word with the probability it would be sampled with", "statement": "The language model's output at a position depends only on the words up to it: neither later words nor the padding of the batch matter. So in a fine-tuning step every word is scored with the logits from which sampling would draw it after the same words, and the loss is the mean over all words of all training sentences after the start symbol; padding does not count.", "quantifier": "all weights, sentences, batches and paddings", "why_tests_cant": "needs every network and every batch", "anchors": ["kd/model/eqgpt/gpt_model.py:Decoder", "kd/model/eqgpt/gpt_model.py:GPT.step", "kd/model/eqgpt/continue_train_GPT_all.py:MyDataSet", "kd/model/kd_eqgpt.py:fit_dataset"]}
{"id": "C132", "title": "KD_EqGPT is fine-tuned on the equations it reports", "statement": "Every stored candidate of a run is trained on as the start symbol, the words of the equation reported for it and the end symbol; there is no padding word in it and its length fits the model. Refuted: every training sentence can be drawn by the sampler (a candidate cut off at 48 tokens is trained on with the end symbol behind an operator).", "quantifier": "all runs, draws and candidates", "why_tests_cant": "needs every candidate of every run", "anchors": ["kd/model/kd_eqgpt.py:_prepare_train_data", "kd/model/kd_eqgpt.py:_format_results"]}
{"id": "C133", "title": "Rearranging a training equation keeps the equation", "statement": "Swapping summands yields exactly all orders of the summands; each product is brought into every order of its factors; every sentence made from an equation has, apart from the place of the end symbol, the same products as summands with their factors reordered, and exactly one end symbol; there are exactly the requested number per equation, each beginning with the start symbol, and all rearrangements are used when they are not too many. Refuted: the end symbol is last (it moves into the last product); the named equation is left out (the name is ignored).", "quantifier": "all equations, names, numbers and random samples", "why_tests_cant": "factorially many orders of unboundedly many terms", "anchors": ["kd/model/eqgpt/read_dataset.py:data_augumentation_plus", "kd/model/eqgpt/read_dataset.py:data_augumentation_multiply", "kd/model/eqgpt/read_dataset.py:get_train_dataset"]}
{"id": "C134", "title": "With several spatial coordinates only balanced expressions are fitted", "statement": "On data with several spatial coordinates KD_Discover gives coefficients only to expressions that mention every coordinate equally often, and turns no balanced expression away for its coordinates; with one coordinate the rule never applies. Refuted: every equation can be found (transport along one of two directions is always rejected); the rule counts coordinates only (a parameter field called flux1 counts as x1).", "quantifier": "all expressions, data and settings, up to nine coordinates", "why_tests_cant": "needs every expression and every data set", "anchors": ["kd/model/discover/stridge.py:Regulations", "kd/model/discover/program.py:Program.set_stridge", "kd/model/discover/task/pde/pde.py:PDETask"]}
{"id": "C135", "title": "Cropping keeps every value at its grid point", "statement": "When noisy data are cropped, the columns of the terms hold exactly the values at the surviving grid points in grid order, the same points for every term and for a target cropped the same way; the same number of points goes at both ends of an axis and some are kept for ratios below one half; without noise and for automatic differentiation nothing is cropped. Refuted: regular data can be fitted with a positive noise level (the terms are cropped and the target is not, so every expression is rejected).", "quantifier": "all shapes of two to four axes, ratios, roundings of the bounds, expressions and data", "why_tests_cant": "needs every grid and every expression", "anchors": ["kd/model/discover/task/pde/utils_noise.py:cut_bound", "kd/model/discover/stridge.py:STRidge.evaluate_terms", "kd/model/discover/task/pde/pde.py:PDETask.load_data", "kd/model/discover/task/pde/pde_pinn.py:PDEPINNTask.FD_generate"]}
{"id": "C136", "title": "Constants in an equation are fitted for that equation", "statement": "With SciPy as constant optimizer an expression with constants is scored with exactly the constants the minimiser returned for the mean squared error of that expression, started at 1; these are the constants reported, every term has weight 1, and other programs are not affected. Refuted: constants work with the default optimizer (no expression containing one is ever fitted); the printed equation shows the fitted constants (it shows the word const).", "quantifier": "all expressions, minimisers, data and settings", "why_tests_cant": "needs every expression and every minimiser", "anchors": ["kd/model/discover/program.py:Program.optimize_inner_constant", "kd/model/discover/program.py:Program.set_constants", "kd/model/discover/const.py:make_const_optimizer", "kd/model/discover/library.py:PlaceholderConstant", "kd/model/discover/stridge.py:STRidge.evaluate"]}
{"id": "C137", "title": "Network derivatives belong to the data", "statement": "With use_autograd, the training table pairs every cell's coordinates with the value at that cell (scaled back exactly), the training rows are ratio*N different unchanged rows, and the left-hand side and every terminal field_axis are, at every cell, the partial derivative of the function the field's network stands for, in the units of the data; uxx and uxxx are its second and third derivative in the x/t case; fields outside autograd_fields get finite differences; a network comes from the user, else from the checkpoint file, else from training; unknown fields, a list without the target and networks of the wrong input size are refused; with all options off the context is the ordinary one. Refuted: the derivatives on the original grid are in its units after cropping.", "quantifier": "all grids, axis orders, fields, networks, deviations, options, shuffles and training ratios", "why_tests_cant": "needs every grid, axis order and network; a test has one network and a tolerance", "anchors": ["kd/model/sga/sgapde/metann.py:prepare_training_data", "kd/model/sga/sgapde/metann.py:train_metanet", "kd/model/sga/sgapde/context.py:_calculate_derivatives_autograd"]}
{"id": "C138", "title": "The refined grid of use_metadata", "statement": "With use_metadata the data become a grid with fine_ratio times as many equally spaced points from the smallest to the largest coordinate of both axes, holding at each cell the network's value for that cell in the units of the target; the given data stay the original ones; a missing checkpoint ends the process, other axes than x, t or a second field are not implemented. Refuted: coordinates are scaled as in training (the refined grid has a smaller deviation, so every coordinate is stretched).", "quantifier": "all grids, ratios, fields, networks and checkpoints; all uniform axes for the refutation", "why_tests_cant": "needs every grid size and ratio", "anchors": ["kd/model/sga/sgapde/context.py:_generate_metadata", "kd/model/sga/sgapde/context.py:_load_data"]}
{"id": "C139", "title": "Edge deletion keeps values at their coordinates", "statement": "With delete_edges the points n/10 to 9n/10-1 of the n points along x remain, of the coordinate and of every field, in either axis order; every remaining cell keeps its coordinates and values, other axes are untouched, the original data are kept; other numbers of axes and a missing axis x are refused. Refuted: building a context leaves the configuration's data alone (a second context is cropped twice).", "quantifier": "all two-dimensional grids, axis orders, fields and options", "why_tests_cant": "needs every size and axis order", "anchors": ["kd/model/sga/sgapde/context.py:_apply_edge_deletion", "kd/model/sga/sgapde/context.py:_load_data"]}
{"id": "C140", "title": "FiniteDifferenceOperator differentiates down the rows", "statement": "FiniteDifferenceOperator.diff(u, dx, order) is, column by column, the exact first derivative of quadratics and the exact second, third and fourth derivative of cubics, at every row; it changes no existing array; fewer than 3 rows (4 for orders above 1) raise IndexError and other orders ValueError; an operator's answer does not depend on what it computed before. Refuted: a returned array stays as it was (the next compute overwrites it); the fourth derivative of x^4 (0 instead of 24 at the second row); whole-number arrays (fractions cut off).", "quantifier": "all arrays, spacings, orders and histories of calls", "why_tests_cant": "needs every polynomial, size and call history; aliasing is invisible to a test that looks once", "anchors": ["kd/utils/solver.py:FiniteDifferenceOperator.compute", "kd/utils/solver.py:FiniteDifferenceOperator.diff"]}
{"id": "C141", "title": "RegularData loads the named dataset", "statement": "RegularData accepts exactly the names chafee-infante, Burgers and Kdv among strings; loading gives the file's field, its space points, the true equation of that name, and a time derivative that is exact for rows quadratic in time on a uniform time grid. Refuted: Kdv can be loaded (its file is not shipped); loading again changes nothing (the space axis is added again); a failed load changes nothing; uneven time grids.", "quantifier": "all names, file contents and load histories", "why_tests_cant": "needs every file content and call history", "anchors": ["kd/data.py:RegularData.load_data", "kd/data.py:RegularData.__init__"]}
{"id": "C142", "title": "Attrdict attributes are its keys", "statement": "For every history of attribute assignments and deletions an Attrdict holds what the same item operations would give; d.k = v changes key k only and keeps the order of first assignment; missing names raise AttributeError; reading gives the value back for every name that is not dict's own. Refuted: any key can be read as an attribute (dict's method names never can).", "quantifier": "all dictionaries, names, values and histories", "why_tests_cant": "needs every history and name", "anchors": ["kd/utils/attrdict.py:Attrdict"]}
{"id": "C143", "title": "setup_logger writes each message where it was asked to", "statement": "After one setup_logger call a record at or above the level reaches the console once more (and the file), below the level nothing; other loggers are unchanged; an unknown level is refused before any change. Refuted: calling it again is harmless (k calls print every message k times); a logger below another prints once; a log file without directory works (it raises after adding the console handler).", "quantifier": "all logger names, levels, files, numbers of calls and prior states", "why_tests_cant": "needs every number of calls and name hierarchy", "anchors": ["kd/utils/logging.py:setup_logger"]}
{"id": "C144", "title": "create_tokens turns a request into a usable library", "statement": "create_tokens(n_input_var, function_set, protected, ...) succeeds exactly when every entry of function_set is a registered operator, a number or 'const' and no parameter takes the name of a variable or operator (ValueError otherwise); its tokens are x1.., u1.. (pde tasks), the parameters and one token per entry of function_set, in that order, with their indices, arities and the protected function exactly where one exists and was asked for; with a variable they make a library meeting the conditions of the prior theorems; names are distinct exactly when parameters and shown names are, and then lookup by name finds each token; without 'diff' in parameter names the derivative constraints see exactly two-argument tokens and are kept. Refuted: a parameter named e.g. 'diffusivity' is harmless (it silently drops all derivative constraints; 'sec' drops the trigonometric one); duplicates are refused.", "quantifier": "all function sets, parameter names, counts and flags", "why_tests_cant": "every function set and every parameter name matters; the effect shows only in which constraints survive", "anchors": ["kd/model/discover/functions.py:create_tokens", "kd/model/discover/library.py:Library", "kd/model/discover/dso/prior.py:RelationalConstraint.validate"]}
{"id": "C145", "title": "Switching to torch operators", "statement": "add_torch_tokens collects the torch version of every operator when all have one, raises KeyError at the first one without, and collects nothing when it first meets a torch operator; Program.switch_tokens then replaces each operator of an expression by its torch version with the same number of arguments and leaves variables, parameters and 'const' alone. Refuted: 'sub' is switched (never); function sets with numbers can be switched (KeyError); one torch operator leaves the rest switched (nothing is).", "quantifier": "all function sets, libraries and expressions", "why_tests_cant": "every function set and expression matters; a mixed expression looks fine until evaluated on tensors", "anchors": ["kd/model/discover/functions.py:add_torch_tokens", "kd/model/discover/library.py:Library.np_names", "kd/model/discover/program.py:Program.switch_tokens"]}
{"id": "C146", "title": "The stability test measures what it says", "statement": "Testing a candidate equation in PINN mode fits its coefficients on 100 random half samples and, within each, on ten resamplings: with as many target values as rows it always succeeds with 100 errors and 100 variations (ValueError otherwise); each error is the smallest mean square error any coefficients reach on that half sample; each variation is non-negative, zero exactly when the ten refits agree. On exact data of an equation whose coefficients the samples determine all errors are zero, and all variations are zero when no coefficient is. Refuted: an equation with one zero (superfluous) coefficient is merely less stable (its variation is not a number, for every draw).", "quantifier": "all feature matrices, targets, least-squares solvers and random draws", "why_tests_cant": "random draws: every one of the possible samples counts", "anchors": ["kd/model/discover/task/pde/pde_pinn.py:PDEPINNTask.stability_test", "kd/model/discover/task/pde/pde_pinn.py:PDEPINNTask.cal_mse_cv"]}
{"id": "C147", "title": "The tree picture is the expression", "statement": "plot('tree') draws one node per token, labelled with the token's text, and arrows from each operator to its arguments in order, nothing else, whatever was drawn before in the session; different expressions give different pictures. Refuted: the same holds for parameter names with a colon (the arrow leads to an unlabelled node) and for programs switched to torch operators (the picture is the single root node).", "quantifier": "all libraries, expressions and earlier pictures of the session", "why_tests_cant": "pictures depend on all earlier pictures through a shared counter; every expression shape matters", "anchors": ["kd/model/discover/plotter.py:ExpressionTree", "kd/model/discover/plotter.py:Plotter.tree_plot", "kd/model/discover/library.py:Library"]}
{"id": "C148", "title": "Several DISCOVER models in one process", "statement": "If a KD_Discover model is always the last in the process to have imported a data set when it is used, each of its calls (train, train_one_step, plots) returns exactly what it would return in a process without the other models, and every reward it reports is the score of the reported expression on its own data. Without that condition, in every history: a reported reward is the score, over that task's operators, under a task that was the process's current one while the model trained since its last import, and plots set its equation against the data of the process's last import. Refuted: that a model's results are always about its own data (importing into a second model between import and training makes the first train on the second's data with the second's operators).", "quantifier": "all histories of imports, training calls and plots by any number of models, all sampled expressions, data and scores", "why_tests_cant": "all interleavings of calls of several models", "anchors": ["kd/model/kd_discover.py:KD_Discover.setup", "kd/model/discover/task/task.py:set_task", "kd/model/discover/program.py:from_tokens", "kd/model/discover/program.py:Program.r_ridge", "kd/model/discover/searcher.py:Searcher", "kd/viz/discover_viz.py:_calculate_pinn_fields"]}
{"id": "C149", "title": "The ground truth and the data of an SGA run", "statement": "fit_dataset labels a run with the first name that is given and not empty: the problem_name argument, the data set's sga_problem alias, its legacy alias, its equation name, 'custom_dataset'. It always works on the data set's own arrays, never on a file; it fails with ValueError only if usol does not have shape (len x, len t) or one of the two N-D dictionaries is missing. A run has a ground truth exactly if the data set is not N-D and the label is, up to capitals, the separator and blanks around it, one of eight spellings of the three benchmarks, and then the template for the loaded data is that benchmark's equation; among the registry's data sets exactly those validated for SGA have one. plot_results raises RuntimeError before a fit and afterwards draws exactly if there is a ground truth; every slice shows the quantity it is named after at the middle time. Refuted: that the ground truth belongs to the data (a user's data set called 'Burgers_equation' is compared with the benchmark's equation), that the prepared data are compared with the same equation (Chafee-Infante lacks u_xx there), that a different max_epoch gives a different default check point, and that the two curves of the u_t and u_x slices are aligned.", "quantifier": "all data sets, names, aliases, overrides, epoch numbers and grid sizes", "why_tests_cant": "all strings as names and all sizes of the grid", "anchors": ["kd/model/kd_sga.py:KD_SGA.fit_dataset", "kd/model/kd_sga.py:KD_SGA.plot_results", "kd/model/sga/adapter.py:SGADataAdapter.to_solver_kwargs", "kd/model/sga/sgapde/config.py:SolverConfig", "kd/model/sga/sgapde/visualizer.py:plot_figures"]}
{"id": "C150", "title": "What the named constraints of the search mean", "statement": "With the constraint named inverse active, no function is sampled directly under its inverse (inv/inv, neg/neg, exp/log, sqrt/n2). With trig, nothing trigonometric and no derivative occurs inside a trigonometric function, and no derivative or trigonometric function occurs inside the expression a derivative is taken of. With diff_left, the first argument of a derivative is neither a coordinate nor the constant; with diff_left_strict it is a field or a derivative; with diff_right every later argument of a derivative is a coordinate. With const, the constant is never the argument of a one-argument function and never both arguments of a two-argument one. Refuted: that these hold for libraries in which a name occurs twice.", "quantifier": "all libraries with the usual shape, all sets of constraints containing the named one, all sampled expressions", "why_tests_cant": "all sampled traversals, all nodes", "anchors": ["kd/model/discover/dso/prior.py:InverseUnaryConstraint", "kd/model/discover/dso/prior.py:TrigConstraint", "kd/model/discover/dso/prior.py:ConstConstraint", "kd/model/discover/dso/prior.py:DiffConstraint_left", "kd/model/discover/dso/prior.py:DiffConstraint_right", "kd/model/discover/library.py:Library"]}
{"id": "C151", "title": "Expressions read from text", "statement": "from_str_tokens, called after any history of calls, on a list of names and numbers that begins with a complete expression (in the order of its printed traversal), returns a program whose expression is that one; if the text has no placeholder, the numbers become the values of its constants in order. A comma separated string means the list of its parts. A word that is neither a name nor a number is refused with ValueError, numbers next to a placeholder with AssertionError, numbers in a library without constants with TypeError, and a refusal changes nothing. Reading what the regression printer writes is reading the same names and the printed constants. Refuted: that two texts with different numbers are different programs (the cached one is overwritten, and a later placeholder text shows the old value), that extra elements after the expression are harmless (a number there is an IndexError), and that an unfinished text is refused.", "quantifier": "all libraries, all earlier calls, all texts", "why_tests_cant": "all call histories and all expressions", "anchors": ["kd/model/discover/program.py:from_str_tokens", "kd/model/discover/program.py:Program.set_constants", "kd/model/discover/program.py:from_tokens"]}
{"id": "C152", "title": "The score DLGA gives an equation", "statement": "For a genome of the search, the score is the mean squared error of the equation with the returned coefficients plus epi for every gene; the left side is u_t exactly if its error is strictly smaller than that of u_tt. If the data satisfy an equation with linearly independent terms exactly, the coefficients are recovered up to the factor v_0/(v_0+1e-8), where v is the last singular vector. A run returns a genome with its own coefficients, left side and score. Refuted: that dependent terms, the sign of the singular vector and the scale of the two sides do not matter.", "quantifier": "all tables of columns, genomes over them, data, epi, all singular vectors", "why_tests_cant": "all data and all genomes; the singular vector is any unit kernel vector", "anchors": ["kd/model/dlga.py:DLGA.get_fitness", "kd/model/dlga.py:DLGA.translate_DNA", "kd/model/dlga.py:DLGA.select", "kd/model/dlga.py:DLGA.evolution"]}
{"id": "C153", "title": "The network DLGA fits", "statement": "A network can be made exactly for positive sizes and the activations Tanh, Sin, Rational; sizes that are not positive are an AssertionError, other activations end the process. It has one layer more than hidden layers, with zero biases. With any weights, each row of the output is computed from its own row of the input by the written formula, rows of another width are a RuntimeError, a new Tanh or Sin network is odd in its input, and a rational activation starts without poles.", "quantifier": "all sizes, all weights, all batches", "why_tests_cant": "all weights and all batches of any size", "anchors": ["kd/utils/utils_GA.py:NN", "kd/utils/utils_GA.py:Rational", "kd/utils/utils_GA.py:Sin", "kd/model/dlga.py:DLGA.__init__"]}
{"id": "C154", "title": "Tabular data sets", "statement": "load_regression returns, for each row of the data set's file, a row of its first two entries in X and its third entry in y, with the data set's own description, whatever the program did before; other names are refused with ValueError, a missing file or a table with too few columns is reported. The variable names are R_F and r unless the program edited a list it got earlier. Explicit imports work exactly for the names the package binds. Refuted: that results do not share their variable names; that every exported name exists (import * fails).", "quantifier": "all files, all names, all histories of loads and edits", "why_tests_cant": "all histories and all file contents", "anchors": ["kd/dataset/__init__.py:load_regression", "kd/dataset/__init__.py:_REGRESSION_REGISTRY", "kd/dataset/__init__.py:__all__"]}
{"id": "C155", "title": "Limits on programs of several objects", "statement": "When a program consists of several objects, the position computed for a row is that of the newest token in its own object and the end of the last complete object; a row with more tokens than its objects need is an error. Under the length constraint with maximum at least 3, every object has at most that many tokens and at least the minimum, and an object begun can always be completed within the maximum. In the first object the repeat limit counts the object's own tokens. Refuted: that later objects are counted alone (the last token of the object before is counted too).", "quantifier": "all numbers of objects, all arities, all complete objects followed by one begun, all limits", "why_tests_cant": "all rows of any length", "anchors": ["kd/model/discover/dso/subroutines.py:get_position", "kd/model/discover/dso/subroutines.py:get_mask", "kd/model/discover/dso/prior.py:RepeatConstraint", "kd/model/discover/dso/prior.py:LengthConstraint"]}
{"id": "C156", "title": "The heat maps of an equation found on several spatial axes show planes of the scored fields", "statement": "For data with two or more spatial axes the residual figure of KD_Discover shows u_t minus the right-hand side at the middle time step and at the middle of every axis after the second, at the grid's own coordinates (rows the first axis, columns the second), on a colour scale symmetric about zero that reaches the largest residual shown. The field comparison shows at most three steps, in order, with the first, the middle and the last; both fields are cut at the same place (slice_axis, slice_index, else the middles) at every step and drawn on one scale containing all values; the returned data are uncut. Without slice options the residual map is the difference of the two panels of the middle step. Fields not of the grid's shape give a warning. Refuted: that the residual figure heeds slice_axis and slice_index; the titles show step numbers.", "quantifier": "all numbers and sizes of axes, all fields, all slice options", "why_tests_cant": "all grids and any number of axes", "anchors": ["kd/viz/_adapters/discover.py:_residual_plot_nd", "kd/viz/_adapters/discover.py:_field_comparison", "kd/viz/_adapters/discover.py:_field_comparison_nd", "kd/viz/_adapters/discover.py:_slice_3d_to_2d", "kd/viz/_contracts.py:slice_3d_to_2d"]}
{"id": "C157", "title": "The two parity figures of DLGA show the same points", "statement": "When the older parity function draws, it plots each sample at (value of the discovered right-hand side, value of the left-hand side), and the KD viz figure of the same model shows exactly the same points. After a fit the older one fails (IndexError or KeyError) exactly if a gene names no recorded operator or a module has no coefficient; without a fitted model or a recorded left side it logs a warning. Refuted: that the new figure is drawn only when the older one is.", "quantifier": "all fitted models and all individuals", "why_tests_cant": "all equations and data", "anchors": ["kd/viz/dlga_viz.py:plot_pde_parity", "kd/viz/_adapters/dlga.py:_build_parity_data"]}
{"id": "C158", "title": "A term figure plots the products of the variables asked for", "statement": "plot_equation_terms draws each sample at the two products of the named recorded variables, coloured by the colour variable, whose values make the histogram; axes carry the caller's labels; it logs a warning and draws nothing exactly if an axis names no variable or a variable is not recorded. Refuted: that the default label of a product reads as a product.", "quantifier": "all recorded columns and all lists of variables", "why_tests_cant": "all terms and data", "anchors": ["kd/viz/dlga_viz.py:plot_equation_terms"]}
{"id": "C159", "title": "The evolution figure of DLGA shows the recorded history", "statement": "The two curves are the recorded best fitness and complexity of each generation, the logged summary names those of the first and last generation and the relative improvement in percent, which for a positive first fitness is positive exactly if the last is smaller; no history is a ValueError, an incomplete entry a KeyError. Refuted: the sign for a negative first fitness.", "quantifier": "all histories", "why_tests_cant": "all lengths and values", "anchors": ["kd/viz/dlga_viz.py:plot_evolution"]}
{"id": "C160", "title": "The residual figure of DLGA reports on actual minus predicted", "statement": "Without residuals of the caller's the report has the mean, the squared standard deviation, the largest size and the number of actual - predicted over all entries; the first of the two spellings of an option that is given counts; missing data give a warning, fields or residuals of another shape a ValueError. Refuted: that residuals given by the caller are checked against the fields.", "quantifier": "all fields of all shapes and all options", "why_tests_cant": "all arrays", "anchors": ["kd/viz/_adapters/dlga.py:_residual", "kd/viz/_adapters/dlga.py:_build_residual_data"]}
{"id": "C161", "title": "Data files are read by their extension", "statement": "PDEDataLoader reads the file given, or the first of name.csv, .mat, .npy, .npz in its directory. A .csv file gives the table of numbers under its first row, which is skipped whatever it holds, provided all rows have one length and every cell is a number (ValueError otherwise, IndexError on an empty file); a .mat file gives its variables but those starting with two underscores; .npy and .npz give what NumPy loads. Any other extension is a ValueError, a missing file a FileNotFoundError, and a call with neither argument a ValueError.", "quantifier": "all directories, names, paths and file contents", "why_tests_cant": "all files", "anchors": ["kd/dataset/_base.py:load_csv_data", "kd/dataset/_base.py:load_mat_file", "kd/dataset/_base.py:load_numpy_data", "kd/dataset/_base.py:PDEDataLoader"]}
{"id": "C162", "title": "Normalised network data can be restored, except with 'min_max'", "statement": "For every normalisation but 'min_max', unnormalising with the recorded parameters gives the data back, the noise-free field scaled by them is the normalised field, and (unless 'None') a column gets mean 0 and variance 1. Refuted for 'min_max': its values are those of the standard normalisation, but the parameters are those of the column in [0, 1], so restoring gives (x - min)/(max - min).", "quantifier": "all columns of values", "why_tests_cant": "all data", "anchors": ["kd/model/discover/task/pde/utils_noise.py:normalize", "kd/model/discover/task/pde/utils_noise.py:unnormalize", "kd/model/discover/task/pde/utils_nn.py:PDEDataset.preprocess"]}
{"id": "C163", "title": "Training and validation samples do not overlap", "statement": "For a training ratio of at most 0.9 and whatever the shuffle, no sample of network data is used twice: training takes the ratio of the data rounded down, validation its ratio or what is left, and every x goes with the y of its sample. Above 0.9 validation is the training data, from 1 both are all the data.", "quantifier": "all data sets, shuffles and ratios", "why_tests_cant": "all shuffles and sizes", "anchors": ["kd/model/discover/task/pde/utils_nn.py:PDEDataset.split_data"]}
{"id": "C164", "title": "Completing a term library over the space axes only adds variants of its terms", "statement": "With several axes and the default threshold, spatial completion keeps the library and appends the completions of the terms of a first part of it, each with its own value; terms are left out only once more than ten new ones are there. A completion is the term with as many different axes, in an order that is not its own, in the places of its axes, and with its own state variables or, if it has several, any arrangement of different ones; a term with one axis is completed by that term in every other axis. On one axis nothing changes. Above the threshold the library is cut to the terms without an axis and those with a completion whose value is already there. Refuted: a second derivative written as two first ones is completed by the one along the other axis.", "quantifier": "all libraries, terms, axes, state variables, values and random numbers", "why_tests_cant": "all libraries and sizes", "anchors": ["kd/model/discover/ga_utils.py:spatial_complete", "kd/model/discover/ga_utils.py:complete", "kd/model/discover/ga_utils.py:include_term"]}
{"id": "C165", "title": "The figures of KD_Discover_SPR show the residuals and fields at the points they belong to", "statement": "When the task's u_t, its prediction, the times and every spatial column are equally long, the residual at every point is u_t minus the prediction and row i of the coordinates is the i-th point with the time last; missing caches, a u_t that cannot be recovered, ragged coordinates and a prediction of another length are refused, and a recovered u_t is kept. The scatter of the residuals has one mark for each point; with one spatial axis it is at its time, with more of them the axis labelled Time carries the second spatial coordinate. The parity limits hold every point strictly inside with a margin of a tenth. The adapter's field comparison shows at every mark the value interpolated at its place and time; the legacy image exchanges the two axes with respect to their labels, so that a field depending on the time alone shows no change along Time. Colour ranges are exact. A single number as prediction is drawn by the legacy scatter, refused by the parity figure and by the adapter.", "quantifier": "all tasks, programs, numbers of points and axes, values and interpolations", "why_tests_cant": "all sizes and values, any interpolation routine", "anchors": ["kd/viz/discover_viz.py:_calculate_pinn_fields", "kd/viz/discover_viz.py:plot_spr_residual_analysis", "kd/viz/discover_viz.py:plot_spr_actual_vs_predicted", "kd/viz/discover_viz.py:plot_spr_field_comparison", "kd/viz/_adapters/discover.py:_spr_residual", "kd/viz/_adapters/discover.py:_spr_field_comparison"]}
