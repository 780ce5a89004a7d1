{"id": "C01", "title": "Saved formulas mean the same when read back", "statement": "Writing a formula or weight function to the nested text form used in density files and reading it back yields a formula with the same value under every assignment of the variables.", "quantifier": "every formula over the supported operators (any nesting, any number of arguments), every variable name without whitespace or parentheses, every assignment", "why_tests_cant": "formulas and assignments are unboundedly many; a single badly handled constant or operator deep inside a formula silently changes a saved density", "anchors": ["pywmi/parse.py: smt_to_nested, nested_to_smt, ast_to_smt, tokenized_string_to_ast, tokenize", "pywmi/domain.py: Density.get_state, Density.from_state"]}
{"id": "C02", "title": "The nested-text parser recovers exactly the written tree", "statement": "Parsing the text of any operator tree returns exactly that tree, independently of how much whitespace separates the tokens; text with a surplus closing parenthesis, a bare token, an unknown operator or a wrong number of arguments is rejected with an error.", "quantifier": "every operator tree, every amount of whitespace between tokens, every malformed text of the listed kinds", "why_tests_cant": "the set of texts is infinite and the parser is a hand written stack machine", "anchors": ["pywmi/parse.py: tokenize, tokenized_string_to_ast, ast_to_smt"]}
{"id": "C03", "title": "Batch evaluation equals row by row evaluation", "statement": "Evaluating a formula or weight on a table of samples gives, in row i, exactly the value of the formula under the assignment given by row i; evaluating a single sample or an assignment dictionary gives the same value.", "quantifier": "every well typed formula, every domain, every table with any number of rows (including zero)", "why_tests_cant": "array evaluation shares sub-results between occurrences of a sub-formula and works in place, so correctness depends on the whole formula and all rows at once", "anchors": ["pywmi/smt_check.py: evaluate, SmtBatchChecker, SmtSingleChecker, SmtChecker", "pywmi/smt_walk.py: CachedSmtWalker"]}
{"id": "C04", "title": "Evaluating a formula never changes the caller's data or an already returned result", "statement": "During and after evaluation of a formula on a sample table the table has the contents it had before, and no array that was handed out for a sub-formula is overwritten by a later step.", "quantifier": "every formula (with arbitrary sharing of sub-formulas), every table, every order in which cached sub-results are reused", "why_tests_cant": "in-place array operators make the result depend on aliasing between sub-results, which examples without sharing never exercise", "anchors": ["pywmi/smt_check.py: SmtBatchChecker.walk_and, walk_or, walk_plus, walk_times, walk_symbol", "pywmi/smt_walk.py: CachedSmtWalker.walk_smt"]}
{"id": "C05", "title": "Rebuilding a formula with a walker preserves its meaning", "statement": "A walker that rebuilds a formula node by node (identity walker, coefficient walker with the identity map) returns a formula with the same value under every assignment, although implications and equivalences are expanded on the way.", "quantifier": "every formula and every assignment", "why_tests_cant": "unbounded nesting; expansions of <-> duplicate sub-formulas", "anchors": ["pywmi/smt_walk.py: SmtWalker.walk_smt, SmtIdentityWalker"]}
{"id": "C06", "title": "Converting a weight to a polynomial preserves its value", "statement": "Polynomial.from_smt(w) has, at every point, the value of the weight expression w.", "quantifier": "every polynomial expression built from constants, real variables, sums, differences, products and constant powers; every point", "why_tests_cant": "expressions of unbounded size; exponent corner cases only show for particular exponents", "anchors": ["pywmi/smt_math.py: Polynomial.from_smt, MathDictConverter, Polynomial.dict_times, Polynomial.dict_plus"]}
{"id": "C07", "title": "Equal polynomials are recognised", "statement": "Two weight expressions are converted to equal Polynomial objects exactly when they denote the same function.", "quantifier": "every pair of polynomial expressions", "why_tests_cant": "it is an equivalence over all expressions and all points (completeness of a normal form)", "anchors": ["pywmi/smt_math.py: Polynomial.from_smt, Polynomial.__eq__, Polynomial.__hash__, Polynomial.dict_times"]}
{"id": "C08", "title": "Polynomial arithmetic is pointwise arithmetic", "statement": "The sum, product, negation and power of Polynomial objects have at every point the sum, product, negation and power of the values; writing a polynomial back as a formula or as an algebra expression keeps its value.", "quantifier": "all polynomials and all points; every exponent", "why_tests_cant": "algebraic identities over all polynomials", "anchors": ["pywmi/smt_math.py: Polynomial.__mul__, Polynomial.to_smt, Polynomial.to_expression, PolynomialAlgebra", "pywmi/engines/algebraic_backend.py: AlgebraBackend.power"]}
{"id": "C09", "title": "A linear inequality object describes the half-space of its formula", "statement": "LinearInequality.from_smt(f), written back with to_smt, holds at a point exactly when f holds there, for every point that does not lie on the bounding hyperplane; the negated inequality describes the complementary half-space.", "quantifier": "every linear comparison (<=, <, >=, >, possibly negated), every point off the hyperplane", "why_tests_cant": "coefficients are divided by a data dependent factor; sign mistakes only show for some coefficient patterns", "anchors": ["pywmi/smt_math.py: LinearInequality, MathDictConverter.walk_lte, walk_lt, walk_not"]}
{"id": "C10", "title": "Rescaling an inequality does not change it", "statement": "normalize() and scale_to_integer() return an inequality with the same solutions; scale_to_integer() returns integer coefficients.", "quantifier": "every linear inequality with rational coefficients with denominators below the rounding limit, every point", "why_tests_cant": "depends on least common multiples and maxima over all coefficients", "anchors": ["pywmi/smt_math.py: LinearInequality.normalize, LinearInequality.scale_to_integer"]}
{"id": "C11", "title": "Bounds extracted from a convex formula are equivalent to it", "statement": "BoundsWalker.get_inequalities(f) returns inequalities whose conjunction holds at a point exactly when f holds there (off the bounding hyperplanes); formulas that are not conjunctions of literals are rejected.", "quantifier": "every formula, every point off the hyperplanes", "why_tests_cant": "unbounded nesting of and/not; a missed rejection silently changes an integral", "anchors": ["pywmi/smt_math.py: BoundsWalker"]}
{"id": "C12", "title": "Domain bounds are the bounding box", "statement": "domain.get_bounds() holds for an assignment exactly when every real variable lies inside its closed interval; domain.get_bounding_box_volume() is the product of the interval lengths.", "quantifier": "every domain with any number of variables, every assignment", "why_tests_cant": "universally quantified over domains and points", "anchors": ["pywmi/domain.py: Domain.get_bounds, Domain.get_bounding_box_volume"]}
{"id": "C13", "title": "Domain volume counts boolean worlds times box volume", "statement": "domain.get_volume() equals 2^(number of boolean variables) times the volume of the real box (the empty box having volume one).", "quantifier": "every domain", "why_tests_cant": "universally quantified over domains, including those without real variables", "anchors": ["pywmi/domain.py: Domain.get_volume, Domain.get_bounding_box_volume"]}
{"id": "C14", "title": "Domains and densities survive serialisation", "statement": "Domain.from_state(domain.get_state()) equals the domain; Density.from_state(density.get_state()) has the same domain and the same support, weight and queries (up to evaluation), in the same order.", "quantifier": "every domain and density", "why_tests_cant": "universally quantified over domains, formulas and query lists", "anchors": ["pywmi/domain.py: Domain.get_state, Domain.from_state, Density.get_state, Density.from_state"]}
{"id": "C15", "title": "Projecting a data set keeps the selected columns", "statement": "domain.project(variables, data) returns a domain listing exactly the selected variables in the requested order and data whose columns are the selected columns, aligned with the new domain.", "quantifier": "every domain, every selection of its variables, every table", "why_tests_cant": "column index arithmetic over arbitrary orders", "anchors": ["pywmi/domain.py: Domain.project"]}
{"id": "C16", "title": "A density saved to a directory is the density loaded from it", "statement": "After FileDensity.to_file(dir), FileDensity.from_file(dir) returns the domain, support, weight and queries that were saved, whatever the directory contained before.", "quantifier": "every density with any number of queries and every previous content of the directory (history of saves)", "why_tests_cant": "needs every history of saves to the same directory, and more than ten queries", "anchors": ["pywmi/domain.py: FileDensity.to_file, FileDensity.from_file"]}
{"id": "C17", "title": "Probabilities are ratios of volumes", "statement": "compute_probabilities returns for each query the ratio of the volume of support and query to the volume of the support (None if that volume is not positive); for an exact engine a query and its negation sum to one, every probability lies in [0,1] for non negative weights, and the probability is monotone under implication.", "quantifier": "every engine whose volume is an integral, every support, weight and list of queries", "why_tests_cant": "an identity between unboundedly many computations", "anchors": ["pywmi/engine.py: Engine.compute_probabilities, Engine.compute_probability, Engine.with_constraint"]}
{"id": "C18", "title": "Conditioning on boolean evidence equals adding a constraint", "statement": "The volume and probabilities of engine.with_evidence(e) equal those of the engine constrained by the evidence literals.", "quantifier": "every evidence assignment to boolean variables, every support and weight", "why_tests_cant": "quantifies over all formulas and evidence sets", "anchors": ["pywmi/engine.py: Engine.with_evidence, Engine.with_constraint"]}
{"id": "C19", "title": "Temporary solver files are removed on every path", "statement": "After a with-block around a temporary solver file, whether the block finishes or raises, the file no longer exists and no other file was touched.", "quantifier": "every outcome of the callback and of the block body (all crash points inside the block)", "why_tests_cant": "quantifies over all exception points", "anchors": ["pywmi/temp.py: TemporaryFile"]}
{"id": "C20", "title": "Uniform samples lie in the domain", "statement": "Every sample produced by uniform(domain, n) has its boolean columns in {0,1}, its real columns inside the bounds, and with one-hot groups exactly one variable of each group set; there are exactly n rows and every boolean value and one-hot choice can occur.", "quantifier": "every domain, every n, every outcome of the random source, every list of disjoint one-hot groups", "why_tests_cant": "quantifies over all random outcomes", "anchors": ["pywmi/sample.py: uniform"]}
{"id": "C21", "title": "Weighted resampling only picks samples of positive weight", "statement": "weighted_sample returns the requested number of samples, each one an element of the pool with positive weight, in non-decreasing pool order; it never runs past the end of the pool.", "quantifier": "every pool, every non negative weight vector with positive total, every outcome of the random source", "why_tests_cant": "quantifies over random outcomes and weight vectors (boundary hits)", "anchors": ["pywmi/sample.py: weighted_sample"]}
{"id": "C22", "title": "Positive samples satisfy the support and the request is met or refused", "statement": "positive(n, ...) either returns exactly n samples, all of which satisfy the support, or raises a sampling error after having drawn at least max_samples samples; it does not loop for ever.", "quantifier": "every support, weight, pool size, limit and every outcome of the random source", "why_tests_cant": "quantifies over unbounded loops and random outcomes", "anchors": ["pywmi/sample.py: positive"]}
{"id": "C23", "title": "Rejection volume is the scaled mean weight of accepted samples", "statement": "RejectionEngine.compute_volume returns (volume of the sampling box, counting boolean worlds) times the average over all samples of weight times support; it is 0 when no sample is accepted and never exceeds box volume times the largest weight.", "quantifier": "every sample table, support and weight, with and without one-hot groups", "why_tests_cant": "identity over all sample outcomes", "anchors": ["pywmi/engines/rejection.py: RejectionEngine.compute_volume"]}
{"id": "C24", "title": "Rejection probabilities are probabilities", "statement": "RejectionEngine.compute_probabilities returns for each query a number in [0,1] equal to the weight fraction of accepted samples satisfying it (None for all queries if no accepted sample has positive weight); a query and its complement sum to one, and a query implied by another has at least its probability.", "quantifier": "every sample table, support, non negative weight, list of queries", "why_tests_cant": "identity over all sample outcomes", "anchors": ["pywmi/engines/rejection.py: RejectionEngine.compute_probabilities"]}
{"id": "C25", "title": "The adaptive rejection tree partitions the domain", "statement": "The leaves of the adaptive tree partition the domain: every point is in exactly one leaf, and the leaf volumes add up to the volume of the root.", "quantifier": "every tree the builder can produce, every point", "why_tests_cant": "trees of unbounded depth", "anchors": ["pywmi/engines/adaptive_rejection.py: Node, TreeBuilder.build_tree"]}
{"id": "C26", "title": "The adaptive builder checks each leaf against its own splits only", "statement": "Whenever the builder asks the solver about a region, the asserted constraints are exactly the splits on the path to that region, so that no non-empty region is discarded.", "quantifier": "every sequence of splits (every tree shape)", "why_tests_cant": "needs the history of pushes and pops over the whole recursion", "anchors": ["pywmi/engines/adaptive_rejection.py: TreeBuilder.build_tree, add_split, remove_last_split"]}
{"id": "C27", "title": "Adaptive rejection probabilities depend on the query", "statement": "AdaptiveRejection.compute_probability(q) estimates the probability of q: it is zero when no sample satisfies q and the support.", "quantifier": "every query, support, weight and sample set", "why_tests_cant": "quantifies over queries and samples", "anchors": ["pywmi/engines/adaptive_rejection.py: Node.get_volume, AdaptiveRejection.compute_probability"]}
{"id": "C28", "title": "Literal abstraction preserves the formula", "statement": "Replacing the atoms of a formula by fresh boolean literals and giving each literal its meaning back yields a formula equivalent to the original one (off the bounding hyperplanes of its inequalities); distinct literals get distinct consecutive numbers from one on, booleans first.", "quantifier": "every formula without equalities, every assignment", "why_tests_cant": "unbounded formulas; sharing of negated atoms", "anchors": ["pywmi/engines/xsdd/literals.py: extract_and_replace_literals, LiteralInfo"]}
{"id": "C29", "title": "The two-way literal table stays two-way", "statement": "After any sequence of insertions, deletions and clears, looking up a key and then its value in the inverse table returns the key, and the inverse table contains nothing else.", "quantifier": "every sequence of operations", "why_tests_cant": "quantifies over histories (overwrites, deletes)", "anchors": ["pywmi/engines/xsdd/literals.py: InverseDictDelegate"]}
{"id": "C30", "title": "Compiling to a decision diagram and reading it back preserves the formula", "statement": "The decision diagram built for a formula is true exactly on the assignments that satisfy the formula, and the formula recovered from the diagram is equivalent to the original.", "quantifier": "every propositional formula, every assignment", "why_tests_cant": "unbounded formulas", "anchors": ["pywmi/engines/xsdd/smt_to_sdd.py: SddConversionWalker, compile_to_sdd, recover_formula", "pywmi/engines/xsdd/semiring.py: amc, SemiringWalker"]}
{"id": "C31", "title": "Algebraic model counting sums over models", "statement": "Evaluating a diagram with the weighted model counting semiring returns the sum over all models of the product of the literal weights.", "quantifier": "every deterministic decomposable diagram over any variable set, every weight function with w(x)+w(not x)=1", "why_tests_cant": "diagrams of unbounded size", "anchors": ["pywmi/engines/xsdd/semiring.py: amc, WMCSemiring, SemiringWalker"]}
{"id": "C32", "title": "Boolean worlds that a branch does not mention are counted", "statement": "When the volume is computed through a diagram, every boolean variable not mentioned on a branch contributes a factor two, so that the result is the sum over all boolean worlds.", "quantifier": "every diagram and every set of domain variables", "why_tests_cant": "only particular branch shapes (different variables, same count) expose a miscount", "anchors": ["pywmi/engines/xsdd/engine.py: NonConvexWMISemiring.plus, ConvexWMISemiring", "pywmi/engines/xsdd/engine_factorized.py: FactorizedIntegrator.plus"]}
{"id": "C33", "title": "Convex decomposition partitions the support", "statement": "The convex regions enumerated from a diagram, each counted with two to the number of unmentioned boolean variables, cover every satisfying world exactly once and nothing else.", "quantifier": "every deterministic decomposable diagram, every world", "why_tests_cant": "diagrams of unbounded size", "anchors": ["pywmi/engines/xsdd/engine.py: ConvexWMISemiring, XsddEngine.compute_volume_from_pieces"]}
{"id": "C34", "title": "Splitting a weight function into pieces preserves it", "statement": "At every point the sum of the expressions of the pieces whose condition holds equals the value of the weight function.", "quantifier": "every weight function built from constants, variables, sums, differences, products, powers and conditionals; every point", "why_tests_cant": "collisions between equal expressions happen only for particular weights", "anchors": ["pywmi/engines/xsdd/piecewise.py: PiecewiseFunction.__add__, _addpiece2pieces, __mul__, split_up_function"]}
{"id": "C35", "title": "Label extraction preserves the weight", "statement": "Extracting boolean literal weights from a weight function and multiplying them back gives the original weight at every point.", "quantifier": "every weight function, every assignment", "why_tests_cant": "shapes of products are unbounded; duplicates matter", "anchors": ["pywmi/engines/xsdd/smt_to_sdd.py: extract_labels_and_weight"]}
{"id": "C36", "title": "XSDD volume is the sum over worlds of integrals", "statement": "XsddEngine.compute_volume returns the sum over all boolean worlds of the integral of the weight over the support restricted to that world.", "quantifier": "every support, weight and domain for which the pieces are computed without failure; every sound integrator", "why_tests_cant": "composition of literal extraction, compilation, model counting and integration for all inputs", "anchors": ["pywmi/engines/xsdd/engine.py: BaseXsddEngine.compute_volume, XsddEngine.compute_volume_from_pieces"]}
{"id": "C37", "title": "Factorising a weight preserves it", "statement": "The variable groups computed for a polynomial weight are pairwise disjoint, contain every real variable, and the product of the group factors is the weight; integrating group by group gives the joint integral.", "quantifier": "every polynomial weight and every grouping", "why_tests_cant": "unbounded numbers of variables and factors", "anchors": ["pywmi/engines/xsdd/engine_factorized.py: get_variable_groups_poly, FactorizedIntegrator, FXsddEngine.compute_volume_from_pieces"]}
{"id": "C38", "title": "Adding known conflicts does not change the support", "statement": "The implications added when conflict search is enabled are valid, so the support is unchanged at every point.", "quantifier": "every support and weight, every point", "why_tests_cant": "quantifies over all inequality pairs and points", "anchors": ["pywmi/engines/xsdd/engine.py: BaseXsddEngine.collect_conflicts", "pywmi/smt_math.py: implies"]}
{"id": "C39", "title": "Vtrees contain every literal exactly once", "statement": "Balanced, left-linear and right-linear vtrees built from a literal list have every literal as a leaf exactly once: balanced and left-linear vtrees in list order, right-linear vtrees in reverse order. The balanced one has depth ceil(log2 n). The file written for the compiler numbers the nodes 0..n-1, each once and before its use, and reading it back gives the same tree with the literals' numbers at the leaves.", "quantifier": "every non-empty list of distinct literals", "why_tests_cant": "quantifies over lists of any length", "anchors": ["pywmi/engines/xsdd/vtrees/vtree.py: Vtree.create_balanced, create_rightlinear, create_leftlinear, to_pysdd"]}
{"id": "C40", "title": "Integration-order vtrees contain every literal exactly once", "statement": "The vtree created from an integration tree has every literal of the problem as a leaf exactly once, has no empty part, and for any two parallel branches some split puts the literals over one on one side and those over the other on the other side. For the literal table of any formula, the bami, balanced, left-linear and right-linear strategies produce a compiler file in which every literal number occurs exactly once.", "quantifier": "every integration tree, set iteration order and literal table whose literals only mention variables on one root-to-leaf path and cover the leaf variables; every formula with at least one literal that mentions a variable", "why_tests_cant": "quantifies over trees and literal tables", "anchors": ["pywmi/engines/xsdd/vtrees/int_tree.py: IntTreeVar, IntTreeSplit, IntTreeParallel, IntTreeLine"]}
{"id": "C41", "title": "Min-fill elimination keeps correct fill counts", "statement": "After every elimination step the remaining neighbours form a clique, the graph stays symmetric and loop free, and the stored fill-in counts are those of the remaining graph; looking ahead leaves the graph unchanged.", "quantifier": "every graph and every elimination sequence", "why_tests_cant": "quantifies over histories of eliminations", "anchors": ["pywmi/engines/xsdd/vtrees/primal.py: Primal.remove_and_process_node, get_lowest_future_minfill, add_edges"]}
{"id": "C42", "title": "A pool stores each diagram node once", "statement": "In a pool, after any sequence of operations, asking twice for the same terminal or the same (test, children) combination returns the same node, different nodes have different content, and an existing node never changes.", "quantifier": "every history of pool operations (returning or raising) whose node arguments are nodes of the pool", "why_tests_cant": "quantifies over histories", "anchors": ["pywmi/engines/pyxadd/core.py: Pool.terminal, Pool.internal, Pool._register"]}
{"id": "C43", "title": "Diagrams are finite and acyclic", "statement": "In every reachable pool a node's children were created before it and exist in the pool, so every traversal terminates.", "quantifier": "every history of pool operations (returning or raising) whose node arguments are nodes of the pool", "why_tests_cant": "quantifies over histories", "anchors": ["pywmi/engines/pyxadd/core.py: Pool.internal, Pool.add_node"]}
{"id": "C44", "title": "Applying an operation to diagrams is pointwise", "statement": "Pool.apply(op, d1, d2) returns a diagram whose value at every assignment is op of the values of d1 and d2, whatever has been computed (and cached) before.", "quantifier": "every pool history, every pair of diagrams (ordered or not), every operation of the library, every assignment", "why_tests_cant": "memoisation makes the result depend on the whole history", "anchors": ["pywmi/engines/pyxadd/core.py: Pool.apply, Pool._apply", "pywmi/engines/pyxadd/operation.py"]}
{"id": "C45", "title": "Canonicalising a test and inverting a diagram preserve meaning", "statement": "Canonicalising a decision (flipping sign and branches) keeps the value of the node at every point off the hyperplane; inverting a boolean diagram gives its negation at every assignment.", "quantifier": "every decision, every diagram, every assignment", "why_tests_cant": "sign patterns of coefficients are unbounded", "anchors": ["pywmi/engines/pyxadd/decision.py: Decision", "pywmi/engines/pyxadd/core.py: Pool.invert, Pool.internal"]}
{"id": "C46", "title": "Reducing a diagram preserves its value", "statement": "Reducing a diagram with a sound solver returns a diagram with the same value at every assignment, in every pool history.", "quantifier": "every diagram of the pool, every sound solver, every history of pool operations", "why_tests_cant": "depends on solver answers along all paths and on caches", "anchors": ["pywmi/engines/pyxadd/reduce.py: SmtReduce, LinearReduction"]}
{"id": "C47", "title": "Diagram walkers compute the structural fold", "statement": "Walking a diagram bottom-up visits every reachable node after its children, exactly once, and returns the structural fold; this stays true for later walks with the same profile.", "quantifier": "every pool, every diagram, every sequence of walks including walks that raised", "why_tests_cant": "quantifies over histories with failures", "anchors": ["pywmi/engines/pyxadd/walk.py: WalkingProfile, BottomUpWalker"]}
{"id": "C48", "title": "Eliminating a real variable integrates it", "statement": "Resolving a real variable out of a diagram between a lower and an upper bound gives, for every assignment of the other variables, the integral of the diagram over that variable between the bounds.", "quantifier": "every diagram with linear tests and polynomial leaves, every assignment of the remaining variables", "why_tests_cant": "an identity between a symbolic algorithm and an integral for all inputs", "anchors": ["pywmi/engines/pyxadd/resolve.py: ResolveIntegrator.resolve_lb_ub, operator_to_bound"]}
{"id": "C49", "title": "Eliminating a boolean variable sums it out", "statement": "Resolving a boolean variable out of a diagram gives the sum of the values for true and false.", "quantifier": "every diagram, every assignment of the remaining variables", "why_tests_cant": "repeated tests on a path change the result", "anchors": ["pywmi/engines/pyxadd/resolve.py: ResolveIntegrator.resolve_lb_ub"]}
{"id": "C50", "title": "Translating a formula to a diagram preserves it", "statement": "The diagram built for a formula or weight has at every assignment (off the bounding hyperplanes) the value of the formula.", "quantifier": "every supported formula, every assignment", "why_tests_cant": "unbounded formulas; strictness and negation handling", "anchors": ["pywmi/engines/pyxadd/engine.py: ToXaddWalker"]}
{"id": "C51", "title": "PyXADD volume is the sum over worlds of integrals", "statement": "PyXaddEngine.compute_volume returns the sum over all boolean worlds of the iterated integral over the real variables of the weight restricted to the support and bounds.", "quantifier": "every bounded domain, support and polynomial weight", "why_tests_cant": "composition of translation, apply, reduction and resolution", "anchors": ["pywmi/engines/pyxadd/engine.py: PyXaddEngine.compute_volume"]}
{"id": "C52", "title": "Flattening a grouped collection returns every member once", "statement": "Flattening a multimap whose values are singletons returns the corresponding map and fails otherwise.", "quantifier": "every multimap", "why_tests_cant": "universally quantified over maps; failure leaves partially modified state", "anchors": ["pywmi/multimap.py"]}
{"id": "C53", "title": "Command line engine options are honoured", "statement": "Each engine option of the command line sets the option it names; an unknown option is rejected.", "quantifier": "every option string and every engine's set of accepted options", "why_tests_cant": "prefix matching makes options shadow each other", "anchors": ["pywmi/__main__.py: parse_options"]}
{"id": "C54", "title": "SMT-LIB import gives each term its SMT-LIB meaning", "statement": "A term accepted by the SMT-LIB importer denotes, under every assignment, the value the SMT-LIB operators prescribe, independently of the terms read before it; ill typed terms are rejected.", "quantifier": "every term, every assignment, every previous command", "why_tests_cant": "the importer mutates its symbol table while reading; quantifies over histories of commands", "anchors": ["pywmi/parser/smtlib/visitor.py: Visitor.visitTerm, Visitor._cast, Visitor.visitCommand"]}
{"id": "C55", "title": "Inequalities handed to LattE describe the same polytope", "statement": "The matrix rows and monomial exponents written for the LattE integrator describe exactly the given inequalities and polynomial.", "quantifier": "every list of inequalities and every polynomial over the domain variables", "why_tests_cant": "universally quantified over inequalities and points", "anchors": ["pywmi/engines/latte_backend.py: LatteIntegrator"]}
{"id": "C56", "title": "Normalising a formula keeps it equivalent", "statement": "normalize_formula(f) holds at a point exactly when f does, off the bounding hyperplanes of its inequalities.", "quantifier": "every formula, every point off the hyperplanes", "why_tests_cant": "unbounded formulas", "anchors": ["pywmi/transform/__init__.py: normalize_formula", "pywmi/transform"]}
{"id": "C57", "title": "Making coefficients positive is a projection", "statement": "make_coefficients_positive replaces every real constant of a formula by its absolute value, changes nothing else and is idempotent.", "quantifier": "every formula", "why_tests_cant": "unbounded formulas", "anchors": ["pywmi/transform"]}
{"id": "C58", "title": "Algebra shortcuts do not change values", "statement": "The algebra layer's sums, products, powers and comparisons agree with arithmetic at every point although multiplication by zero and one and addition of zero are short-cut.", "quantifier": "every expression of a backend whose basic operations are sound, every point, every exponent", "why_tests_cant": "all expressions and points", "anchors": ["pywmi/engines/algebraic_backend.py: AlgebraBackend"]}
{"id": "C59", "title": "Printed formulas are unambiguous", "statement": "Two formulas with the same pretty-printed text have the same value under every assignment.", "quantifier": "every pair of formulas, every assignment", "why_tests_cant": "ambiguity only shows for particular nestings", "anchors": ["pywmi/smt_print.py: pretty_print"]}
{"id": "C60", "title": "Seeded sampling is reproducible", "statement": "Sampling with an explicitly passed random generator depends only on the numbers that generator produces: two runs with equally seeded generators return the same samples.", "quantifier": "every domain, support, count and every state of the global generator", "why_tests_cant": "the dependence on the global generator only shows when the first batch does not suffice", "anchors": ["pywmi/sample.py: uniform, positive"]}
{"id": "C61", "title": "The adaptive engine counts boolean worlds", "statement": "AdaptiveRejection.compute_volume estimates the same quantity as the other engines: for a support that holds everywhere it is the volume of the domain, counting every assignment of the boolean variables.", "quantifier": "every domain, support, tree and sample set", "why_tests_cant": "needs every domain and every random outcome", "anchors": ["pywmi/engines/adaptive_rejection.py: AdaptiveRejection.compute_volume, TreeBuilder.get_volume"]}
{"id": "C62", "title": "Boolean literals are told from inequalities", "statement": "LiteralInfo.is_number_boolean(n) is true exactly when the literal numbered n stands for a boolean variable.", "quantifier": "every extracted literal table and every number in use", "why_tests_cant": "the answer must be right for every table and number", "anchors": ["pywmi/engines/xsdd/literals.py: LiteralInfo.is_number_boolean, is_lit_boolean"]}
{"id": "C63", "title": "Reading nested text gives every operator its usual meaning", "statement": "When nested text is read as a formula, the formula's value under every assignment is the value of the operator tree that was written, with every operator of the documented list given its usual meaning; the combined form '(op support part ...)' yields the support and the weight 'op part ...' with those same meanings. The operator '->' is on the list of accepted operators, so a text using it should be read as an implication.", "quantifier": "all operator trees over the listed operators, all ways of spacing them, all number readers, all assignments", "why_tests_cant": "The space of nested operator trees, spacings and assignments is unbounded; tests cover a handful of operators.", "anchors": ["pywmi/parse.py: SmtParser.nested_to_smt, SmtParser.combined_nested_to_wmi, SmtParser.ast_to_smt, nested_to_smt, combined_nested_to_wmi"]}
{"id": "C64", "title": "Monte Carlo integration over a convex region estimates the region's integral, with or without a bounding box", "statement": "RejectionIntegrator.integrate over a domain, a list of linear inequalities and a polynomial returns the volume of the box sampled times the average over the sample_count points of the polynomial, counted as zero outside the region; asking for a bounding box changes where points are drawn but never leaves out a part of the region, and a region in which no point is found gives 0. EngineConvexIntegrationBackend hands the same region and polynomial to its engine.", "quantifier": "every domain with finite bounds, every list of linear inequalities and polynomial over its real variables, every sample count, every outcome of the random sources, every sound linear programming solver", "why_tests_cant": "tests run a few seeds on regions in the positive quadrant and compare with a tolerance; a box that cuts off part of a region looks like sampling error", "anchors": ["pywmi/engines/rejection.py: RejectionIntegrator.integrate", "pywmi/engines/convex_integrator.py: EngineConvexIntegrationBackend.integrate"]}
{"id": "C65", "title": "Importing a MiniZinc file gives the problem the file describes", "statement": "MinizincParser.parse of a file returns a support, a weight, queries and variables that mean, under every assignment of the decision variables, what the items of the file and of the files it includes mean: the support is the conjunction of the constraints and of the equations of initialised variables, the weight the value of the weight item (1 without one), the queries the queried expressions, and the variables are those declared, with the intervals given. Every well-typed file in the supported fragment is accepted, ill-typed ones are rejected, and there is at most one weight.", "quantifier": "every sequence of MiniZinc items (declarations, assignments, constraints, weights, queries, includes to any depth), every assignment of the variables, every sound simplifier", "why_tests_cant": "tests read a few example files; whether typing, coercions, chained conditionals, parameters and includes combine correctly depends on files of unbounded size and nesting", "anchors": ["pywmi/parser/minizinc/visitor.py: Visitor", "pywmi/parser/minizinc/minizincParser.py: MinizincParser.parse"]}
{"id": "C66", "title": "Engines around external solvers hand over the bounded problem and return the solver's answer", "statement": "compute_volume of the PA, MPWMI, PRAiSE and XADD engines hands the external solver the support restricted to the domain's box, the weight and the domain's variables, and returns the volume the solver computes; compute_probabilities returns ratios of such volumes, None when the volume is zero. Reading the XADD program's output finds every result it printed, in order, and a missing result (failure, timeout) is reported as None.", "quantifier": "every well-formed domain, support, weight and list of queries, every solver, every text printed by the XADD program", "why_tests_cant": "the solvers are optional and absent from most test runs; what an output parser finds depends on texts of any length and layout", "anchors": ["pywmi/engines/pa.py: PredicateAbstractionEngine", "pywmi/engines/mpwmi.py: MPWMIEngine", "pywmi/engines/praise.py: PraiseEngine", "pywmi/engines/xadd.py: XaddEngine.call_wmi, compute_volume"]}
{"id": "C67", "title": "An imported density is over exactly the variables of its file", "statement": "import_density gives, for every dialect, a density whose domain has exactly the variables the file declares or uses, with their types and their intervals (unbounded, the interval of the file, or [0,1], by dialect), and whose support, weight and queries are those of the file and depend on no variable outside the domain. For the mspn dialects the numbers of variables are the two numbers in the file name and a missing query or weight file stands for the trivial query and the weight 1. An unknown dialect is a ValueError.", "quantifier": "every file name, every content of the files, every order in which a set of symbols is traversed", "why_tests_cant": "a converter is tested on the few files that ship with the project; a missing or mistyped variable shows only when an engine later integrates over the wrong space", "anchors": ["pywmi/convert.py: import_xadd_mspn, import_wmi_mspn, import_smt_synthetic, import_wmi_generate_tree, import_wmi_generate_100, import_smt, import_mzn, Import.import_density"]}
{"id": "C68", "title": "The command line answers with the first engine that has an answer and compares engines truthfully", "statement": "The tasks volume and prob ask the given engines in order, print the answer of the first one that has one and do not run the ones after it; None is printed only if no engine has an answer, and an exception comes from building an engine or from the first engine that raises. The task compare prints for every engine its own answer, the error relative to the exact answer when the exact engines agree (and none otherwise), warns exactly when exact engines disagree and names the engines that do.", "quantifier": "every list of engine descriptions, every reply of every engine (answer, None or exception), every query and timing", "why_tests_cant": "which engine answers depends on failures and timeouts of several engines in combination; the shipped tests run single engines that succeed", "anchors": ["pywmi/__main__.py: get_volume, compare, parse", "pywmi/engine.py: Engine.compute_probabilities"]}
{"id": "C69", "title": "Diagram algebra computes pointwise and integrates", "statement": "Used as an algebra backend, diagrams behave like the functions they stand for: whatever sequence of real, symbol, parse_condition, times, plus, negate and power calls builds an expression, the resulting diagram has at every assignment the value of the expression, earlier diagrams keep their content, integrate over a list of variables gives the iterated integral, and to_float returns the number a constant diagram stands for.", "quantifier": "every expression over the operations, every pool and history of earlier requests, every reduction strategy, every assignment, every list of variables and domain", "why_tests_cant": "diagrams share nodes and caches in one pool, so a later call can only be trusted if no history of earlier calls can have changed what it sees; values must agree at every real point", "anchors": ["pywmi/engines/pyxadd/algebra.py: PyXaddAlgebra", "pywmi/engines/algebraic_backend.py: AlgebraBackend.negate, AlgebraBackend.power", "pywmi/engines/pyxadd/core.py: Pool.apply, Pool.terminal, Pool.bool_test, Diagram.reduce", "pywmi/engines/pyxadd/resolve.py: ResolveIntegrator.integrate"]}
{"id": "C70", "title": "The other walks over a diagram and its picture are faithful", "statement": "Going through a diagram by the other means the package offers is faithful to its structure: a down-up walk computes the recursion over the diagram whether or not results are remembered; a top-down walk visits every node below the root exactly once, after all its parents, with exactly the messages they sent; map_leaves calls its function once on every leaf; and the exported dot file shows every node once with its label, exactly the edges of the diagram, solid to the true and dashed to the false child, and ranks that contain no edge.", "quantifier": "every pool reached by any history of requests, every diagram in it, all visitor functions, every order in which the set of enabled nodes is emptied", "why_tests_cant": "the top-down walk pops from an unordered set, so every schedule must be covered; sharing of nodes makes the number of paths exponential; and the walks share a profile cached in the pool by earlier walks", "anchors": ["pywmi/engines/pyxadd/walk.py: DownUpWalker, TopDownWalker, ParentsWalker, WalkingProfile.extract_layers, walk_leaves, map_leaves", "pywmi/engines/pyxadd/view.py: to_dot"]}
{"id": "C71", "title": "The tasks convert, normalize, plot and print read, write and show what they name", "statement": "The command line task convert writes the imported density to the path given with -o, or to the input's name followed by .converted.json: the file reads back as the same density and no other file changes. The normalize operation of the XADD engine hands the process three new files holding the engine's density, the new support (conjoined with the old one unless told otherwise) with weight one, and a place for the result; it returns the formula the process leaves there, None on a timeout and an exception on a failure, and the three files are gone afterwards whatever the process did. The task plot draws the support, or with -d the formula that is true exactly at the points where two supports differ, to the named file, -o * standing for the input's name followed by .png. The task print shows the domain, the support, the weight and all queries: densities with the same output have the same meaning.", "quantifier": "every density, every content of the disk, every choice of temporary names, every behaviour of the external process, all options of the three tasks", "why_tests_cant": "The external program is not available to a test and may end in any way after changing any file; which files remain and what a failed conversion leaves behind has to be shown for all of these outcomes, and the difference formula for all pairs of supports and all points.", "anchors": ["pywmi/__main__.py: parse", "pywmi/export.py: Exportable.to_file, Exportable.from_file", "pywmi/temp.py: TemporaryFile", "pywmi/engine.py: Engine.temp_file", "pywmi/engines/xadd.py: XaddEngine.normalize, XaddEngine.import_normalized", "pywmi/smt_print.py: pretty_print"]}
