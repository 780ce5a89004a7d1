{
 "claims": [
  {
   "property": "C01",
   "status": "partial",
   "theorems": [
    "C01_roundtrip_partial",
    "C01_roundtrip_characterised",
    "C01_false_constant_refuted",
    "C01_rounding_refuted",
    "C01_integer_refuted"
   ],
   "note": "Holds for every formula without FALSE whose real constants are floats; the full claim is false of the code: FALSE reads back as TRUE (parse.py:117), constants such as 1/3 are rounded, integer variables cannot be read back. C01_roundtrip_characterised gives the exact meaning of the formula that is read, for every storable formula."
  },
  {
   "property": "C02",
   "status": "partial",
   "theorems": [
    "C02_parse_recovers_tree",
    "C02_surplus_close_rejected",
    "C02_bare_token_rejected",
    "C02_unknown_operator_rejected",
    "C02_wrong_arity_rejected",
    "C02_malformed_accepted_refuted"
   ],
   "note": "Every clause of the claim that is true is proved for all texts. Malformed texts of other kinds (missing closing parenthesis, several trees, postfix operator) are accepted by the code: refuted."
  },
  {
   "property": "C03",
   "status": "partial",
   "theorems": [
    "C03_table_rows",
    "C03_single_sample",
    "C03_assignment",
    "C03_one_variable_sample_refuted"
   ],
   "note": "Proved for tables with any number of rows, single samples and assignment dictionaries; formulas without integer parts. Refuted for a one-dimensional sample of a one-variable domain, which raises IndexError."
  },
  {
   "property": "C04",
   "status": "proved",
   "theorems": [
    "C04_table_and_results_intact",
    "C04_result_kept"
   ],
   "note": "For any sequence of formulas given to one checker, including runs that raise."
  },
  {
   "property": "C05",
   "status": "partial",
   "theorems": [
    "C05_identity_preserves",
    "C05_integer_constant_refuted"
   ],
   "note": "Identity walker, for formulas without integer parts; integer constants make it return an exception object."
  },
  {
   "property": "C06",
   "status": "partial",
   "theorems": [
    "C06_from_smt_value_partial",
    "C06_zeroth_power_refuted"
   ],
   "note": "Proved for all real expressions whose exponents are at least one; x^0 is converted to x, shown by the refutation."
  },
  {
   "property": "C07",
   "status": "partial",
   "theorems": [
    "C07_equality_decides",
    "C07_sum_refuted"
   ],
   "note": "Equality of converted polynomials decides equality of functions (both directions). Refuted for results of Polynomial.__add__, which keeps zero coefficients."
  },
  {
   "property": "C08",
   "status": "partial",
   "theorems": [
    "C08_sum",
    "C08_product",
    "C08_negation",
    "C08_power",
    "C08_to_smt_partial",
    "C08_zero_refuted",
    "C08_to_expression"
   ],
   "note": "Pointwise meaning of sum, product, negation, power and both ways of writing a polynomial; the zero polynomial cannot be written back (refutation)."
  },
  {
   "property": "C09",
   "status": "proved",
   "theorems": [
    "C09_half_space",
    "C09_accepted",
    "C09_linear",
    "C09_boundary_refuted"
   ],
   "note": "Half-space preserved off the hyperplane; on the hyperplane the meaning changes (refutation shows the boundary is needed)."
  },
  {
   "property": "C10",
   "status": "partial",
   "theorems": [
    "C10_normalize",
    "C10_scale_to_integer_partial",
    "C10_large_denominators_refuted",
    "C10_trivial_refuted"
   ],
   "note": "normalize proved for all inequalities; scale_to_integer when the common denominator is below 2^53; false beyond."
  },
  {
   "property": "C11",
   "status": "partial",
   "theorems": [
    "C11_bounds_equivalent_partial",
    "C11_accepted",
    "C11_negated_conjunction_refuted",
    "C11_boolean_literal_refuted"
   ],
   "note": "Equivalence for conjunctions of possibly negated comparisons; refuted for negated conjunctions and boolean literals."
  },
  {
   "property": "C12",
   "status": "proved",
   "theorems": [
    "C12_make_dict",
    "C12_make_lists",
    "C12_bounds_are_box",
    "C12_box_volume",
    "C12_make_short_refuted"
   ],
   "note": "Bounds hold exactly in the box and the box volume is the product, for every well formed domain; domains built by make are well formed (unless names and bounds differ in number)."
  },
  {
   "property": "C13",
   "status": "partial",
   "theorems": [
    "C13_volume_partial",
    "C13_unbounded",
    "C13_boolean_domain_refuted"
   ],
   "note": "Proved for domains with at least one real variable; domains without one have volume 0 instead of 2^n."
  },
  {
   "property": "C14",
   "status": "partial",
   "theorems": [
    "C14_domain_roundtrip",
    "C14_density_roundtrip_partial",
    "C14_false_support_refuted"
   ],
   "note": "Domains exactly; densities up to the restrictions of C01."
  },
  {
   "property": "C15",
   "status": "proved",
   "theorems": [
    "C15_project"
   ],
   "note": ""
  },
  {
   "property": "C16",
   "status": "partial",
   "theorems": [
    "C16_save_load_partial",
    "C16_stale_queries_refuted",
    "C16_stale_weight_refuted"
   ],
   "note": "Proved for every listing order and every previous content without stale query/weight files; stale files are read back."
  },
  {
   "property": "C17",
   "status": "proved",
   "theorems": [
    "C17_ratio",
    "C17_range",
    "C17_complement",
    "C17_monotone",
    "C17_none"
   ],
   "note": "Engine.compute_probabilities over any engine whose compute_volume is exact (hypothesis exact_engine; satisfied e.g. by weighted counting)."
  },
  {
   "property": "C18",
   "status": "proved",
   "theorems": [
    "C18_evidence",
    "C18_rejects"
   ],
   "note": "with_evidence for every boolean evidence dictionary; simplify assumed meaning-preserving; the integral over the reals is abstract."
  },
  {
   "property": "C19",
   "status": "partial",
   "theorems": [
    "C19_removed",
    "C19_no_trace",
    "C19_callback_raises_refuted",
    "C19_reentry_refuted",
    "C19_descriptor_refuted"
   ],
   "note": "The file is removed however the body ends. False when the callback raises, when the object is re-entered, and the descriptor is never closed."
  },
  {
   "property": "C20",
   "status": "proved",
   "theorems": [
    "C20_in_domain",
    "C20_one_hot",
    "C20_every_row",
    "C20_every_choice",
    "C20_overlapping_groups_refuted"
   ],
   "note": "Exact rationals instead of floats; random source arbitrary in [0,1). Groups must be disjoint (refutation otherwise)."
  },
  {
   "property": "C21",
   "status": "proved",
   "theorems": [
    "C21_resample"
   ],
   "note": "Exact rationals; the n-th root is an oracle with values in [0,1)."
  },
  {
   "property": "C22",
   "status": "partial",
   "theorems": [
    "C22_met_or_refused",
    "C22_weighted",
    "C22_pool_size_refuted",
    "C22_zero_refuted"
   ],
   "note": "Holds with 'pool size' for 'n' when no weight is given; false when sample_pool_size differs from n without weight, and n = 0 raises ZeroDivisionError."
  },
  {
   "property": "C23",
   "status": "partial",
   "theorems": [
    "C23_volume",
    "C23_volume_one_hot_partial",
    "C23_zero",
    "C23_bound",
    "C23_no_samples_refuted",
    "C23_one_hot_degenerate_refuted"
   ],
   "note": "Full formula without one-hot groups; with groups false for boxes of volume zero; no samples raises."
  },
  {
   "property": "C24",
   "status": "proved",
   "theorems": [
    "C24_fraction",
    "C24_probability"
   ],
   "note": ""
  },
  {
   "property": "C25",
   "status": "proved",
   "theorems": [
    "C25_partition",
    "C25_samples",
    "C25_total",
    "C25_fails"
   ],
   "note": "For every tree the builder returns (any stopping rule, scores, solver answers, random numbers). C25_fails delimits: no real variable, zero-volume box or zero building samples raise."
  },
  {
   "property": "C26",
   "status": "partial",
   "theorems": [
    "C26_constraints_partial",
    "C26_exact_partial",
    "C26_refuted"
   ],
   "note": "False of the code: the split asserted for a right child is never retracted. Proved that constraints are never too weak and that they are exact when no left child is split again; C26_refuted shows a non-empty region being discarded with every correct solver."
  },
  {
   "property": "C27",
   "status": "partial",
   "theorems": [
    "C27_ratio_partial",
    "C27_refuted"
   ],
   "note": "Holds for weights other than the constant 1; without weight the query is ignored and the answer is 1 (C27_refuted)."
  },
  {
   "property": "C28",
   "status": "proved",
   "theorems": [
    "C28_equivalent",
    "C28_numbers",
    "C28_number_to_val",
    "C28_boundary_refuted",
    "C28_equality_refuted"
   ],
   "note": "For all formulas over boolean variables and linear inequalities. C28_boundary_refuted shows that the exclusion of hyperplanes is needed; C28_equality_refuted that equalities are never accepted."
  },
  {
   "property": "C29",
   "status": "partial",
   "theorems": [
    "C29_insertions_partial",
    "C29_insertions_after_extract_partial",
    "C29_constructor",
    "C29_refused",
    "C29_overwrite_refuted",
    "C29_steal_refuted",
    "C29_delete_refuted",
    "C29_clear_refuted"
   ],
   "note": "True for every history of insertions under new keys (the only use inside the repository). False for overwriting (stale or stolen literal), deletion (always KeyError, stale inverse) and clear (always RuntimeError unless empty). The two-table constructor accepts exactly disjoint tables (C29_constructor)."
  },
  {
   "property": "C30",
   "status": "proved",
   "theorems": [
    "C30_compile_recover",
    "C30_recover"
   ],
   "note": "The SDD library is an oracle whose operations have the meaning of their names and return well-formed diagrams; a concrete such manager is built in Sdd_Example.v."
  },
  {
   "property": "C31",
   "status": "proved",
   "theorems": [
    "C31_model_count",
    "C31_compiled",
    "C31_cache",
    "C31_missing_weight"
   ],
   "note": "For complementary weights (w(x)+w(not x)=1), which is the case without smoothing used in the repository."
  },
  {
   "property": "C32",
   "status": "partial",
   "theorems": [
    "C32_worlds_partial",
    "C32_uniform_partial",
    "C32_refuted"
   ],
   "note": "True when, at each decision node, elements with equally many booleans mention the same ones; C32_refuted: ite(x<1,A,B) is counted at half its worlds (engine.py:94-96)."
  },
  {
   "property": "C33",
   "status": "proved",
   "theorems": [
    "C33_regions",
    "C33_formula"
   ],
   "note": "Off the hyperplanes of the inequalities, because negated inequalities are stored with the opposite strictness."
  },
  {
   "property": "C34",
   "status": "partial",
   "theorems": [
    "C34_value_partial",
    "C34_distinct_partial",
    "C34_fails_refuted",
    "C34_lost_refuted",
    "C34_number_refuted"
   ],
   "note": "True unless an expression meets its own double (or two negated pieces collide); in particular for sums and conditionals of pairwise different monomials. False otherwise: x+x+x+x raises, ite(A,x,0)+2x+ite(A,0,x) loses 2x, 1+1 yields a plain number without to_expression."
  },
  {
   "property": "C35",
   "status": "partial",
   "theorems": [
    "C35_labels_partial",
    "C35_duplicate_refuted",
    "C35_only_labels_refuted"
   ],
   "note": "True when no boolean labels two factors and some factor is not a label; duplicates overwrite each other and a product of labels only is refused."
  },
  {
   "property": "C36",
   "status": "partial",
   "theorems": [
    "C36_volume_partial",
    "C36_single_partial",
    "C36_convex_partial",
    "C36_bounds_partial",
    "C36_refuted",
    "C36_number_refuted"
   ],
   "note": "The volume is the sum over worlds of integrals whenever the weight splits into polynomial pieces (C34) and compiled diagrams have no node adding parts with equally many but different booleans (C32); no such restriction with at most one boolean or with a convex integrator. C36_refuted: otherwise the volume can be halved. C36_number_refuted: weight 1+1 raises."
  },
  {
   "property": "C37",
   "status": "partial",
   "theorems": [
    "C37_groups",
    "C37_term_partial",
    "C37_volume_partial",
    "C37_single_partial",
    "C37_refuted",
    "C37_label_refuted"
   ],
   "note": "C37_groups proves the first sentence in full: for every polynomial the groups are disjoint, cover the real variables, each factor mentions only its group, and the product of the factors is the polynomial. C37_term_partial and C37_volume_partial prove that integrating group by group over the decision diagram gives the joint integral (ordered and unordered mode, any set iteration order), for supports that bound every real variable, weights that are not products, and diagrams without nodes that add two parts with equally many but different booleans; C37_single_partial drops the last restriction for at most one boolean. Missing: labels (weights that are products). C37_refuted shows that without the restriction on diagrams the engine returns half of the volume of a concrete problem; C37_label_refuted shows that a label for a boolean that the support does not mention makes the engine fail with KeyError."
  },
  {
   "property": "C38",
   "status": "proved",
   "theorems": [
    "C38_valid",
    "C38_support",
    "C38_accepted",
    "C38_piecewise_refuted"
   ],
   "note": "Every added implication is valid and the support unchanged at every point, for every sound solver. C38_accepted characterises when conflict search succeeds; C38_piecewise_refuted: it raises for every piecewise weight."
  },
  {
   "property": "C39",
   "status": "proved",
   "theorems": [
    "C39_balanced",
    "C39_balanced_add",
    "C39_linear",
    "C39_linear_shape",
    "C39_file",
    "C39_file_leaves",
    "C39_empty_refuted"
   ],
   "note": "C39_empty_refuted: a vtree with an empty part (possible when C40's coverage hypothesis fails) makes to_pysdd raise AttributeError."
  },
  {
   "property": "C40",
   "status": "partial",
   "theorems": [
    "C40_create",
    "C40_create_fuel",
    "C40_bami",
    "C40_formula",
    "C40_uncovered_refuted",
    "C40_two_branches_refuted",
    "C40_no_variables_refuted"
   ],
   "note": "Proved for covered integration trees and for every table that mentions a variable. Refuted outside: an uncovered leaf variable gives an empty part; bami raises AttributeError when the only tests have no variables."
  },
  {
   "property": "C41",
   "status": "partial",
   "theorems": [
    "C41_interaction_graph",
    "C41_history_partial",
    "C41_step",
    "C41_look_ahead",
    "C41_minfills",
    "C41_stale_fill_refuted",
    "C41_degree_mode_refuted",
    "C41_degree_kept_refuted"
   ],
   "note": "Graph contents, symmetry, loop-freeness, cliques and looking ahead proved for all reached states. Stored fills are upper bounds, exact only for neighbours of the last eliminated vertex (stale fill refutation). Degree-only mode breaks loop-freeness and raises KeyError; eliminated vertices stay in the degree table."
  },
  {
   "property": "C42",
   "status": "proved",
   "theorems": [
    "pool_stores_each_node_once"
   ],
   "note": "For every pool reached by any history of terminal, internal, bool_test, apply, invert, reduce and walk requests (returning or raising): equal content means equal node, nodes never change, and repeated requests give the first answer. resolve is not among the requests."
  },
  {
   "property": "C43",
   "status": "proved",
   "theorems": [
    "diagrams_finite_acyclic",
    "acyclic_unchecked_ids_refuted"
   ],
   "note": "Children are older and exist, and the child relation is well founded, for every history whose requests mention existing nodes. The refutation shows why: internal() does not check ids, so an id that does not exist yet makes a node its own child."
  },
  {
   "property": "C44",
   "status": "partial",
   "theorems": [
    "apply_pointwise_partial",
    "apply_never_wrong",
    "apply_with_ordering_refuted"
   ],
   "note": "Pointwise for every history, every pair of nodes and every operation (logical operations on 0/1 diagrams) in pools without a user ordering. With an ordering apply raises AttributeError (misspelt test_smaller_eg), which is the refuted part."
  },
  {
   "property": "C45",
   "status": "partial",
   "theorems": [
    "linear_test_off_hyperplane_partial",
    "boolean_test_everywhere",
    "invert_negates_partial",
    "linear_test_on_hyperplane_refuted",
    "invert_without_is_one_refuted"
   ],
   "note": "Linear tests: answer always returned and right off the hyperplane, refuted on it. Boolean tests: everywhere. Inversion: negation at every assignment when the algebra recognises 0 and 1, no ordering was given and no earlier walk over the diagram raised; refuted for algebras whose is_one raises (SympyAlgebra, the base class)."
  },
  {
   "property": "C46",
   "status": "proved",
   "theorems": [
    "reduce_keeps_value"
   ],
   "note": "Both modes (smt, fast_smt), every history, every sound solver."
  },
  {
   "property": "C47",
   "status": "partial",
   "theorems": [
    "walk_is_fold_partial",
    "walk_visits_each_node_once",
    "walk_after_raise_refuted"
   ],
   "note": "For every history and every diagram on which no earlier walk raised: visits in bottom-up order, each node once, result is the fold (or the first exception). Refuted after a walk that raised: its profile is not reset."
  },
  {
   "property": "C48",
   "status": "partial",
   "theorems": [
    "resolve_integrates_partial",
    "integrate_integrates_partial",
    "resolve_never_wrong",
    "diagram_integral_unique",
    "integrate_quoted_name_refuted",
    "integrate_unbounded_refuted"
   ],
   "note": "Proved for every pool reached by any history of requests, every strategy, bounds and assignment, given polynomial leaves and an algebra that integrates polynomials; the integral is the unique value of an independent specification (Integral_Spec). Missing: pools with a user-given ordering (an answer is never wrong, but there may be none) and names that pysmt quotes, for which the property is refuted; a diagram that is not zero beyond a missing bound gives 0 (refuted)."
  },
  {
   "property": "C49",
   "status": "partial",
   "theorems": [
    "resolve_boolean_sums_partial",
    "integrate_boolean_sums_partial",
    "boolean_tested_twice_refuted",
    "integrate_boolean_in_order_partial"
   ],
   "note": "Proved for diagrams in which no path tests the boolean twice (strategies without initial reduction), and for every strategy on diagrams whose tests come in registration order; the result is in order again, so booleans can be summed out one after the other. boolean_tested_twice_refuted: a diagram built through the API that tests the boolean twice is summed wrongly."
  },
  {
   "property": "C50",
   "status": "partial",
   "theorems": [
    "formula_to_diagram_partial",
    "weight_to_diagram_partial",
    "formula_to_diagram_refuted"
   ],
   "note": "Proved for every pool reached by requests on which no walk has raised and without a user-given ordering, every formula over boolean variables and linear comparisons (any nesting of and/or/not/implies/iff/ite) and every piecewise polynomial weight, at every assignment off the hyperplanes; with the walker's cache. Missing: comparisons with powers other than 1 are wrong (x^0 <= y is turned into 2 <= y, refuted), equalities raise NotImplementedError."
  },
  {
   "property": "C51",
   "status": "partial",
   "theorems": [
    "compute_volume_total",
    "compute_volume_leaf",
    "compute_volume_partial",
    "wmi_deterministic",
    "compute_volume_refuted",
    "compute_volume_order_refuted"
   ],
   "note": "For domains listing booleans before reals (as Domain.make does), finite bounds, a support over linear comparisons, a piecewise polynomial weight, both over the variables of the domain, and no comparison that is an equality everywhere: compute_volume returns a number, and it is the sum over the boolean worlds of the iterated integral over the reals of the weight restricted to the support and bounds; in particular the final assertion never fails (the variables of every test are followed through translation, apply, reduction and resolution). compute_volume_refuted: the condition on comparisons is needed, x < x is integrated as x <= x. compute_volume_order_refuted: the condition on the order of the variables is needed too; with the reals first (x, y, a) and a Fourier-Motzkin solver the computation ends in the AssertionError of engine.py:157 for every reduction strategy, because integrating x leaves a boolean tested twice on a path."
  },
  {
   "property": "C52",
   "status": "proved",
   "theorems": [
    "flatten_singletons",
    "flatten_not_singletons",
    "flat_items_each_once",
    "add_holds",
    "flatten_consumes_refuted",
    "failed_flatten_loses_members_refuted",
    "lookup_breaks_flatten_refuted"
   ],
   "note": "Proved for every multimap a program can build. The _refuted theorems record the side effects: flatten empties the sets it reads, so it cannot be repeated, a failed call loses members, and a mere lookup makes it fail."
  },
  {
   "property": "C53",
   "status": "partial",
   "theorems": [
    "options_honoured_partial",
    "unknown_options_rejected_partial",
    "engine_options_honoured_partial",
    "backend_honoured_partial",
    "minimize_never_set",
    "minimize_ignored_refuted",
    "reduce_strategy_ignored_refuted",
    "xsdd_options_raise_refuted",
    "unknown_engine_is_none"
   ],
   "note": "Every accepted option is a whitelisted one with its value read literally and, of several settings of one name, the last one counts; anything else raises. Partial because the full statement is false of the code: 'min' is shadowed by 'm' so minimize can never be requested, the reduce strategy of pyxadd is silently dropped, xsdd options raise TypeError inside the constructor, and an unknown engine name yields None."
  },
  {
   "property": "C54",
   "status": "partial",
   "theorems": [
    "smtlib_import_meaning",
    "smtlib_meaning_unique",
    "smtlib_ill_typed_rejected_partial",
    "smtlib_accepts_well_typed_partial",
    "smtlib_ill_typed_accepted_refuted",
    "smtlib_acceptance_history_refuted",
    "smtlib_weight_first_refuted",
    "smtlib_decimal_rounded_refuted",
    "smtlib_error_kind_refuted",
    "smtlib_binary_refuted"
   ],
   "note": "smtlib_import_meaning: whatever the file and whatever was read before, an imported file's support, weight and queries have under every assignment the value of the SMT-LIB terms (decimals that are floating-point numbers), and the variables are those declared. Rejection of ill-typed terms is proved for terms in which +, *, and, or have two operands or more and no binary token occurs; (and 1) is accepted (refuted), and a binary token loses its first two digits (refuted). Acceptance of well-typed files without a weight is proved for binary arithmetic; in general it depends on operand order and on earlier terms (refuted). The ANTLR lexer/parser is not modelled; divisors that are not constants are reported as a failure by the model."
  },
  {
   "property": "C55",
   "status": "partial",
   "theorems": [
    "latte_rows_polytope_partial",
    "latte_monomials_polynomial_partial",
    "latte_integral_partial",
    "latte_failure_partial",
    "latte_small_coefficient_refuted",
    "latte_small_weight_refuted",
    "latte_raises_refuted",
    "latte_foreign_variable_refuted"
   ],
   "note": "Proved for inequalities and polynomials over the domain's variables with coefficients of denominators up to 10^6 (common multiple up to 2^53). Outside that the statement is false of the code: coefficients are rounded or lost, and variables outside the domain are dropped. The text layout of the files and the LattE program are not modelled."
  },
  {
   "property": "C56",
   "status": "proved",
   "theorems": [
    "normalize_equivalent",
    "normalize_succeeds",
    "normalize_on_hyperplane_refuted"
   ],
   "note": "For every supported formula whenever a result is returned; a result is returned whenever the comparisons are linear. The restriction to points off the hyperplanes, part of the statement, is necessary."
  },
  {
   "property": "C57",
   "status": "proved",
   "theorems": [
    "positive_coefficients_projection",
    "positive_coefficients_exact"
   ],
   "note": "For every well typed formula without integers, Exp and ToReal (the language the walker accepts). Implications, equivalences and double negations are rewritten, so literal equality is stated for formulas without them and equivalence for all."
  },
  {
   "property": "C58",
   "status": "partial",
   "theorems": [
    "C58_arithmetic",
    "C58_comparisons",
    "C58_inequality",
    "C58_polynomials",
    "C58_pysmt",
    "C58_pysmt_comparison_refuted"
   ],
   "note": "For every sound backend; the comparisons of the pysmt algebra always raise."
  },
  {
   "property": "C59",
   "status": "partial",
   "theorems": [
    "print_determines_partial",
    "print_succeeds",
    "print_product_refuted",
    "print_difference_refuted",
    "print_sign_refuted",
    "print_name_refuted",
    "print_rounding_refuted"
   ],
   "note": "Proved for formulas over boolean variables and linear inequalities whose variables are identifiers and whose normalised coefficients the decimal format keeps apart. Refuted in general: sums inside products and differences inside differences lose their parentheses, the sign of a factor is misplaced, a variable may be called True, and rounding identifies coefficients. The decimal text of non-integral numbers is an assumption on the function fmt."
  },
  {
   "property": "C60",
   "status": "partial",
   "theorems": [
    "C60_uniform",
    "C60_positive_refuted"
   ],
   "note": "positive() draws its later batches from the module's default generator."
  },
  {
   "property": "C61",
   "status": "partial",
   "theorems": [
    "C61_box_partial",
    "C61_refuted"
   ],
   "note": "The adaptive engine omits the factor 2^#booleans: estimates are bounded by the bounding box, and disagree with the rejection engine and the domain volume on every domain with a boolean variable (C61_refuted)."
  },
  {
   "property": "C62",
   "status": "partial",
   "theorems": [
    "C62_boolean_partial",
    "C62_refuted"
   ],
   "note": "The code tests the type of the literal's name, which is always a string: every number is reported as boolean."
  },
  {
   "property": "C63",
   "status": "partial",
   "theorems": [
    "C63_operators_mean",
    "C63_combined_means",
    "C63_implication_refuted"
   ],
   "note": "Every operator that is read has its usual meaning, and the combined form splits into support and weight. '->' is accepted by the tokenizer but has no reader case, so every text using it is rejected. exp has no rational value and is given no meaning; pysmt's symbol table is not modelled."
  },
  {
   "property": "C64",
   "status": "partial",
   "theorems": [
    "C64_estimate",
    "C64_engine_backend",
    "C64_linprog_partial",
    "C64_sampled_partial",
    "C64_other_values",
    "C64_negative_refuted",
    "C64_half_refuted",
    "C64_domain_refuted",
    "C64_empty_refuted",
    "C64_boolean_refuted"
   ],
   "note": "Proved without a bounding box, for every domain, region, polynomial and random source. With bounding_box=1 the box contains every point of the region without negative coordinates; with bounding_box=2 it contains every accepted sample. The rest is false of the code: linprog is called with its default bounds, so parts of the region with negative coordinates are never sampled; the box forgets the domain's own bounds; a region in which no sample falls raises IndexError instead of giving 0; intervals of boolean columns enter the volume. The case of one accepted sample (NaN bounds) is not modelled."
  },
  {
   "property": "C65",
   "status": "partial",
   "theorems": [
    "C65_meaning",
    "C65_unique",
    "C65_distinct",
    "C65_accepts_partial",
    "C65_one_weight",
    "C65_no_equations",
    "C65_equation_refuted",
    "C65_unequal_refuted",
    "C65_assign_refuted",
    "C65_parameter_refuted",
    "C65_int_refuted",
    "C65_two_weights_refuted",
    "C65_plus_refuted",
    "C65_self_include_refuted"
   ],
   "note": "The meaning half is proved for every accepted file, includes at any depth and every assignment. Acceptance is proved for well-typed files without includes; the typing rules leave out what the code refuses wrongly: equations between numbers (= is read as equivalence), != between booleans, assignments to decision variables. After an include parameters are unknown and integer variables count as real, two weights are accepted when the included one is 1, +true is accepted, and a file that includes itself is read without end (all refuted). The ANTLR lexer and parser are not modelled; a divisor that is not a constant is a failure in the model."
  },
  {
   "property": "C66",
   "status": "partial",
   "theorems": [
    "C66_pa",
    "C66_mpwmi",
    "C66_restricted_volume",
    "C66_mpwmi_zero_refuted",
    "C66_praise_refuted",
    "C66_xadd_found",
    "C66_xadd_found_unique",
    "C66_xadd_partial",
    "C66_xadd_volume",
    "C66_xadd_none",
    "C66_xadd_refuted",
    "C66_xadd_timeout_refuted"
   ],
   "note": "The problem handed over and the value returned are proved for PA and MPWMI, and which results of an XADD output are read is characterised for every text. False of the code: MPWMI divides by a zero volume, PRAiSE ignores the bounds and returns a probability (1) as volume, of two XADD results on consecutive lines the second is lost (all are read when other lines come between, proved), and probabilities after a timeout are a TypeError. The solvers themselves are arguments; XaddEngine.normalize is in C71."
  },
  {
   "property": "C67",
   "status": "partial",
   "theorems": [
    "C67_smt_partial",
    "C67_mzn",
    "C67_tree_partial",
    "C67_xadd_mspn",
    "C67_wmi_mspn",
    "C67_synthetic",
    "C67_dialects",
    "C67_int_refuted",
    "C67_tree_int_refuted",
    "C67_100_refuted"
   ],
   "note": "Proved for MiniZinc files, the mspn dialects, synthetic problems and native files; for SMT-LIB files when +, *, and, or have two operands or more, no binary token occurs and decimals are floating-point numbers; for wmi_generate_tree when no variable is an integer. False of the code: integers become reals (SMT-LIB) or are left out of the domain (wmi_generate_tree, whose support then depends on a variable the domain lacks), and wmi_generate_100 always raises TypeError. pysmt's SMT-LIB reader, json and int() are arguments."
  },
  {
   "property": "C68",
   "status": "partial",
   "theorems": [
    "C68_first_answer",
    "C68_no_answer",
    "C68_exception",
    "C68_prob_refuted",
    "C68_compare_partial",
    "C68_zero_refuted",
    "C68_warning_partial",
    "C68_warning_refuted",
    "C68_query_index",
    "C68_relative_time",
    "C68_base_probabilities"
   ],
   "note": "The choice of the answer is proved for every list of engines, as equivalences. For prob the promise that later engines are used when earlier ones fail is false of the code: an engine using the base class's probabilities raises TypeError when its volume is None, and without queries its empty list counts as an answer (C68_prob_refuted). The comparison table is proved except that with an exact answer of zero every error is reported as zero (C68_zero_refuted) and that warnings name engines by their position among the exact answers, so they may blame an approximate engine (C68_warning_refuted; right when all engines are exact and answer, C68_warning_partial). A query index that is too large is ignored, a negative one counts from the end (C68_query_index). Relative times refer to the fastest exact engine that answered (C68_relative_time), and the base class's probabilities are quotients of volumes (C68_base_probabilities). Number formats and the standard deviation of the single run are not modelled."
  },
  {
   "property": "C69",
   "status": "partial",
   "theorems": [
    "C69_expressions_partial",
    "C69_negative_power",
    "C69_integrate_partial",
    "C69_unknown_variable",
    "C69_to_float",
    "C69_empty_means_all_refuted",
    "C69_with_ordering_refuted",
    "C69_on_hyperplane_refuted"
   ],
   "note": "Proved for every expression, pool history, strategy and assignment, for pools without a user-given ordering and assignments on none of the hyperplanes; both restrictions are necessary (C69_with_ordering_refuted, C69_on_hyperplane_refuted). Integration is proved over non-empty lists of different real variables of a diagram that is zero outside a box (unbounded diagrams: integrate_unbounded_refuted of C48); an empty list integrates over the whole domain instead of nothing (C69_empty_means_all_refuted). The comparison methods less_than, less_than_equal, greater_than and greater_than_equal, which only raise NotImplementedError, are left out, and so is a pool given to the constructor together with another symbolic backend."
  },
  {
   "property": "C70",
   "status": "partial",
   "theorems": [
    "C70_down_up",
    "C70_top_down",
    "C70_leaves_partial",
    "C70_leaves_after_error_refuted",
    "C70_dot_partial",
    "C70_dot_infinite_refuted"
   ],
   "note": "The down-up and top-down walks are proved in full, for every visitor and every schedule. map_leaves is proved for diagrams on which no walk has raised before; after a call that raised, the next one starts where it stopped (C70_leaves_after_error_refuted). to_dot is proved for diagrams without a leaf whose text Python reads as an infinite number; such a leaf, for instance a variable called inf, makes it raise OverflowError (C70_dot_infinite_refuted). The dot file is modelled as a list of statements; its text, where labels are not escaped, is not."
  },
  {
   "property": "C71",
   "status": "partial",
   "theorems": [
    "C71_convert_partial",
    "C71_convert_effects",
    "C71_convert_failure_refuted",
    "C71_normalize_partial",
    "C71_cleanup_partial",
    "C71_temporary_file_refuted",
    "C71_normalize_task",
    "C71_output_path_refuted",
    "C71_total_flag_refuted",
    "C71_plot",
    "C71_print_partial",
    "C71_print_weight_refuted",
    "C71_print_sections",
    "C71_print_succeeds"
   ],
   "note": "plot is proved in full and convert's effects on the disk are given for every density. Reading back is proved for densities the JSON format holds exactly (as in C14). A conversion that fails has already emptied its target (C71_convert_failure_refuted). normalize is proved for such densities with boolean supports; whenever the engine's density can be written, the disk is restored however normalize ends (C71_cleanup_partial); when it cannot be written its temporary file stays (C71_temporary_file_refuted). The task normalize never writes its output path (C71_output_path_refuted), and -t drops the old support instead of passing -t to the process (C71_total_flag_refuted). The task print succeeds exactly when every formula can be printed (C71_print_succeeds) and its output determines supports and queries in the readable fragment of C59; weights with the same text may differ (C71_print_weight_refuted). Files are modelled as empty, a JSON state or lines of text."
  }
 ]
}
