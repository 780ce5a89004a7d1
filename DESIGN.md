# Formal model of pywmi in Rocq (Coq 8.16.1)

The code under study is `/repo` (weighted-model-integration/pywmi, pinned commit), read as
text only.  Everything proved here is about a hand written model of that code; the tie to the
code is the citation (`file:lines`) on every definition.

## 1. Layout

Each area of the code gets up to four files in `rocq/theories/`:

* `X_Model.v`  – the functions of the code, one Gallina definition per function, with citations;
  no proofs.
* `X_Spec.v`   – the small independent vocabulary the theorems are stated in (only where the
  shared vocabulary of `Smt.v` is not enough).
* `X_Proofs.v` – lemmas.
* `X_Props.v`  – nothing but the property theorems (`exact lemma.`), `Print Assumptions`, and
  `Example`s that show their hypotheses are met by non-trivial cases.

`Base.v` holds the result type standing for Python exceptions and generic lemmas;
`Smt.v` the formula syntax of pysmt (`FNode`), the pysmt constructors the code calls and the
*semantics* of formulas (`eval`), which is the specification most theorems refer to.

## 2. General modelling decisions

* **Numbers.** Python floats, `fractions.Fraction` and numpy `float64` are modelled by exact
  rationals (`Qc`, canonical rationals of the standard library).  Integrals are either an
  abstract functional with explicit properties or, for C48–C51, an inductive relation for
  piecewise polynomials with rational bounds (`Integral_Spec.v`).  Rounding is *not* modelled except where a property is about it (saving constants to text, C01).
* **Exceptions** are values: `Res A = Ok a | Err e`, `e` naming the Python exception class.
* **Dictionaries** are association lists in insertion order or std++ `gmap`s when order is
  never observed; sets whose iteration order is observable are lists with the order given by an
  explicit argument.
* **numpy arrays** that are updated in place live in an explicit heap when aliasing is the
  subject (C04), and are plain lists elsewhere.
* **External components** (SMT solver, pysdd, symbolic integrator, random source, repr/float of
  CPython) are `Section` variables; whatever is assumed of them appears as an explicit
  hypothesis of the theorems after the section is closed.  No `Axiom`s.
* **Loops** that may not terminate are given fuel, with an explicit `OutOfFuel` result that the
  theorems exclude.

## 3. Plan per property

| id | model | proof idea |
|----|-------|-----------|
| C01 | `parse.py` printer and parser over strings; `float()`/`repr` as oracle, rounding to binary64 concrete | structural induction on formulas through token lists; FALSE constant and non-binary64 constants refuted |
| C02 | tokenizer on characters, stack machine on tokens | invariant of the stack machine on printed trees; error lemmas by cases |
| C03 | `smt_check.py` walkers over lists of rows | induction on formulas, cache invariant |
| C04 | `SmtBatchChecker` over a heap of arrays | frame invariant: cached cells are never written |
| C05 | `smt_walk.py` dispatcher and identity walker | induction on formulas |
| C06, C07, C08 | `smt_math.Polynomial`, `MathDictConverter` over sorted monomials | induction; polynomial identity theorem over the rationals for C07; `x^0` refuted |
| C09, C10, C11 | `LinearInequality`, `BoundsWalker` | linear arithmetic over ordered field; refutations on boundaries/`Not(And)` |
| C12, C13, C15 | `Domain` | induction over variable lists; bool-only domain refuted for C13 |
| C14 | `get_state`/`from_state` | composition with C01 |
| C16 | directory as finite map, `to_file`/`from_file` | induction over query list; stale files refuted |
| C17, C18 | `engine.py` with the engine's volume an abstract positive linear functional | algebra |
| C19 | file system as a set of names, `with` protocol as result monad | case analysis on exceptions |
| C20–C22 | `sample.py` with the random source an explicit stream | induction over loops; termination measure |
| C23, C24 | `rejection.py` | algebra over finite sums |
| C25–C27 | `adaptive_rejection.py` tree, builder, solver stack | induction over trees; stack leak and ignored query refuted |
| C28, C29 | `literals.py` | induction; history invariant; delete/clear refuted |
| C30, C31 | SDD nodes as an inductive type with the pysdd contract, semirings | induction over diagrams |
| C32, C33 | WMI semirings | model counting over diagrams; equal-size miscount refuted |
| C34 | `piecewise.py` with expression dictionary | induction; collision with `2e` refuted |
| C35 | `extract_labels_and_weight` | induction over product arguments; duplicates refuted |
| C36 | engine composition with abstract integrator | corollary of C28, C30, C32, C34 |
| C37 | `engine_factorized.py` | union-find style invariant; overlapping pieces refuted |
| C38 | `collect_conflicts` | validity of added implications |
| C39, C40, C41 | `vtrees/*` | induction; permutation; stale fill refuted |
| C42–C47 | `pyxadd` pool, apply, reduce, walkers as state machines | history invariants; fuel-free recursion on node ids |
| C48, C49, C51 | `resolve.py` | integrals of piecewise polynomials as a relation on the rationals |
| C50 | `ToXaddWalker` | induction over formulas using C44 |
| C52, C53, C57, C58, C59 | small pure functions | case analysis, refutations |
| C54 | SMT-LIB visitor on an abstract parse tree | induction on terms with symbol table invariant |
| C55, C56 | LattE encoding, normalisation | linear arithmetic |
| C60 | `sample.positive` with two generators | determinism given the seeds; refuted for later batches |
| C61 | rejection and adaptive engines over the same domain | algebra; missing factor refuted |
| C62 | statistics printed from a literal table | case analysis; refuted |
| C63 | `parse.py` reader | induction over operator trees |
| C64 | RejectionIntegrator and EngineConvexIntegrationBackend over the models of LinearInequality, Domain and RejectionEngine; linprog and the standard deviation as oracles with a soundness contract | the formulas built mean the region; the box bounds from optimality of unit objectives; refutations by computation |
| C65 | the MiniZinc visitor item by item: typed values, coercions, conditionals, tables of names, includes as a function from file names to items; simplifier as oracle | simulation between the visitor's state and a relational meaning of items, induction on items and nesting of includes; typing rules imply acceptance; refutations by computation |
| C66 | PA, MPWMI, PRAiSE and XADD engines with the solver as an argument; the regular expression over XADD's output as a function on texts | the bounds theorem of C12 for the problem handed over; soundness and completeness of the number matcher, induction on the lines of the output; refutations |
| C67 | the importers of convert.py with the readers of files as arguments | the SMT-LIB and MiniZinc meaning theorems (C54, C65) plus agreement of meanings on the declared variables; a formula depends on its free variables (induction); refutations |
| C68 | get_volume, compare and the three tasks of __main__.py with engines as records of replies and the clock as a function | induction over the list of engines; exact answers as positions; refutations by concrete engines |
| C69 | PyXaddAlgebra over the pool model; expressions of algebra calls as an inductive type with an independent value function | induction over expressions with a Hoare-style rule per call (pool invariant, later pool, value); integration by the iterated integrals of C51; refutations by concrete pools |
| C70 | DownUpWalker, TopDownWalker (set pops as a schedule argument), map_leaves, to_dot over the pool model | cache invariant against the plain recursion; loop invariant on visited and enabled nodes, then refinement of the loop with messages; positions of the layers (C47); refutations by concrete pools |
| C71 | tasks convert, normalize, plot and print, to_file/from_file, TemporaryFile and XaddEngine.normalize over a disk (path to content); temporary names and the external process are arguments | symbolic execution of the nested with statements with a frame condition per step, reading back by C14; truth table for the difference; print by C59; refutations by concrete disks |

## 4. Trusted base

* The Coq 8.16.1 kernel, including `vm_compute` where it is used for closed computations.
* No axioms: `Print Assumptions` reports every theorem of `MANIFEST.json` as closed (section
  6.3).  There is no `Admitted`, `Axiom`, `Parameter`, functor or module type, and no kernel
  check is switched off.
* The hypotheses written in the theorems.  Everything external appears there as a function
  argument or record with an explicit contract: SMT solver (`sound_solver`), SDD library
  (`sound_manager(s)`, `trimmed`), simplifier (`sound_simplifier`, `keeps_tests`, ...), symbolic
  algebra (`sound_arith`, `sound_indicator`, `parses`, `integrates`, `reads`), integration
  (`integral_on`, `integration`; for C48–C51 the integral is a concrete inductive relation on
  piecewise polynomials), random source, `float()`/`repr`, iteration order of sets.  For each
  contract an `Example` gives a non-trivial instance.
* The faithfulness of the model to the code as cited, and of the modelled fragments of pysmt,
  numpy, pysdd and CPython to the real libraries.  These fragments are the constructors and
  the type checker of pysmt (`Smt.v`), dictionaries and `sorted` (`Dict.v`, `Math_Model.v`),
  indexing and masking of numpy arrays (`Check_Model.v`, `Sample_Model.v`).

## 5. What is modelled and what is not

Modelled, by file of `/repo/pywmi` (every definition cites its lines):

| code | model |
|---|---|
| `parse.py` | `Parse_Model.v`: tokenizer, stack parser, reader, printer |
| `smt_check.py`, `smt_walk.py` | `Check_Model.v`, `Walk_Model.v` |
| `smt_math.py` | `Math_Model.v` (polynomials, inequalities, bounds walker) |
| `smt_print.py` | `Print_Model.v`; not `pretty_print_instance` |
| `domain.py`, `export.py` | `Domain_Model.v`, `Task_Model.v` (files; JSON itself is not modelled) |
| `engine.py`, `temp.py` | `Engine_Model.v` |
| `sample.py`, `engines/rejection.py` | `Sample_Model.v`, `Reject_Model.v` |
| `engines/adaptive_rejection.py` | `Adaptive_Model.v`; the scores of a split are an oracle |
| `engines/algebraic_backend.py` | `Math_Model.v` (base class, polynomial and pysmt algebras); Sympy and PSI are oracles |
| `engines/latte_backend.py` | `Latte_Model.v`; not the file layout nor the program |
| `engines/xsdd/literals.py`, `smt_to_sdd.py`, `semiring.py`, `sdd_iterator.py`, `piecewise.py`, `engine.py`, `engine_factorized.py` | `Lit_Model.v`, `Sdd_Model.v`, `Piecewise_Model.v`, `Xsdd_Model.v`, `Factor_Model.v`; PySDD is an oracle |
| `engines/xsdd/vtrees/*` | `Vtree_Model.v` |
| `engines/pyxadd/*` | `Xadd_Model.v`, `Resolve_Model.v`, `Toxadd_Model.v`, `Volume_Model.v`, `Xalg_Model.v` (the algebra adapter, without its comparison methods, which only raise); `Xview_Model.v` (walk.py, view.py); not the text format of dot files nor the operators and evaluate of `Diagram` |
| `multimap.py`, `transform/*` | `Multimap_Model.v`, `Transform_Model.v` |
| `parser/smtlib/*` | `Smtlib_Model.v`, from the parse tree on |
| `engines/pa.py`, `mpwmi.py`, `praise.py`, `xadd.py` | `External_Model.v`, `Task_Model.v` (`XaddEngine.normalize`); the solvers are arguments |
| `parser/minizinc/*` | `Minizinc_Model.v`, from the parse tree on |
| `convert.py` | `Convert_Model.v`; the readers of files are arguments |
| `__main__.py` | `Cli_Model.v` (option parsing and engine construction), `Compare_Model.v` (the tasks volume, prob and compare), `Task_Model.v` (the tasks convert, normalize, plot and print) |

Not modelled: plotting and drawing, installation, ANTLR grammars and generated parsers,
the external solvers themselves (PA, Praise, MPWMI, LattE, the XADD jar, PSI) and the
files written for them, floating point rounding (except where a property is about it: C01,
C10, C54, C55, C59), logging, timing, threads.

## 6. Status

`properties.jsonl` lists the properties, `MANIFEST.json` the theorems, `seeded/LOG.jsonl` the
wrong programs on which the theorems were tried.

### 6.1 Conventions

A theorem named `…_partial` proves the property under restrictions that the English statement
does not have; `…_refuted` exhibits inputs (meeting every other hypothesis) for which the
statement is false of the model, hence, if the model is faithful, of the code.  `Example`s
beside the theorems show that the hypotheses are met.

### 6.2 Defects of the code found on the way

The refutations amount to the following list (see 6.4 for details): FALSE is read back as TRUE
and constants are rounded when saved (C01, C14); unbalanced texts are accepted (C02); single
samples of one-variable domains raise (C03); `x^0` becomes `x` (C06, C50); `Polynomial.__add__`
keeps zeros, which breaks equality (C07); the zero polynomial cannot be written (C08); negated
conjunctions are misread as bounds (C11); boolean-only domains have volume 0 (C13); stale query
files are read back (C16); temporary files survive a failing callback and descriptors leak (C19);
queries are answered wrongly or ignored by the sampling engines in corner cases (C22, C23, C27,
C60, C61); the adaptive tree discards regions because a solver assertion is not popped (C26);
the literal table cannot delete or clear (C29); the XSDD engines halve volumes when two elements
of a diagram node mention equally many but different booleans (C32, C36, C37); weights such as
x+x+x+x or 1+1 cannot be split (C34, C36); labels are lost or raise KeyError (C35, C37);
conflict search raises for piecewise weights (C38); vtrees may get empty parts and stale
fill-in counts (C40, C41); pools with an ordering raise AttributeError (C44); walks after an
exception miss nodes (C47); booleans tested twice are summed wrongly (C49); `min` is shadowed
by `m` on the command line (C53); ill-typed SMT-LIB terms such as (and 1) are accepted (C54);
LattE input rounds coefficients (C55); printed formulas lose parentheses (C59); numbers are
reported as booleans (C62); `->` cannot be read (C63); rejection with bounding boxes never samples
negative coordinates and raises when no sample falls in the region (C64); MiniZinc equations
between numbers are refused and files including themselves are read without end (C65); MPWMI
divides by a zero volume, PRAiSE ignores the bounds and XADD results on consecutive lines are
lost (C66); integers become reals or leave the domain on import, and wmi_generate_100 always
raises (C67); the prob task raises TypeError instead of asking the next engine, and warnings of
compare may name the wrong engine (C68); integrating over no variables integrates over all
(C69); map_leaves after an exception misses leaves, and a leaf called inf cannot be drawn (C70);
a failing export has already emptied its target, and the normalize task ignores its output path
and misuses -t (C71).

### 6.3 Theorems, the file they are in, and what `Print Assumptions` prints

`Print Assumptions` is run beneath every theorem in the sources.  For every theorem in this table it prints
"Closed under the global context", i.e. **no axioms at all**, neither of this project nor of a library.

| property | status | theorems (file) |
|---|---|---|
| C01 | partial | `Parse_Props.v`: C01_roundtrip_partial, C01_roundtrip_characterised, C01_false_constant_refuted, C01_rounding_refuted, C01_integer_refuted |
| C02 | partial | `Parse_Props.v`: C02_parse_recovers_tree, C02_surplus_close_rejected, C02_bare_token_rejected, C02_unknown_operator_rejected, C02_wrong_arity_rejected, C02_malformed_accepted_refuted |
| C03 | partial | `Check_Props.v`: C03_table_rows, C03_single_sample, C03_assignment, C03_one_variable_sample_refuted |
| C04 | proved | `Check_Props.v`: C04_table_and_results_intact, C04_result_kept |
| C05 | partial | `Check_Props.v`: C05_identity_preserves, C05_integer_constant_refuted |
| C06 | partial | `Math_Props.v`: C06_from_smt_value_partial, C06_zeroth_power_refuted |
| C07 | partial | `Math_Props.v`: C07_equality_decides, C07_sum_refuted |
| C08 | partial | `Math_Props.v`: C08_sum, C08_product, C08_negation, C08_power, C08_to_smt_partial, C08_zero_refuted, C08_to_expression |
| C09 | proved | `Math_Props.v`: C09_half_space, C09_accepted, C09_linear, C09_boundary_refuted |
| C10 | partial | `Math_Props.v`: C10_normalize, C10_scale_to_integer_partial, C10_large_denominators_refuted, C10_trivial_refuted |
| C11 | partial | `Math_Props.v`: C11_bounds_equivalent_partial, C11_accepted, C11_negated_conjunction_refuted, C11_boolean_literal_refuted |
| C12 | proved | `Domain_Props.v`: C12_make_dict, C12_make_lists, C12_bounds_are_box, C12_box_volume, C12_make_short_refuted |
| C13 | partial | `Domain_Props.v`: C13_volume_partial, C13_unbounded, C13_boolean_domain_refuted |
| C14 | partial | `Domain_Props.v`: C14_domain_roundtrip, C14_density_roundtrip_partial, C14_false_support_refuted |
| C15 | proved | `Domain_Props.v`: C15_project |
| C16 | partial | `Domain_Props.v`: C16_save_load_partial, C16_stale_queries_refuted, C16_stale_weight_refuted |
| C17 | proved | `Engine_Props.v`: C17_ratio, C17_range, C17_complement, C17_monotone, C17_none |
| C18 | proved | `Engine_Props.v`: C18_evidence, C18_rejects |
| C19 | partial | `Engine_Props.v`: C19_removed, C19_no_trace, C19_callback_raises_refuted, C19_reentry_refuted, C19_descriptor_refuted |
| C20 | proved | `Sample_Props.v`: C20_in_domain, C20_one_hot, C20_every_row, C20_every_choice, C20_overlapping_groups_refuted |
| C21 | proved | `Sample_Props.v`: C21_resample |
| C22 | partial | `Sample_Props.v`: C22_met_or_refused, C22_weighted, C22_pool_size_refuted, C22_zero_refuted |
| C23 | partial | `Sample_Props.v`: C23_volume, C23_volume_one_hot_partial, C23_zero, C23_bound, C23_no_samples_refuted, C23_one_hot_degenerate_refuted |
| C24 | proved | `Sample_Props.v`: C24_fraction, C24_probability |
| C25 | proved | `Adaptive_Props.v`: C25_partition, C25_samples, C25_total, C25_fails |
| C26 | partial | `Adaptive_Props.v`: C26_constraints_partial, C26_exact_partial, C26_refuted |
| C27 | partial | `Adaptive_Props.v`: C27_ratio_partial, C27_refuted |
| C28 | proved | `Lit_Props.v`: C28_equivalent, C28_numbers, C28_number_to_val, C28_boundary_refuted, C28_equality_refuted |
| C29 | partial | `Lit_Props.v`: C29_insertions_partial, C29_insertions_after_extract_partial, C29_constructor, C29_refused, C29_overwrite_refuted, C29_steal_refuted, C29_delete_refuted, C29_clear_refuted |
| C30 | proved | `Sdd_Props.v`: C30_compile_recover, C30_recover |
| C31 | proved | `Sdd_Props.v`: C31_model_count, C31_compiled, C31_cache, C31_missing_weight |
| C32 | partial | `Sdd_Props.v`: C32_worlds_partial, C32_uniform_partial, C32_refuted |
| C33 | proved | `Sdd_Props.v`: C33_regions, C33_formula |
| C34 | partial | `Piecewise_Props.v`: C34_value_partial, C34_distinct_partial, C34_fails_refuted, C34_lost_refuted, C34_number_refuted |
| C35 | partial | `Piecewise_Props.v`: C35_labels_partial, C35_duplicate_refuted, C35_only_labels_refuted |
| C36 | partial | `Xsdd_Props.v`: C36_volume_partial, C36_single_partial, C36_convex_partial, C36_bounds_partial, C36_refuted, C36_number_refuted |
| C37 | partial | `Factor_Props.v`: C37_groups, C37_term_partial, C37_volume_partial, C37_single_partial, C37_refuted, C37_label_refuted |
| C38 | proved | `Xsdd_Props.v`: C38_valid, C38_support, C38_accepted, C38_piecewise_refuted |
| C39 | proved | `Vtree_Props.v`: C39_balanced, C39_balanced_add, C39_linear, C39_linear_shape, C39_file, C39_file_leaves, C39_empty_refuted |
| C40 | partial | `Vtree_Props.v`: C40_create, C40_create_fuel, C40_bami, C40_formula, C40_uncovered_refuted, C40_two_branches_refuted, C40_no_variables_refuted |
| C41 | partial | `Vtree_Props.v`: C41_interaction_graph, C41_history_partial, C41_step, C41_look_ahead, C41_minfills, C41_stale_fill_refuted, C41_degree_mode_refuted, C41_degree_kept_refuted |
| C42 | proved | `Xadd_Props.v`: pool_stores_each_node_once |
| C43 | proved | `Xadd_Props.v`: diagrams_finite_acyclic, acyclic_unchecked_ids_refuted |
| C44 | partial | `Xadd_Props.v`: apply_pointwise_partial, apply_never_wrong, apply_with_ordering_refuted |
| C45 | partial | `Xadd_Props.v`: linear_test_off_hyperplane_partial, boolean_test_everywhere, invert_negates_partial, linear_test_on_hyperplane_refuted, invert_without_is_one_refuted |
| C46 | proved | `Xadd_Props.v`: reduce_keeps_value |
| C47 | partial | `Xadd_Props.v`: walk_is_fold_partial, walk_visits_each_node_once, walk_after_raise_refuted |
| C48 | partial | `Resolve_Props.v`: resolve_integrates_partial, integrate_integrates_partial, resolve_never_wrong, diagram_integral_unique, integrate_quoted_name_refuted, integrate_unbounded_refuted |
| C49 | partial | `Resolve_Props.v`: resolve_boolean_sums_partial, integrate_boolean_sums_partial, boolean_tested_twice_refuted, integrate_boolean_in_order_partial |
| C50 | partial | `Toxadd_Props.v`: formula_to_diagram_partial, weight_to_diagram_partial, formula_to_diagram_refuted |
| C51 | partial | `Volume_Props.v`: compute_volume_total, compute_volume_leaf, compute_volume_partial, wmi_deterministic, compute_volume_refuted; `Volume_Order.v`: compute_volume_order_refuted |
| C52 | proved | `Multimap_Props.v`: flatten_singletons, flatten_not_singletons, flat_items_each_once, add_holds, flatten_consumes_refuted, failed_flatten_loses_members_refuted, lookup_breaks_flatten_refuted |
| C53 | partial | `Cli_Props.v`: options_honoured_partial, unknown_options_rejected_partial, engine_options_honoured_partial, backend_honoured_partial, minimize_never_set, minimize_ignored_refuted, reduce_strategy_ignored_refuted, xsdd_options_raise_refuted, unknown_engine_is_none |
| C54 | partial | `Smtlib_Props.v`: smtlib_import_meaning, smtlib_meaning_unique, smtlib_ill_typed_rejected_partial, smtlib_accepts_well_typed_partial, smtlib_ill_typed_accepted_refuted, smtlib_acceptance_history_refuted, smtlib_weight_first_refuted, smtlib_decimal_rounded_refuted, smtlib_error_kind_refuted, smtlib_binary_refuted |
| C55 | partial | `Latte_Props.v`: latte_rows_polytope_partial, latte_monomials_polynomial_partial, latte_integral_partial, latte_failure_partial, latte_small_coefficient_refuted, latte_small_weight_refuted, latte_raises_refuted, latte_foreign_variable_refuted |
| C56 | proved | `Transform_Props.v`: normalize_equivalent, normalize_succeeds, normalize_on_hyperplane_refuted |
| C57 | proved | `Transform_Props.v`: positive_coefficients_projection, positive_coefficients_exact |
| C58 | partial | `Math_Props.v`: C58_arithmetic, C58_comparisons, C58_inequality, C58_polynomials, C58_pysmt, C58_pysmt_comparison_refuted |
| C59 | partial | `Print_Props.v`: print_determines_partial, print_succeeds, print_product_refuted, print_difference_refuted, print_sign_refuted, print_name_refuted, print_rounding_refuted |
| C60 | partial | `Sample_Props.v`: C60_uniform, C60_positive_refuted |
| C61 | partial | `Adaptive_Props.v`: C61_box_partial, C61_refuted |
| C62 | partial | `Lit_Props.v`: C62_boolean_partial, C62_refuted |
| C63 | partial | `Parse_Props.v`: C63_operators_mean, C63_combined_means, C63_implication_refuted |
| C64 | partial | `Reject_Props.v`: C64_estimate, C64_engine_backend, C64_linprog_partial, C64_sampled_partial, C64_other_values, C64_negative_refuted, C64_half_refuted, C64_domain_refuted, C64_empty_refuted, C64_boolean_refuted |
| C65 | partial | `Minizinc_Props.v`: C65_meaning, C65_unique, C65_distinct, C65_accepts_partial, C65_one_weight, C65_no_equations, C65_equation_refuted, C65_unequal_refuted, C65_assign_refuted, C65_parameter_refuted, C65_int_refuted, C65_two_weights_refuted, C65_plus_refuted, C65_self_include_refuted |
| C66 | partial | `External_Props.v`: C66_pa, C66_mpwmi, C66_restricted_volume, C66_mpwmi_zero_refuted, C66_praise_refuted, C66_xadd_found, C66_xadd_found_unique, C66_xadd_partial, C66_xadd_volume, C66_xadd_none, C66_xadd_refuted, C66_xadd_timeout_refuted |
| C67 | partial | `Convert_Props.v`: C67_smt_partial, C67_mzn, C67_tree_partial, C67_xadd_mspn, C67_wmi_mspn, C67_synthetic, C67_dialects, C67_int_refuted, C67_tree_int_refuted, C67_100_refuted |
| C68 | partial | `Compare_Props.v`: C68_first_answer, C68_no_answer, C68_exception, C68_prob_refuted, C68_compare_partial, C68_zero_refuted, C68_warning_partial, C68_warning_refuted, C68_query_index, C68_relative_time, C68_base_probabilities |
| C69 | partial | `Xalg_Props.v`: C69_expressions_partial, C69_negative_power, C69_integrate_partial, C69_unknown_variable, C69_to_float, C69_empty_means_all_refuted, C69_with_ordering_refuted, C69_on_hyperplane_refuted |
| C70 | partial | `Xview_Props.v`: C70_down_up, C70_top_down, C70_leaves_partial, C70_leaves_after_error_refuted, C70_dot_partial, C70_dot_infinite_refuted |
| C71 | partial | `Task_Props.v`: C71_convert_partial, C71_convert_effects, C71_convert_failure_refuted, C71_normalize_partial, C71_cleanup_partial, C71_temporary_file_refuted, C71_normalize_task, C71_output_path_refuted, C71_total_flag_refuted, C71_plot, C71_print_partial, C71_print_weight_refuted, C71_print_sections, C71_print_succeeds |

### 6.4 What is missing or false, per property

* **C01** (partial). Holds for every formula without FALSE whose real constants are floats; the full claim is false of the code: FALSE reads back as TRUE (parse.py:117), constants such as 1/3 are rounded, integer variables cannot be read back. C01_roundtrip_characterised gives the exact meaning of the formula that is read, for every storable formula.
* **C02** (partial). Every clause of the claim that is true is proved for all texts. Malformed texts of other kinds (missing closing parenthesis, several trees, postfix operator) are accepted by the code: refuted.
* **C03** (partial). Proved for tables with any number of rows, single samples and assignment dictionaries; formulas without integer parts. Refuted for a one-dimensional sample of a one-variable domain, which raises IndexError.
* **C04** (proved). For any sequence of formulas given to one checker, including runs that raise.
* **C05** (partial). Identity walker, for formulas without integer parts; integer constants make it return an exception object.
* **C06** (partial). Proved for all real expressions whose exponents are at least one; x^0 is converted to x, shown by the refutation.
* **C07** (partial). Equality of converted polynomials decides equality of functions (both directions). Refuted for results of Polynomial.__add__, which keeps zero coefficients.
* **C08** (partial). Pointwise meaning of sum, product, negation, power and both ways of writing a polynomial; the zero polynomial cannot be written back (refutation).
* **C09** (proved). Half-space preserved off the hyperplane; on the hyperplane the meaning changes (refutation shows the boundary is needed).
* **C10** (partial). normalize proved for all inequalities; scale_to_integer when the common denominator is below 2^53; false beyond.
* **C11** (partial). Equivalence for conjunctions of possibly negated comparisons; refuted for negated conjunctions and boolean literals.
* **C12** (proved). Bounds hold exactly in the box and the box volume is the product, for every well formed domain; domains built by make are well formed (unless names and bounds differ in number).
* **C13** (partial). Proved for domains with at least one real variable; domains without one have volume 0 instead of 2^n.
* **C14** (partial). Domains exactly; densities up to the restrictions of C01.
* **C16** (partial). Proved for every listing order and every previous content without stale query/weight files; stale files are read back.
* **C17** (proved). Engine.compute_probabilities over any engine whose compute_volume is exact (hypothesis exact_engine; satisfied e.g. by weighted counting).
* **C18** (proved). with_evidence for every boolean evidence dictionary; simplify assumed meaning-preserving; the integral over the reals is abstract.
* **C19** (partial). The file is removed however the body ends. False when the callback raises, when the object is re-entered, and the descriptor is never closed.
* **C20** (proved). Exact rationals instead of floats; random source arbitrary in [0,1). Groups must be disjoint (refutation otherwise).
* **C21** (proved). Exact rationals; the n-th root is an oracle with values in [0,1).
* **C22** (partial). Holds with 'pool size' for 'n' when no weight is given; false when sample_pool_size differs from n without weight, and n = 0 raises ZeroDivisionError.
* **C23** (partial). Full formula without one-hot groups; with groups false for boxes of volume zero; no samples raises.
* **C25** (proved). For every tree the builder returns (any stopping rule, scores, solver answers, random numbers). C25_fails delimits: no real variable, zero-volume box or zero building samples raise.
* **C26** (partial). False of the code: the split asserted for a right child is never retracted. Proved that constraints are never too weak and that they are exact when no left child is split again; C26_refuted shows a non-empty region being discarded with every correct solver.
* **C27** (partial). Holds for weights other than the constant 1; without weight the query is ignored and the answer is 1 (C27_refuted).
* **C28** (proved). For all formulas over boolean variables and linear inequalities. C28_boundary_refuted shows that the exclusion of hyperplanes is needed; C28_equality_refuted that equalities are never accepted.
* **C29** (partial). True for every history of insertions under new keys (the only use inside the repository). False for overwriting (stale or stolen literal), deletion (always KeyError, stale inverse) and clear (always RuntimeError unless empty). The two-table constructor accepts exactly disjoint tables (C29_constructor).
* **C30** (proved). The SDD library is an oracle whose operations have the meaning of their names and return well-formed diagrams; a concrete such manager is built in Sdd_Example.v.
* **C31** (proved). For complementary weights (w(x)+w(not x)=1), which is the case without smoothing used in the repository.
* **C32** (partial). True when, at each decision node, elements with equally many booleans mention the same ones; C32_refuted: ite(x<1,A,B) is counted at half its worlds (engine.py:94-96).
* **C33** (proved). Off the hyperplanes of the inequalities, because negated inequalities are stored with the opposite strictness.
* **C34** (partial). True unless an expression meets its own double (or two negated pieces collide); in particular for sums and conditionals of pairwise different monomials. False otherwise: x+x+x+x raises, ite(A,x,0)+2x+ite(A,0,x) loses 2x, 1+1 yields a plain number without to_expression.
* **C35** (partial). True when no boolean labels two factors and some factor is not a label; duplicates overwrite each other and a product of labels only is refused.
* **C36** (partial). The volume is the sum over worlds of integrals whenever the weight splits into polynomial pieces (C34) and compiled diagrams have no node adding parts with equally many but different booleans (C32); no such restriction with at most one boolean or with a convex integrator. C36_refuted: otherwise the volume can be halved. C36_number_refuted: weight 1+1 raises.
* **C37** (partial). C37_groups proves the first sentence in full: for every polynomial the groups are disjoint, cover the real variables, each factor mentions only its group, and the product of the factors is the polynomial. C37_term_partial and C37_volume_partial prove that integrating group by group over the decision diagram gives the joint integral (ordered and unordered mode, any set iteration order), for supports that bound every real variable, weights that are not products, and diagrams without nodes that add two parts with equally many but different booleans; C37_single_partial drops the last restriction for at most one boolean. Missing: labels (weights that are products). C37_refuted shows that without the restriction on diagrams the engine returns half of the volume of a concrete problem; C37_label_refuted shows that a label for a boolean that the support does not mention makes the engine fail with KeyError.
* **C38** (proved). Every added implication is valid and the support unchanged at every point, for every sound solver. C38_accepted characterises when conflict search succeeds; C38_piecewise_refuted: it raises for every piecewise weight.
* **C39** (proved). C39_empty_refuted: a vtree with an empty part (possible when C40's coverage hypothesis fails) makes to_pysdd raise AttributeError.
* **C40** (partial). Proved for covered integration trees and for every table that mentions a variable. Refuted outside: an uncovered leaf variable gives an empty part; bami raises AttributeError when the only tests have no variables.
* **C41** (partial). Graph contents, symmetry, loop-freeness, cliques and looking ahead proved for all reached states. Stored fills are upper bounds, exact only for neighbours of the last eliminated vertex (stale fill refutation). Degree-only mode breaks loop-freeness and raises KeyError; eliminated vertices stay in the degree table.
* **C42** (proved). For every pool reached by any history of terminal, internal, bool_test, apply, invert, reduce and walk requests (returning or raising): equal content means equal node, nodes never change, and repeated requests give the first answer. resolve is not among the requests.
* **C43** (proved). Children are older and exist, and the child relation is well founded, for every history whose requests mention existing nodes. The refutation shows why: internal() does not check ids, so an id that does not exist yet makes a node its own child.
* **C44** (partial). Pointwise for every history, every pair of nodes and every operation (logical operations on 0/1 diagrams) in pools without a user ordering. With an ordering apply raises AttributeError (misspelt test_smaller_eg), which is the refuted part.
* **C45** (partial). Linear tests: answer always returned and right off the hyperplane, refuted on it. Boolean tests: everywhere. Inversion: negation at every assignment when the algebra recognises 0 and 1, no ordering was given and no earlier walk over the diagram raised; refuted for algebras whose is_one raises (SympyAlgebra, the base class).
* **C46** (proved). Both modes (smt, fast_smt), every history, every sound solver.
* **C47** (partial). For every history and every diagram on which no earlier walk raised: visits in bottom-up order, each node once, result is the fold (or the first exception). Refuted after a walk that raised: its profile is not reset.
* **C48** (partial). Proved for every pool reached by any history of requests, every strategy, bounds and assignment, given polynomial leaves and an algebra that integrates polynomials; the integral is the unique value of an independent specification (Integral_Spec). Missing: pools with a user-given ordering (an answer is never wrong, but there may be none) and names that pysmt quotes, for which the property is refuted; a diagram that is not zero beyond a missing bound gives 0 (refuted).
* **C49** (partial). Proved for diagrams in which no path tests the boolean twice (strategies without initial reduction), and for every strategy on diagrams whose tests come in registration order; the result is in order again, so booleans can be summed out one after the other. boolean_tested_twice_refuted: a diagram built through the API that tests the boolean twice is summed wrongly.
* **C50** (partial). Proved for every pool reached by requests on which no walk has raised and without a user-given ordering, every formula over boolean variables and linear comparisons (any nesting of and/or/not/implies/iff/ite) and every piecewise polynomial weight, at every assignment off the hyperplanes; with the walker's cache. Missing: comparisons with powers other than 1 are wrong (x^0 <= y is turned into 2 <= y, refuted), equalities raise NotImplementedError.
* **C51** (partial). For domains listing booleans before reals (as Domain.make does), finite bounds, a support over linear comparisons, a piecewise polynomial weight, both over the variables of the domain, and no comparison that is an equality everywhere: compute_volume returns a number, and it is the sum over the boolean worlds of the iterated integral over the reals of the weight restricted to the support and bounds; in particular the final assertion never fails (the variables of every test are followed through translation, apply, reduction and resolution). compute_volume_refuted: the condition on comparisons is needed, x < x is integrated as x <= x. compute_volume_order_refuted: the condition on the order of the variables is needed too; with the reals first (x, y, a) and a Fourier-Motzkin solver the computation ends in the AssertionError of engine.py:157 for every reduction strategy, because integrating x leaves a boolean tested twice on a path.
* **C52** (proved). Proved for every multimap a program can build. The _refuted theorems record the side effects: flatten empties the sets it reads, so it cannot be repeated, a failed call loses members, and a mere lookup makes it fail.
* **C53** (partial). Every accepted option is a whitelisted one with its value read literally and, of several settings of one name, the last one counts; anything else raises. Partial because the full statement is false of the code: 'min' is shadowed by 'm' so minimize can never be requested, the reduce strategy of pyxadd is silently dropped, xsdd options raise TypeError inside the constructor, and an unknown engine name yields None.
* **C54** (partial). smtlib_import_meaning: whatever the file and whatever was read before, an imported file's support, weight and queries have under every assignment the value of the SMT-LIB terms (decimals that are floating-point numbers), and the variables are those declared. Rejection of ill-typed terms is proved for terms in which +, *, and, or have two operands or more and no binary token occurs; (and 1) is accepted (refuted), and a binary token loses its first two digits (refuted). Acceptance of well-typed files without a weight is proved for binary arithmetic; in general it depends on operand order and on earlier terms (refuted). The ANTLR lexer/parser is not modelled; divisors that are not constants are reported as a failure by the model.
* **C55** (partial). Proved for inequalities and polynomials over the domain's variables with coefficients of denominators up to 10^6 (common multiple up to 2^53). Outside that the statement is false of the code: coefficients are rounded or lost, and variables outside the domain are dropped. The text layout of the files and the LattE program are not modelled.
* **C56** (proved). For every supported formula whenever a result is returned; a result is returned whenever the comparisons are linear. The restriction to points off the hyperplanes, part of the statement, is necessary.
* **C57** (proved). For every well typed formula without integers, Exp and ToReal (the language the walker accepts). Implications, equivalences and double negations are rewritten, so literal equality is stated for formulas without them and equivalence for all.
* **C58** (partial). For every sound backend; the comparisons of the pysmt algebra always raise.
* **C59** (partial). Proved for formulas over boolean variables and linear inequalities whose variables are identifiers and whose normalised coefficients the decimal format keeps apart. Refuted in general: sums inside products and differences inside differences lose their parentheses, the sign of a factor is misplaced, a variable may be called True, and rounding identifies coefficients. The decimal text of non-integral numbers is an assumption on the function fmt.
* **C60** (partial). positive() draws its later batches from the module's default generator.
* **C61** (partial). The adaptive engine omits the factor 2^#booleans: estimates are bounded by the bounding box, and disagree with the rejection engine and the domain volume on every domain with a boolean variable (C61_refuted).
* **C62** (partial). The code tests the type of the literal's name, which is always a string: every number is reported as boolean.
* **C63** (partial). Every operator that is read has its usual meaning, and the combined form splits into support and weight. '->' is accepted by the tokenizer but has no reader case, so every text using it is rejected. exp has no rational value and is given no meaning; pysmt's symbol table is not modelled.
* **C64** (partial). Proved without a bounding box, for every domain, region, polynomial and random source. With bounding_box=1 the box contains every point of the region without negative coordinates; with bounding_box=2 it contains every accepted sample. The rest is false of the code: linprog is called with its default bounds, so parts of the region with negative coordinates are never sampled; the box forgets the domain's own bounds; a region in which no sample falls raises IndexError instead of giving 0; intervals of boolean columns enter the volume. The case of one accepted sample (NaN bounds) is not modelled.
* **C65** (partial). The meaning half is proved for every accepted file, includes at any depth and every assignment. Acceptance is proved for well-typed files without includes; the typing rules leave out what the code refuses wrongly: equations between numbers (= is read as equivalence), != between booleans, assignments to decision variables. After an include parameters are unknown and integer variables count as real, two weights are accepted when the included one is 1, +true is accepted, and a file that includes itself is read without end (all refuted). The ANTLR lexer and parser are not modelled; a divisor that is not a constant is a failure in the model.
* **C66** (partial). The problem handed over and the value returned are proved for PA and MPWMI, and which results of an XADD output are read is characterised for every text. False of the code: MPWMI divides by a zero volume, PRAiSE ignores the bounds and returns a probability (1) as volume, of two XADD results on consecutive lines the second is lost (all are read when other lines come between, proved), and probabilities after a timeout are a TypeError. The solvers themselves are arguments; XaddEngine.normalize is in C71.
* **C67** (partial). Proved for MiniZinc files, the mspn dialects, synthetic problems and native files; for SMT-LIB files when +, *, and, or have two operands or more, no binary token occurs and decimals are floating-point numbers; for wmi_generate_tree when no variable is an integer. False of the code: integers become reals (SMT-LIB) or are left out of the domain (wmi_generate_tree, whose support then depends on a variable the domain lacks), and wmi_generate_100 always raises TypeError. pysmt's SMT-LIB reader, json and int() are arguments.
* **C68** (partial). The choice of the answer is proved for every list of engines, as equivalences. For prob the promise that later engines are used when earlier ones fail is false of the code: an engine using the base class's probabilities raises TypeError when its volume is None, and without queries its empty list counts as an answer (C68_prob_refuted). The comparison table is proved except that with an exact answer of zero every error is reported as zero (C68_zero_refuted) and that warnings name engines by their position among the exact answers, so they may blame an approximate engine (C68_warning_refuted; right when all engines are exact and answer, C68_warning_partial). A query index that is too large is ignored, a negative one counts from the end (C68_query_index). Relative times refer to the fastest exact engine that answered (C68_relative_time), and the base class's probabilities are quotients of volumes (C68_base_probabilities). Number formats and the standard deviation of the single run are not modelled.
* **C69** (partial). Proved for every expression, pool history, strategy and assignment, for pools without a user-given ordering and assignments on none of the hyperplanes; both restrictions are necessary (C69_with_ordering_refuted, C69_on_hyperplane_refuted). Integration is proved over non-empty lists of different real variables of a diagram that is zero outside a box (unbounded diagrams: integrate_unbounded_refuted of C48); an empty list integrates over the whole domain instead of nothing (C69_empty_means_all_refuted). The comparison methods less_than, less_than_equal, greater_than and greater_than_equal, which only raise NotImplementedError, are left out, and so is a pool given to the constructor together with another symbolic backend.
* **C70** (partial). The down-up and top-down walks are proved in full, for every visitor and every schedule. map_leaves is proved for diagrams on which no walk has raised before; after a call that raised, the next one starts where it stopped (C70_leaves_after_error_refuted). to_dot is proved for diagrams without a leaf whose text Python reads as an infinite number; such a leaf, for instance a variable called inf, makes it raise OverflowError (C70_dot_infinite_refuted). The dot file is modelled as a list of statements; its text, where labels are not escaped, is not.
* **C71** (partial). plot is proved in full and convert's effects on the disk are given for every density. Reading back is proved for densities the JSON format holds exactly (as in C14). A conversion that fails has already emptied its target (C71_convert_failure_refuted). normalize is proved for such densities with boolean supports; whenever the engine's density can be written, the disk is restored however normalize ends (C71_cleanup_partial); when it cannot be written its temporary file stays (C71_temporary_file_refuted). The task normalize never writes its output path (C71_output_path_refuted), and -t drops the old support instead of passing -t to the process (C71_total_flag_refuted). The task print succeeds exactly when every formula can be printed (C71_print_succeeds) and its output determines supports and queries in the readable fragment of C59; weights with the same text may differ (C71_print_weight_refuted). Files are modelled as empty, a JSON state or lines of text.
