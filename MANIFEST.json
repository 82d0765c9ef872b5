{
 "claims": [
  {
   "property": "C01",
   "status": "proved",
   "theorems": [
    "C01_add_sub",
    "C01_in_place",
    "C01_compare",
    "C01_C03_balanced"
   ],
   "note": "For every raw type and every raw operator table with the stated closure (std_storages_ok: met by f32, f64 and glam vectors under all feature sets); comparisons include core's rule for two references."
  },
  {
   "property": "C02",
   "status": "proved",
   "theorems": [
    "C02_exact",
    "C02_exists"
   ],
   "note": "C02_exact: whatever impl the operator search finds for *, / has the sum, difference or negation of the exponent vectors as output dimension (exact, in both exponent modes); C02_exists: the impl is found for all pairs of quantities and numbers the storage types allow, unless an exponent overflows."
  },
  {
   "property": "C03",
   "status": "proved",
   "theorems": [
    "C01_C03_balanced",
    "C03_number_right",
    "C03_number_left",
    "C03_C04_scale_in_place",
    "C03_into"
   ],
   "note": "Stated over all storage types, dimensions and the operators as generated (by value, by reference, assigning); 'compiles' is 'an impl applies' in the model of the generated impls."
  },
  {
   "property": "C04",
   "status": "proved",
   "theorems": [
    "C03_C04_scale_in_place",
    "C04_keeps_dimension"
   ],
   "note": "C04_keeps_dimension covers all four assigning operators; C03_C04_scale_in_place gives the exact condition for *= and /=."
  },
  {
   "property": "C05",
   "status": "proved",
   "theorems": [
    "C05_stored_values",
    "C05_neg"
   ],
   "note": "The raw operations are arbitrary functions; references are transparent for values."
  },
  {
   "property": "C06",
   "status": "proved",
   "theorems": [
    "C06_one_impl",
    "C06_no_duplicates",
    "C06_result_type"
   ],
   "note": "Raw types are numbers or vectors, not quantities themselves: for a quantity inside a quantity the generic impls `Quantity<S, none> + S` and `Quantity<L, D> + Quantity<R, D>` have unifiable headers, which is left to rustc."
  },
  {
   "property": "C07",
   "status": "proved",
   "theorems": [
    "C07_base_unit_independence",
    "C07_dimensionless_unchanged",
    "C07_result_dimension",
    "C07_escapes"
   ],
   "note": "Programs with variables, let, conditionals and loops over all generated operators, methods (vector methods included), units and constants, run over exact reals. The four operations that do depend on the base units (number / unit, unit / quantity, value_in with another dimension, value_unchecked; see C11, C14) are excluded; C07_escapes shows that each of them alone breaks the property."
  },
  {
   "property": "C08",
   "status": "proved",
   "theorems": [
    "C08_identity",
    "C08_pointwise",
    "C08_aborts_iff",
    "C08_rational_total",
    "C08_expressions",
    "C08_group_laws"
   ],
   "note": "Overflow checks on, the debug profile; see C67 for builds without them. C08_expressions covers arbitrary nested dimension expressions."
  },
  {
   "property": "C09",
   "status": "proved",
   "theorems": [
    "C09_roots_iff",
    "C09_roots_value",
    "C09_roots_undo_powers",
    "C09_roots_of_powers_exist",
    "C09_rational_roots_exist",
    "C09_sqrt_value",
    "C09_calls_iff",
    "C09_calls_dimension",
    "C09_calls_undo"
   ],
   "note": "C09_sqrt_value adds the value: sqrt is the correctly rounded root of the stored value. C09_calls_* state the property of the calls q.sqrt() and q.cbrt() themselves (dimension halved / divided by three, rejected otherwise)."
  },
  {
   "property": "C10",
   "status": "proved",
   "theorems": [
    "C10_products",
    "C10_C11_quantity_by_unit",
    "C10_three_ways",
    "C10_vectors",
    "C10_products_exist"
   ],
   "note": "Doubles and floats: x*u, u*x and u.new(x) are identical. Vectors: both products agree; u.new(vector) and Quantity<Vec> * unit do not exist (glam vectors have no Mul<Magnitude>)."
  },
  {
   "property": "C11",
   "status": "partial",
   "theorems": [
    "C10_C11_quantity_by_unit",
    "C11_number_by_unit_refuted",
    "C11_unit_by_quantity_refuted",
    "C11_actual",
    "C11_unit_by_number_partial"
   ],
   "note": "False for number / unit (result has the unit's dimension instead of its inverse) and for unit / quantity (the value is q/F instead of F/q), compile-time and run-time units alike. Proved: quantity / unit, unit / number, unit / unit."
  },
  {
   "property": "C12",
   "status": "proved",
   "theorems": [
    "C12_unit_products",
    "C12_chain",
    "C12_order",
    "C12_chain_order",
    "C12_composed",
    "C12_commutes"
   ],
   "note": "Composed units (Unit*Unit, Unit/Unit), multiplication by a composed unit against multiplication by its parts, and arbitrary chains of steps on a quantity in any order. RuntimeUnit*Unit has no impl, so only two units compose directly."
  },
  {
   "property": "C13",
   "status": "proved",
   "theorems": [
    "C13_roundtrip",
    "C13_exact",
    "C13_base_units"
   ],
   "note": "C13_roundtrip is the f64 error bound (Flocq binary64, no overflow or underflow), C13_exact the exact case (factor a power of two), C13_base_units the case of factor one, for all finite values."
  },
  {
   "property": "C14",
   "status": "partial",
   "theorems": [
    "C14_refuted",
    "C14_partial"
   ],
   "note": "False of the code: value_in accepts any unit. Proved what is checked: the argument is a unit, and the dimensions are never looked at."
  },
  {
   "property": "C15",
   "status": "proved",
   "theorems": [
    "C15_raw_access",
    "C15_functions"
   ],
   "note": "The transcendental functions are arbitrary functions of std/libm; proved that they are applied to the stored value and only on dimensionless floats."
  },
  {
   "property": "C16",
   "status": "proved",
   "theorems": [
    "C16_dimension",
    "C16_exists",
    "C16_accuracy64",
    "C16_accuracy32",
    "C16_zero_power"
   ],
   "note": "C16_accuracy64/32: against the exact power, for compiler-rt's powi (the one rustc links), whenever |x|^|i| is in the normal range; at most 2(|i|+1) half ulps. For i > 2^23 in single precision the bound would exceed 1 and is not stated."
  },
  {
   "property": "C17",
   "status": "proved",
   "theorems": [
    "C17_same_dimension",
    "C17_other_dimension_rejected",
    "C17_abs_and_tests",
    "C17_min_max",
    "C17_min_max_nan",
    "C17_clamp",
    "C17_abs",
    "C17_sign_tests",
    "C17_sign_tests_nan",
    "C17_rescaling"
   ],
   "note": "min/max are any functions meeting core's documented contract (either zero may be returned for -0.0 and 0.0); clamp panics if its bounds are out of order, as core's does (C17_clamp)."
  },
  {
   "property": "C18",
   "status": "proved",
   "theorems": [
    "C18_fold",
    "C18_accuracy",
    "C18_vectors",
    "C18_vectors_f32"
   ],
   "note": "C18_fold is the stated property; C18_accuracy adds an error bound against the exact sum."
  },
  {
   "property": "C19",
   "status": "proved",
   "theorems": [
    "C19_alias_same_as_unit"
   ],
   "note": "For every accepted system and every alias, plain or combined with a prefix."
  },
  {
   "property": "C20",
   "status": "proved",
   "theorems": [
    "C20_prefixed_unit",
    "C20_si_prefixes",
    "C20_prefixes_distinct"
   ],
   "note": "C20_prefixed_unit: dimension, factor (one rounding), name and symbol for every prefix of every unit; C20_si_prefixes: the 16 prefix factors are the doubles nearest to the powers of ten; C20_prefixes_distinct: no two prefixes share name, symbol or factor."
  },
  {
   "property": "C21",
   "status": "proved",
   "theorems": [
    "C21_expansion",
    "C21_variants_in_order",
    "C21_generated_names"
   ],
   "note": "C21_expansion counts, C21_variants_in_order gives the list, C21_generated_names that the names of the accepted system are exactly these."
  },
  {
   "property": "C22",
   "status": "proved",
   "theorems": [
    "C22_metric_prefixes"
   ],
   "note": "For every skip list and every list of explicit prefixes."
  },
  {
   "property": "C23",
   "status": "proved",
   "theorems": [
    "C23_base_unit"
   ],
   "note": "For every accepted system; both exponent modes."
  },
  {
   "property": "C24",
   "status": "proved",
   "theorems": [
    "C24_dimension_equations",
    "C24_factor_equations",
    "C24_equations_have_one_solution"
   ],
   "note": "Dimensions exactly, factors as the f64 evaluation of the definition; C24_equations_have_one_solution: the equations determine the dimensions."
  },
  {
   "property": "C25",
   "status": "proved",
   "theorems": [
    "C25_order_independent"
   ],
   "note": "Any permutation of the statements of a system without duplicate names."
  },
  {
   "property": "C26",
   "status": "proved",
   "theorems": [
    "C26_resolved_iff_grounded",
    "C26_rest_is_reported",
    "C26_terminates"
   ],
   "note": "C26_resolved_iff_grounded is an equivalence with an inductive 'unfolds in finitely many steps'; C26_terminates: the fuel of the loop is never exhausted."
  },
  {
   "property": "C27",
   "status": "proved",
   "theorems": [
    "C27_accepted_iff_well_formed"
   ],
   "note": "An equivalence between 'no diagnostics' and a well-formedness predicate stated over the statements of the file (SystemSpec.v) without reference to the resolver."
  },
  {
   "property": "C28",
   "status": "proved",
   "theorems": [
    "C28_undefined_reported"
   ],
   "note": "An equivalence: the error appears if and only if a used name is not defined."
  },
  {
   "property": "C29",
   "status": "proved",
   "theorems": [
    "C29_duplicates_reported"
   ],
   "note": "An equivalence, under the condition that all names used are defined (the code stops at undefined names before looking at duplicates)."
  },
  {
   "property": "C30",
   "status": "proved",
   "theorems": [
    "C30_kinds",
    "C30_accepted_kinds"
   ],
   "note": "C30_kinds gives the diagnostics exactly; C30_accepted_kinds the consequence for accepted systems."
  },
  {
   "property": "C31",
   "status": "partial",
   "theorems": [
    "C31_C32_exactly",
    "C31_built_partial",
    "C31_refuted",
    "C31_partial"
   ],
   "note": "The full statement is false of the code: `unit a: Dimensionless = meter` is accepted, because the comparison (dimension_math.rs:22-32) only looks at exponents recorded for the annotation. C31_C32_exactly gives the exact condition for acceptance in terms of the source (every base dimension met when the annotation is unfolded is met in the unit, with the same exponent); C31_partial: exponents that are non-zero in the annotation agree; C31_built_partial: the annotation is true if it is built from all base dimensions the unit is built from."
  },
  {
   "property": "C32",
   "status": "partial",
   "theorems": [
    "C31_C32_exactly",
    "C32_built_partial",
    "C32_refuted",
    "C32_partial"
   ],
   "note": "The full statement is false of the code: after `dimension Angle = Length / Length`, `unit radian: Angle = 1` is rejected, because cancelled exponents stay recorded as zero. C31_C32_exactly gives the exact condition; C32_partial when no exponent zero is recorded for the annotation; C32_built_partial when every base dimension the annotation is built from is one the unit is built from."
  },
  {
   "property": "C33",
   "status": "proved",
   "theorems": [
    "C33_base_units"
   ],
   "note": "Equivalences for both errors."
  },
  {
   "property": "C34",
   "status": "proved",
   "theorems": [
    "C34_symbols"
   ],
   "note": "The diagnostics are characterised exactly: symbol and list of units."
  },
  {
   "property": "C35",
   "status": "proved",
   "theorems": [
    "C35_base_units_without_symbol"
   ],
   "note": "An equivalence for each base unit."
  },
  {
   "property": "C36",
   "status": "proved",
   "theorems": [
    "C36_sorted",
    "C36_hash_order_irrelevant"
   ],
   "note": "C36_sorted: results sorted by name, no repetition. C36_hash_order_irrelevant: combining two exponent maps gives the same map for every iteration order of the hash map it goes through. Field order inside a generated struct literal follows the hash map but carries no meaning (C60). Declaration order is C25."
  },
  {
   "property": "C37",
   "status": "proved",
   "theorems": [
    "C37_roundtrip",
    "C37_unchanged"
   ],
   "note": "For all doubles of the stated range and any powi that is exact on the powers of two it returns (two concrete platforms are instances)."
  },
  {
   "property": "C38",
   "status": "partial",
   "theorems": [
    "C38_exactly",
    "C38_refuted_compiler_rt",
    "C38_refuted",
    "C38_partial"
   ],
   "note": "False of the code: subnormal factors (and, with compiler-rt's powi, all factors below 2^-971) are turned into zero. C37_roundtrip says exactly which doubles survive. C38_exactly: a finite factor survives exactly if it is zero or not below the platform limit."
  },
  {
   "property": "C39",
   "status": "proved",
   "theorems": [
    "C39_different_factors_different_types",
    "C39_equality_operator"
   ],
   "note": "C39_equality_operator: the derived equality on the triple decides it."
  },
  {
   "property": "C40",
   "status": "proved",
   "theorems": [
    "C40_factor_arithmetic",
    "C40_correctly_rounded"
   ],
   "note": "C40_correctly_rounded states it over the reals with Flocq's rounding."
  },
  {
   "property": "C41",
   "status": "proved",
   "theorems": [
    "C41_exact",
    "C41_type_equality",
    "C41_defined"
   ],
   "note": "Over all ratios reachable by the operations; C41_defined: no operation overflows on operands whose numerator and denominator are below 2^31."
  },
  {
   "property": "C42",
   "status": "partial",
   "theorems": [
    "C42_exactly",
    "C42_refuted",
    "C42_partial"
   ],
   "note": "False of the code: Ratio::new keeps a negative denominator, so 1/(-2) and (-1)/2 are different types. Proved for denominators of the same sign. C42_exactly: two fractions give the same ratio exactly if they are equal numbers and their denominators have the same sign."
  },
  {
   "property": "C43",
   "status": "partial",
   "theorems": [
    "C43_refuted",
    "C43_actual"
   ],
   "note": "False of the code: Ratio::powi multiplies numerator and denominator by the exponent and returns the ratio itself (C43_actual)."
  },
  {
   "property": "C44",
   "status": "proved",
   "theorems": [
    "C44_integer_exponents",
    "C44_ratio_exponents"
   ],
   "note": "C44_integer_exponents covers checked and wrapping builds; C44_ratio_exponents the rational ones with checks."
  },
  {
   "property": "C45",
   "status": "partial",
   "theorems": [
    "C45_actual",
    "C45_refuted",
    "C45_partial"
   ],
   "note": "False of the code: the factor is computed with the exponent truncated to 32 bits (dimension_exponent.rs:29), the dimension with all 64. Proved for exponents of 32 bits. C45_actual: for every exponent, the factor is computed with the exponent reduced to 32 bits and the dimension with the whole exponent."
  },
  {
   "property": "C46",
   "status": "proved",
   "theorems": [
    "C46_text",
    "C46_read_back",
    "C46_unique",
    "C46_same_text"
   ],
   "note": "Exact text, read back to the same dimension, texts unique; symbols assumed to be identifiers (what the parser produces)."
  },
  {
   "property": "C47",
   "status": "partial",
   "theorems": [
    "C47_exactly",
    "C47_base_units_partial",
    "C47_refuted"
   ],
   "note": "Refuted: a base dimension without base unit is accepted and formatting panics. Exact panic condition proved; panic-free when every base dimension has a base unit."
  },
  {
   "property": "C48",
   "status": "partial",
   "theorems": [
    "C48_partial",
    "C48_exactly",
    "C48_refuted"
   ],
   "note": "Proved for every dimension with a unit of factor one or 32-bit integer exponents, f32/f64/vector storage, without NaN (C48_partial), and exactly for those (C48_exactly); refuted for integer exponents outside 32 bits (C48_refuted: 'm^2147483648' is written but not accepted). Assumes float Display reads back (number_format) and that powers of one are one; exact_format shows the first is satisfiable."
  },
  {
   "property": "C49",
   "status": "partial",
   "theorems": [
    "C49_partial",
    "C49_refuted"
   ],
   "note": "Refuted: 'm^1/2' is written but not accepted on reading. C49_partial: with a fractional exponent the value is read back exactly if the dimension has a unit of factor one of its own."
  },
  {
   "property": "C50",
   "status": "partial",
   "theorems": [
    "C50_number_text",
    "C50_text",
    "C50_real_value",
    "C50_number",
    "C50_nothing_else",
    "C50_release_refuted",
    "C50_no_panic",
    "C50_few_units_no_panic"
   ],
   "note": "Exact acceptance condition and value (C50_text), numbers, nothing else; overflow panics characterised by C50_no_panic (any quantity type, any value handed over) and C50_few_units_no_panic (fewer than 2^32/M unit terms never panic if the units' exponents are integers up to M). Refuted for programs without overflow checks (release profile) with exponents of 2^62: C50_release_refuted. C50_number_text: however a number is written, it is read as the nearest f64 (f32)."
  },
  {
   "property": "C51",
   "status": "partial",
   "theorems": [
    "C51_accepted",
    "C51_real_value",
    "C51_same_acceptance",
    "C51_panic_refuted"
   ],
   "note": "Acceptance, dimension and real value are order independent unless reading panics; whether it panics on exponent overflow can depend on the order (C51_panic_refuted)."
  },
  {
   "property": "C52",
   "status": "partial",
   "theorems": [
    "C52_partial",
    "C52_refuted"
   ],
   "note": "Refuted: text before the opening bracket is ignored. Exact accepted form proved (C52_partial)."
  },
  {
   "property": "C53",
   "status": "proved",
   "theorems": [
    "C53_evaluation",
    "C53_eval_chain",
    "C53_left_associative",
    "C53_factors"
   ],
   "note": "C53_left_associative and C53_factors are about parsing; C53_evaluation: the value the resolver computes is the code's second pass (eval) of the expression in which the first pass put the looked up values; C53_eval_chain: eval goes through a chain of factors from the left, whatever the values."
  },
  {
   "property": "C54",
   "status": "proved",
   "theorems": [
    "C54_parser_is_the_grammar",
    "C54_parse_print",
    "C54_unambiguous",
    "C54_unique_tree"
   ],
   "note": "Parser and grammar agree on all token sequences, in both exponent modes; trees are unique up to `a * b` against `a b`."
  },
  {
   "property": "C55",
   "status": "proved",
   "theorems": [
    "C55_only_one",
    "C55_only_one_real",
    "C55_integer"
   ],
   "note": "A decimal within 2^-53 of 1 whose nearest double is 1 is accepted, as the code compares doubles; the statement says so."
  },
  {
   "property": "C56",
   "status": "proved",
   "theorems": [
    "C56_unit_attributes",
    "C56_only_known_attributes",
    "C56_unknown_attribute"
   ],
   "note": "Over all token sequences of attributes."
  },
  {
   "property": "C57",
   "status": "partial",
   "theorems": [
    "C57_exactly",
    "C57_refuted",
    "C57_attributes_with_arguments_partial"
   ],
   "note": "False of the code: syn's attribute parser is only forced to look at attributes by the unit statement; on other statements an attribute without arguments (`#[symbol] dimension Length`) is accepted and ignored (C57_refuted). Proved: any attribute with arguments before another statement, at any place of a system, is an error. C57_exactly: attributes without arguments never change what such a statement means; one with arguments always makes the system an error."
  },
  {
   "property": "C58",
   "status": "proved",
   "theorems": [
    "C58_field_name",
    "C58_letters"
   ],
   "note": "C58_field_name gives the string, C58_letters its characters."
  },
  {
   "property": "C59",
   "status": "partial",
   "theorems": [
    "C59_collision_refuted",
    "C59_camel_case_partial",
    "C59_collision_does_not_compile_partial",
    "C59_exactly"
   ],
   "note": "False of the code: `AB` and `A_b` collide under snake case (C59_collision_refuted). Proved: camel-case names get different fields, and a collision is always a compile error of the generated code, never a silently merged exponent. C59_exactly: two names get the same field exactly if they differ at most in the case of the first letter and in spelling an inner capital X as _x."
  },
  {
   "property": "C60",
   "status": "proved",
   "theorems": [
    "C60_literal",
    "C60_source"
   ],
   "note": "C60_literal: the struct literal names each field once and denotes the resolved exponents; C60_source: the same from the text of the system."
  },
  {
   "property": "C61",
   "status": "proved",
   "theorems": [
    "C61_signatures",
    "C61_exists",
    "C61_other_dimension_rejected",
    "C61_components",
    "C61_axis_vectors",
    "C61_infinite_axis",
    "C61_min_max",
    "C61_dot",
    "C61_length",
    "C61_distance",
    "C61_distance_squared",
    "C61_normalize"
   ],
   "note": "Types: C61_signatures/C61_exists. Values: constructors, components and setters exact; min/max componentwise; dot, length, distance, distance_squared and normalize accurate to a few ulps over glam 0.24's scalar algorithms (squares outside overflow/underflow). new_x(q) of an infinite q has NaN in the other components (C61_infinite_axis)."
  },
  {
   "property": "C62",
   "status": "proved",
   "theorems": [
    "C62_typing",
    "C62_value",
    "C62_dimension"
   ],
   "note": "The uniform sampler of the rand crate is a parameter: the theorems say how the generated impl wraps it."
  },
  {
   "property": "C63",
   "status": "proved",
   "theorems": [
    "C63_hdf5",
    "C63_mpi",
    "C63_any_dimension"
   ],
   "note": "The hdf5 and mpi descriptors of the storage types are data of the model."
  },
  {
   "property": "C64",
   "status": "proved",
   "theorems": [
    "C64_accepted",
    "C64_si_prefixed_base_units",
    "C64_prefixed_base_units"
   ],
   "note": "C64_accepted: the unit_system! invocation of the diman crate itself (si.rs, all its dimensions and units, modelled as source text and parsed by the model) is accepted; C64_si_prefixed_base_units and C64_prefixed_base_units: every prefixed base unit of any accepted system has exactly the decimal of its prefix as magnitude and the dimension of the base unit."
  },
  {
   "property": "C65",
   "status": "proved",
   "theorems": [
    "C65_platform_independent"
   ],
   "note": "Two arbitrary powi/powf functions are compared; nothing is assumed of them."
  },
  {
   "property": "C66",
   "status": "proved",
   "theorems": [
    "C66_si_factors"
   ],
   "note": "C66_si_factors: for integer exponents and both powi implementations (std and num-traits-libm), every unit factor of the SI system is within the stated distance of the exact solution. The rational-exponents build goes through powf, which the model leaves abstract; it is not covered by this theorem."
  },
  {
   "property": "C67",
   "status": "partial",
   "theorems": [
    "C67_release_overflow_refuted",
    "C67_checked_agrees_partial",
    "C67_exactly"
   ],
   "note": "False of the code: const fns follow the profile's overflow checks, so without them an exponent wraps around. Proved: whenever the checked evaluation succeeds, the unchecked one gives the same dimension. C67_exactly: the unchecked evaluation always yields the exponents modulo 2^64; they are the exact ones exactly if the checked evaluation succeeds, and the checked evaluation rejects the program in all other cases."
  },
  {
   "property": "C68",
   "status": "partial",
   "theorems": [
    "C68_fraction_partial",
    "C68_zero_over_zero_partial",
    "C68_refuted",
    "C68_infinite_exponent_refuted",
    "C68_zero_denominator",
    "C68_exactly"
   ],
   "note": "Proved for every non-zero denominator (C68_fraction_partial); refuted for denominator zero: Length^(1/0) is accepted without a report and multiplying it by Length gives the same dimension (C68_infinite_exponent_refuted). 0/0 is rejected. C68_exactly: (a/b) is rejected exactly if both are zero, otherwise recorded in lowest terms with the signs as written; C68_zero_denominator: (a/0) is read as 1/0 or -1/0."
  },
  {
   "property": "C69",
   "status": "partial",
   "theorems": [
    "C69_exactly",
    "C69_other_reports",
    "C69_undefined_once_partial",
    "C69_variants_silent_partial",
    "C69_refuted"
   ],
   "note": "Refuted: a violated annotation on a unit with metric prefixes is reported 17 times (C69_refuted), since every variant carries the annotation. Proved: undefined names are reported at most once per statement that mentions them, and no variant of a unit with an undefined name is reported. C69_exactly: about a system that is otherwise well formed there is exactly one report for every declaration (every generated name counts) whose annotation does not fit, of the kind that belongs to it, and nothing else; C69_other_reports: a system is well formed exactly if nothing but annotations is reported."
  },
  {
   "property": "C70",
   "status": "partial",
   "theorems": [
    "C70_names_partial",
    "C70_undocumented_rules_refuted",
    "C70_refuted",
    "C70_si_names"
   ],
   "note": "Refuted (C70_refuted, C70_undocumented_rules_refuted): five accepted files whose generated code does not compile: another name for the quantity type or the dimension type (mod unit_type, units, constants import super::Dimension and super::Quantity literally), a base dimension Type (field named type), a dimension Exponent, a unit Unit. C70_names_partial: an accepted file generates valid names exactly if it keeps seven naming rules (usable); C70_si_names: the bundled SI system does."
  },
  {
   "property": "C71",
   "status": "proved",
   "theorems": [
    "C71_factors_accurate",
    "C71_powi",
    "C71_budget_is_exact",
    "C71_si"
   ],
   "note": "Both exponent modes; unit definitions may use whole exponents (a fractional power of a unit has no rational exact value, so no budget exists for it). The bound is proved from the text of the file to the factors of the output, for any power function (powi, or powf at whole numbers with rational-dimensions) that is off by at most 2|z| roundings; both known powi implementations are (C71_powi). G and C of the statement are any exact values and counts that fit the file (budget); C71_applies and C71_applies_both compute them for a file. C71_si: the SI system in both modes, 42*2^-53."
  },
  {
   "property": "C72",
   "status": "proved",
   "theorems": [
    "C72_conversion",
    "C72_single",
    "C72_si",
    "C72_too_large",
    "C72_si_both"
   ],
   "note": "Both exponent modes. From the text of the file to the converted number. C72_conversion (f64), C72_single (f32, factors of up to 2^29 roundings), C72_si (the bundled SI system with the two known powi, using the computed bound of C66), C72_si_both (the SI system in either mode with any accurate power function: 88*2^-53). Dimensions are not compared by value_in (C14), hence not here. C72_too_large: the size hypotheses are needed, a factor beyond the f32 range makes every stored f32 infinite."
  },
  {
   "property": "C73",
   "status": "proved",
   "theorems": [
    "C73_one_meaning",
    "C73_names"
   ],
   "note": "Both exponent modes; existence needs whole exponents in unit definitions (automatic with integer exponents: a fractional power of a unit has no rational value). Division by zero counts as zero on the exact side. C73_names: the output's names are exactly those of the text, each once."
  },
  {
   "property": "C74",
   "status": "partial",
   "theorems": [
    "C74_refuted",
    "C74_partial"
   ],
   "note": "Refuted (C74_refuted): 0 * meter, 1e200 * 1e200 * meter (infinite factor) and 1e-200 * 1e-200 * meter (factor 0) are accepted without an error. C74_partial: under the conditions of C71 every factor is finite and has the sign of its exact value, which is not zero."
  },
  {
   "property": "C75",
   "status": "proved",
   "theorems": [
    "C75_adding_statements"
   ],
   "note": "Both files must be accepted (an extension can of course clash with a name). Records are compared by equality, so factors agree bit for bit. The converse direction (what an extension may break) is the subject of the error-report properties."
  },
  {
   "property": "C76",
   "status": "partial",
   "theorems": [
    "C76_systems",
    "C76_factors",
    "C76_operators_partial",
    "C76_methods",
    "C76_min_max_clamp",
    "C76_refuted",
    "C76_operators_exactly"
   ],
   "note": "Systems (C76_systems: no restriction, any powi/powf), factors (C76_factors: bit-identical when powf x z = powi x z for the exponents written in the file, which must fit an i32) and methods hold in full. Operators: refuted (C76_refuted) for a right operand of / with an exponent of -2^63 (Ratio::sub negates first and overflows where i64's subtraction does not); C76_operators_partial covers everything else. C76_operators_exactly: for well-shaped dimensions these divisions are exactly the expressions that are lost."
  },
  {
   "property": "C77",
   "status": "partial",
   "theorems": [
    "C77_closure",
    "C77_storage_types",
    "C77_components",
    "C77_mode",
    "C77_math",
    "C77_agreement",
    "C77_builds_exactly",
    "C77_refuted"
   ],
   "note": "Everything but the last clause holds in full. Builds: refuted (C77_refuted: si + f64 + serde without std: the generated serde code uses std:: and format! in a no_std crate); C77_builds_exactly lists exactly the selections that build. The list of conditional uses is transcribed from every cfg in the sources; the internals of the dependencies (glam, serde, hdf5, mpi, rand) are not modelled."
  },
  {
   "property": "C78",
   "status": "proved",
   "theorems": [
    "C78_removing_statements"
   ],
   "note": "Acceptance in both directions, including that the macro does not panic on the part. Statements are compared up to order (Permutation)."
  },
  {
   "property": "C79",
   "status": "proved",
   "theorems": [
    "C79_vectors",
    "C79_programs",
    "C79_vectors_single",
    "C79_programs_single",
    "C79_si",
    "C79_sum",
    "C79_compare",
    "C79_powi_good",
    "C79_si_both",
    "C79_dot"
   ],
   "note": "Both exponent modes. Soundness of a running error analysis (TrackSpec.v) against the float semantics (FloatPrograms.v), for f64 and f32. Scalar and vector storage types; rational powers and the transcendental functions are not covered. The components of a vector are bounded one by one. powi is assumed accurate (proved of compiler-rt's and num-traits' algorithms: C79_powi_good). C79_si (five roundings per SI unit with the two known powi), C79_si_both (21 with any accurate power function, either mode)."
  },
  {
   "property": "C80",
   "status": "proved",
   "theorems": [
    "C80_no_panic",
    "C80_only_clamp"
   ],
   "note": "Type soundness of the operators, unit operations, methods and vector methods against the float semantics. Literal numbers come in as variables; formatting and deserialization are C47 and C50; core, glam and libm functions are assumed not to panic themselves."
  },
  {
   "property": "C81",
   "status": "proved",
   "theorems": [
    "C81_exact",
    "C81_same_results",
    "C81_same_results_single"
   ],
   "note": "Covers both exponent modes (with rational ones the written denominators must be positive, as in C60; units defined with whole exponents), scalar and vector storage, double and single precision (C81_same_results, C81_same_results_single); C81_exact is over the reals. Programs whose inputs or results carry a dimension are outside (their stored numbers are in base units and do differ)."
  },
  {
   "property": "C82",
   "status": "proved",
   "theorems": [
    "C82_origin",
    "C82_no_units",
    "C82_rounding",
    "C82_rounding_single"
   ],
   "note": "Both exponent modes. C82_origin and C82_no_units over the reals; C82_rounding and C82_rounding_single for the units of accepted files (with rational exponents the written denominators must be positive, as in C60)."
  },
  {
   "property": "C83",
   "status": "proved",
   "theorems": [
    "C83_local",
    "C83_same_definitions",
    "C83_only_said"
   ],
   "note": "Both exponent modes. `says` (LocalSpec.v) reads definitions off the statements; C83_applies has two concrete files."
  },
  {
   "property": "C84",
   "status": "proved",
   "theorems": [
    "C84_between",
    "C84_old_data"
   ],
   "note": "Both exponent modes; conditions as in C48_exactly (see the finding there). C84_between is for any two systems where the second has all units of the first; C84_old_data for source files with inclusion of statements. C84_applies writes with one file's system and reads with a file that adds a base dimension."
  },
  {
   "property": "C85",
   "status": "proved",
   "theorems": [
    "C85_text",
    "C85_text_single",
    "C85_vector",
    "C85_si_readable",
    "C85_si"
   ],
   "note": "Combines C50/C52 (what text means), C50_number_text (decimal numbers) and C71/C66 (accuracy of factors). `reading` counts the roundings; C85_si_readable shows that the SI system meets `readable_system`, so C46/C48/C50 apply to it. C85_applies: `-012.50E-3 mm^2 s^-1`."
  },
  {
   "property": "C86",
   "status": "proved",
   "theorems": [
    "C86_every_error_is_printed",
    "C86_different_errors_look_different"
   ],
   "note": "Messages.v models resolve/error.rs; the example C86_C87_compile_fail_tests reproduces the texts in the repository's .stderr files. Positions are modelled as the underlined identifiers, not as spans."
  },
  {
   "property": "C87",
   "status": "proved",
   "theorems": [
    "C87_mismatch_shows_the_dimensions",
    "C87_readable"
   ],
   "note": "Proved for well-formed files (names unique and defined, definitions grounded), where every declaration has a dimension. The help lines can be equal although the message says mismatch: see C88."
  },
  {
   "property": "C88",
   "status": "partial",
   "theorems": [
    "C88_partial",
    "C88_wording",
    "C88_unresolvable_is_recursive",
    "C88_annotations",
    "C88_mismatch_is_true_iff_lines_differ",
    "C88_refuted",
    "C88_suggestion_refuted"
   ],
   "note": "False in general (C88_refuted: four messages, C88_suggestion_refuted: the suggested statement `quantity type Quantity;` is never accepted). C88_partial: every reported error is either true or wrong in one of exactly these four ways. With all names defined, unresolvable names are recursive (C88_unresolvable_is_recursive); in a well-formed file only mismatches can be false (C88_annotations), and exactly those whose two help lines are equal (C88_mismatch_is_true_iff_lines_differ)."
  },
  {
   "property": "C89",
   "status": "proved",
   "theorems": [
    "C89_one_type",
    "C89_checker",
    "C89_needs_annotation",
    "C89_more_features"
   ],
   "note": "C89_one_type (uniqueness), C89_checker (a computable type checker, Inference.v, agrees with the typing rules), C89_more_features. Bare numbers carry their type in the model; Rust's defaulting of float literals is not modelled. The excluded expressions do need an annotation: C89_needs_annotation."
  },
  {
   "property": "C90",
   "status": "proved",
   "theorems": [
    "C90_precision",
    "C90_both_ways",
    "C90_exact_value"
   ],
   "note": "C90_precision (acceptance and dimension), C90_both_ways (equivalence for expressions in one precision), C90_exact_value (value over the reals; the rounding of either version is C79's)."
  },
  {
   "property": "C91",
   "status": "proved",
   "theorems": [
    "C91_panics_exactly_on_overflow",
    "C91_solution_exists",
    "C91_solution_unique",
    "C91_computes_the_solution",
    "C91_small_exponents_never_panic",
    "C91_common_denominator_never_panics"
   ],
   "note": "OverflowSpec.v: the exponents over the rational numbers and what it means that the arithmetic on them fits; C91_panics_exactly_on_overflow for both builds, with existence, uniqueness and agreement of the solution. Overflow checks on (a proc macro built without them wraps instead: C26_terminates). C91_common_denominator_never_panics is the checkable condition for rational exponents (common denominator d, d^2 times the weight below 2^63)."
  },
  {
   "property": "C92",
   "status": "proved",
   "theorems": [
    "C92_units_keep_the_order",
    "C92_reading_keeps_the_order",
    "C92_conversion_keeps_the_order",
    "C92_clearly_smaller",
    "C92_si"
   ],
   "note": "Monotone rounding, for every pair of values and factors in both formats; C92_clearly_smaller and C92_si against the exact factors of the file. The comparison is run as a program (Compare), for all six relations."
  },
  {
   "property": "C93",
   "status": "proved",
   "theorems": [
    "C93_renaming",
    "C93_whole_file",
    "C93_renamed_file",
    "C93_units",
    "C93_accepted_together"
   ],
   "note": "Simulation between two runs of the resolver under a renaming; the exponents are compared through corresponding base dimension fields. new need not be injective; the snake-case fields only have to stay apart. C93_renamed_file: the renamed file (rename_file) is accepted, with only injectivity on the declared names and symbols, prefixes and fields assumed. C93_accepted_together: a rejected file stays rejected under other names. C93_units: units carry the new symbols, base units are kept."
  },
  {
   "property": "C94",
   "status": "proved",
   "theorems": [
    "C94_panics_together",
    "C94_printed",
    "C94_same_text"
   ],
   "note": "fits new sy f collects the conditions of C93_renamed_file; carried relates the exponents through the base dimensions of the file. one_symbol is necessary: C94_needs_one_symbol is a file in which renaming a unit changes the symbol printed. That the renamed generated code compiles (compiled) is assumed: new names may be keywords or collide as field names."
  },
  {
   "property": "C95",
   "status": "proved",
   "theorems": [
    "C95_read",
    "C95_written"
   ],
   "note": "C95_read is an equality of outcomes, panics included, with no condition on the values; the two systems are readable (compiled, with identifiers for symbols). C95_written needs one symbol per coherent dimension, like C94_same_text."
  },
  {
   "property": "C96",
   "status": "proved",
   "theorems": [
    "C96_still_readable",
    "C96_reordered"
   ],
   "note": "C96_still_readable: any outcome but an error is kept, panics included; C96_errors_may_vanish shows why errors are left out. C96_reordered is an equality of all outcomes. Both systems are readable (compiled, with identifiers for symbols)."
  },
  {
   "property": "C97",
   "status": "proved",
   "theorems": [
    "C97_read",
    "C97_written"
   ],
   "note": "C97_read: whatever was not an error, panics included. C97_written composes it with C48_partial. Every version on the way is a working one (accepted, compiled, identifiers for symbols). C97_applies renames and then extends, in both exponent modes."
  },
  {
   "property": "C98",
   "status": "proved",
   "theorems": [
    "C98_still_printed",
    "C98_same_text"
   ],
   "note": "C98_still_printed: growing adds no panic. C98_same_text needs its conditions: C98_new_symbol shows the text 2.5 m^2 become 2.5 qm when a symbol for square meters is added."
  },
  {
   "property": "C99",
   "status": "proved",
   "theorems": [
    "C99_still_readable"
   ],
   "note": "The converse of C96, about what was read successfully. uses_only ranges over the words of the text that stand for units (as in C50)."
  }
 ]
}