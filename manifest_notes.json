{
 "C31": {
  "note": "The full statement is false of the code: `unit a: Dimensionless = meter` is accepted, because the comparison (dimension_math.rs:22-32) only looks at exponents recorded for the annotation. C31_C32_exactly gives the exact condition for acceptance in terms of the source (every base dimension met when the annotation is unfolded is met in the unit, with the same exponent); C31_partial: exponents that are non-zero in the annotation agree; C31_built_partial: the annotation is true if it is built from all base dimensions the unit is built from."
 },
 "C32": {
  "note": "The full statement is false of the code: after `dimension Angle = Length / Length`, `unit radian: Angle = 1` is rejected, because cancelled exponents stay recorded as zero. C31_C32_exactly gives the exact condition; C32_partial when no exponent zero is recorded for the annotation; C32_built_partial when every base dimension the annotation is built from is one the unit is built from."
 },
 "C38": {
  "note": "False of the code: subnormal factors (and, with compiler-rt's powi, all factors below 2^-971) are turned into zero. C37_roundtrip says exactly which doubles survive. C38_exactly: a finite factor survives exactly if it is zero or not below the platform limit."
 },
 "C42": {
  "note": "False of the code: Ratio::new keeps a negative denominator, so 1/(-2) and (-1)/2 are different types. Proved for denominators of the same sign. C42_exactly: two fractions give the same ratio exactly if they are equal numbers and their denominators have the same sign."
 },
 "C43": {
  "note": "False of the code: Ratio::powi multiplies numerator and denominator by the exponent and returns the ratio itself (C43_actual)."
 },
 "C45": {
  "note": "False of the code: the factor is computed with the exponent truncated to 32 bits (dimension_exponent.rs:29), the dimension with all 64. Proved for exponents of 32 bits. C45_actual: for every exponent, the factor is computed with the exponent reduced to 32 bits and the dimension with the whole exponent."
 },
 "C57": {
  "note": "False of the code: syn's attribute parser is only forced to look at attributes by the unit statement; on other statements an attribute without arguments (`#[symbol] dimension Length`) is accepted and ignored (C57_refuted). Proved: any attribute with arguments before another statement, at any place of a system, is an error. C57_exactly: attributes without arguments never change what such a statement means; one with arguments always makes the system an error."
 },
 "C55": {
  "note": "A decimal within 2^-53 of 1 whose nearest double is 1 is accepted, as the code compares doubles; the statement says so."
 },
 "C54": {
  "note": "Parser and grammar agree on all token sequences, in both exponent modes; trees are unique up to `a * b` against `a b`."
 },
 "C64": {
  "note": "C64_accepted: the unit_system! invocation of the diman crate itself (si.rs, all its dimensions and units, modelled as source text and parsed by the model) is accepted; C64_si_prefixed_base_units and C64_prefixed_base_units: every prefixed base unit of any accepted system has exactly the decimal of its prefix as magnitude and the dimension of the base unit."
 },
 "C66": {
  "note": "C66_si_factors: for integer exponents and both powi implementations (std and num-traits-libm), every unit factor of the SI system is within the stated distance of the exact solution. The rational-exponents build goes through powf, which the model leaves abstract; it is not covered by this theorem."
 },
 "C08": {
  "note": "Overflow checks on, the debug profile; see C67 for builds without them. C08_expressions covers arbitrary nested dimension expressions."
 },
 "C59": {
  "note": "False of the code: `AB` and `A_b` collide under snake case (C59_collision_refuted). Proved: camel-case names get different fields, and a collision is always a compile error of the generated code, never a silently merged exponent. C59_exactly: two names get the same field exactly if they differ at most in the case of the first letter and in spelling an inner capital X as _x."
 },
 "C67": {
  "note": "False of the code: const fns follow the profile's overflow checks, so without them an exponent wraps around. Proved: whenever the checked evaluation succeeds, the unchecked one gives the same dimension. C67_exactly: the unchecked evaluation always yields the exponents modulo 2^64; they are the exact ones exactly if the checked evaluation succeeds, and the checked evaluation rejects the program in all other cases."
 },
 "C06": {
  "note": "Raw types are numbers or vectors, not quantities themselves: for a quantity inside a quantity the generic impls `Quantity<S, none> + S` and `Quantity<L, D> + Quantity<R, D>` have unifiable headers, which is left to rustc."
 },
 "C01": {
  "note": "For every raw type and every raw operator table with the stated closure (std_storages_ok: met by f32, f64 and glam vectors under all feature sets); comparisons include core's rule for two references."
 },
 "C05": {
  "note": "The raw operations are arbitrary functions; references are transparent for values."
 },
 "C10": {
  "note": "Doubles and floats: x*u, u*x and u.new(x) are identical. Vectors: both products agree; u.new(vector) and Quantity<Vec> * unit do not exist (glam vectors have no Mul<Magnitude>)."
 },
 "C11": {
  "note": "False for number / unit (result has the unit's dimension instead of its inverse) and for unit / quantity (the value is q/F instead of F/q), compile-time and run-time units alike. Proved: quantity / unit, unit / number, unit / unit."
 },
 "C12": {
  "note": "Composed units (Unit*Unit, Unit/Unit), multiplication by a composed unit against multiplication by its parts, and arbitrary chains of steps on a quantity in any order. RuntimeUnit*Unit has no impl, so only two units compose directly."
 },
 "C14": {
  "note": "False of the code: value_in accepts any unit. Proved what is checked: the argument is a unit, and the dimensions are never looked at."
 },
 "C15": {
  "note": "The transcendental functions are arbitrary functions of std/libm; proved that they are applied to the stored value and only on dimensionless floats."
 },
 "C16": {
  "note": "C16_accuracy64/32: against the exact power, for compiler-rt's powi (the one rustc links), whenever |x|^|i| is in the normal range; at most 2(|i|+1) half ulps. For i > 2^23 in single precision the bound would exceed 1 and is not stated."
 },
 "C17": {
  "note": "min/max are any functions meeting core's documented contract (either zero may be returned for -0.0 and 0.0); clamp panics if its bounds are out of order, as core's does (C17_clamp)."
 },
 "C18": {
  "note": "C18_fold is the stated property; C18_accuracy adds an error bound against the exact sum."
 },
 "C09": {
  "note": "C09_sqrt_value adds the value: sqrt is the correctly rounded root of the stored value. C09_calls_* state the property of the calls q.sqrt() and q.cbrt() themselves (dimension halved / divided by three, rejected otherwise)."
 },
 "C61": {
  "note": "Types: C61_signatures/C61_exists. Values: constructors, components and setters exact; min/max componentwise; dot, length, distance, distance_squared and normalize accurate to a few ulps over glam 0.24's scalar algorithms (squares outside overflow/underflow). new_x(q) of an infinite q has NaN in the other components (C61_infinite_axis)."
 },
 "C46": {
  "note": "Exact text, read back to the same dimension, texts unique; symbols assumed to be identifiers (what the parser produces)."
 },
 "C47": {
  "note": "Refuted: a base dimension without base unit is accepted and formatting panics. Exact panic condition proved; panic-free when every base dimension has a base unit."
 },
 "C50": {
  "note": "Exact acceptance condition and value (C50_text), numbers, nothing else; overflow panics characterised by C50_no_panic (any quantity type, any value handed over) and C50_few_units_no_panic (fewer than 2^32/M unit terms never panic if the units' exponents are integers up to M). Refuted for programs without overflow checks (release profile) with exponents of 2^62: C50_release_refuted. C50_number_text: however a number is written, it is read as the nearest f64 (f32)."
 },
 "C51": {
  "note": "Acceptance, dimension and real value are order independent unless reading panics; whether it panics on exponent overflow can depend on the order (C51_panic_refuted)."
 },
 "C52": {
  "note": "Refuted: text before the opening bracket is ignored. Exact accepted form proved (C52_partial)."
 },
 "C48": {
  "note": "Proved for every dimension with a unit of factor one or 32-bit integer exponents, f32/f64/vector storage, without NaN (C48_partial), and exactly for those (C48_exactly); refuted for integer exponents outside 32 bits (C48_refuted: 'm^2147483648' is written but not accepted). Assumes float Display reads back (number_format) and that powers of one are one; exact_format shows the first is satisfiable."
 },
 "C49": {
  "note": "Refuted: 'm^1/2' is written but not accepted on reading. C49_partial: with a fractional exponent the value is read back exactly if the dimension has a unit of factor one of its own."
 },
 "C07": {
  "note": "Programs with variables, let, conditionals and loops over all generated operators, methods (vector methods included), units and constants, run over exact reals. The four operations that do depend on the base units (number / unit, unit / quantity, value_in with another dimension, value_unchecked; see C11, C14) are excluded; C07_escapes shows that each of them alone breaks the property."
 },
 "C68": {
  "note": "Proved for every non-zero denominator (C68_fraction_partial); refuted for denominator zero: Length^(1/0) is accepted without a report and multiplying it by Length gives the same dimension (C68_infinite_exponent_refuted). 0/0 is rejected. C68_exactly: (a/b) is rejected exactly if both are zero, otherwise recorded in lowest terms with the signs as written; C68_zero_denominator: (a/0) is read as 1/0 or -1/0."
 },
 "C69": {
  "note": "Refuted: a violated annotation on a unit with metric prefixes is reported 17 times (C69_refuted), since every variant carries the annotation. Proved: undefined names are reported at most once per statement that mentions them, and no variant of a unit with an undefined name is reported. C69_exactly: about a system that is otherwise well formed there is exactly one report for every declaration (every generated name counts) whose annotation does not fit, of the kind that belongs to it, and nothing else; C69_other_reports: a system is well formed exactly if nothing but annotations is reported."
 },
 "C70": {
  "note": "Refuted (C70_refuted, C70_undocumented_rules_refuted): five accepted files whose generated code does not compile: another name for the quantity type or the dimension type (mod unit_type, units, constants import super::Dimension and super::Quantity literally), a base dimension Type (field named type), a dimension Exponent, a unit Unit. C70_names_partial: an accepted file generates valid names exactly if it keeps seven naming rules (usable); C70_si_names: the bundled SI system does."
 },
 "C71": {
  "note": "Both exponent modes; unit definitions may use whole exponents (a fractional power of a unit has no rational exact value, so no budget exists for it). The bound is proved from the text of the file to the factors of the output, for any power function (powi, or powf at whole numbers with rational-dimensions) that is off by at most 2|z| roundings; both known powi implementations are (C71_powi). G and C of the statement are any exact values and counts that fit the file (budget); C71_applies and C71_applies_both compute them for a file. C71_si: the SI system in both modes, 42*2^-53."
 },
 "C72": {
  "note": "Both exponent modes. From the text of the file to the converted number. C72_conversion (f64), C72_single (f32, factors of up to 2^29 roundings), C72_si (the bundled SI system with the two known powi, using the computed bound of C66), C72_si_both (the SI system in either mode with any accurate power function: 88*2^-53). Dimensions are not compared by value_in (C14), hence not here. C72_too_large: the size hypotheses are needed, a factor beyond the f32 range makes every stored f32 infinite."
 },
 "C73": {
  "note": "Both exponent modes; existence needs whole exponents in unit definitions (automatic with integer exponents: a fractional power of a unit has no rational value). Division by zero counts as zero on the exact side. C73_names: the output's names are exactly those of the text, each once."
 },
 "C74": {
  "note": "Refuted (C74_refuted): 0 * meter, 1e200 * 1e200 * meter (infinite factor) and 1e-200 * 1e-200 * meter (factor 0) are accepted without an error. C74_partial: under the conditions of C71 every factor is finite and has the sign of its exact value, which is not zero."
 },
 "C75": {
  "note": "Both files must be accepted (an extension can of course clash with a name). Records are compared by equality, so factors agree bit for bit. The converse direction (what an extension may break) is the subject of the error-report properties."
 },
 "C76": {
  "note": "Systems (C76_systems: no restriction, any powi/powf), factors (C76_factors: bit-identical when powf x z = powi x z for the exponents written in the file, which must fit an i32) and methods hold in full. Operators: refuted (C76_refuted) for a right operand of / with an exponent of -2^63 (Ratio::sub negates first and overflows where i64's subtraction does not); C76_operators_partial covers everything else. C76_operators_exactly: for well-shaped dimensions these divisions are exactly the expressions that are lost."
 },
 "C77": {
  "note": "Everything but the last clause holds in full. Builds: refuted (C77_refuted: si + f64 + serde without std: the generated serde code uses std:: and format! in a no_std crate); C77_builds_exactly lists exactly the selections that build. The list of conditional uses is transcribed from every cfg in the sources; the internals of the dependencies (glam, serde, hdf5, mpi, rand) are not modelled."
 },
 "C78": {
  "note": "Acceptance in both directions, including that the macro does not panic on the part. Statements are compared up to order (Permutation)."
 },
 "C79": {
  "note": "Both exponent modes. Soundness of a running error analysis (TrackSpec.v) against the float semantics (FloatPrograms.v), for f64 and f32. Scalar and vector storage types; rational powers and the transcendental functions are not covered. The components of a vector are bounded one by one. powi is assumed accurate (proved of compiler-rt's and num-traits' algorithms: C79_powi_good). C79_si (five roundings per SI unit with the two known powi), C79_si_both (21 with any accurate power function, either mode)."
 },
 "C80": {
  "note": "Type soundness of the operators, unit operations, methods and vector methods against the float semantics. Literal numbers come in as variables; formatting and deserialization are C47 and C50; core, glam and libm functions are assumed not to panic themselves."
 },
 "C81": {
  "note": "Covers both exponent modes (with rational ones the written denominators must be positive, as in C60; units defined with whole exponents), scalar and vector storage, double and single precision (C81_same_results, C81_same_results_single); C81_exact is over the reals. Programs whose inputs or results carry a dimension are outside (their stored numbers are in base units and do differ)."
 },
 "C82": {
  "note": "Both exponent modes. C82_origin and C82_no_units over the reals; C82_rounding and C82_rounding_single for the units of accepted files (with rational exponents the written denominators must be positive, as in C60)."
 },
 "C83": {
  "note": "Both exponent modes. `says` (LocalSpec.v) reads definitions off the statements; C83_applies has two concrete files."
 },
 "C84": {
  "note": "Both exponent modes; conditions as in C48_exactly (see the finding there). C84_between is for any two systems where the second has all units of the first; C84_old_data for source files with inclusion of statements. C84_applies writes with one file's system and reads with a file that adds a base dimension."
 },
 "C85": {
  "note": "Combines C50/C52 (what text means), C50_number_text (decimal numbers) and C71/C66 (accuracy of factors). `reading` counts the roundings; C85_si_readable shows that the SI system meets `readable_system`, so C46/C48/C50 apply to it. C85_applies: `-012.50E-3 mm^2 s^-1`."
 },
 "C02": {
  "note": "C02_exact: whatever impl the operator search finds for *, / has the sum, difference or negation of the exponent vectors as output dimension (exact, in both exponent modes); C02_exists: the impl is found for all pairs of quantities and numbers the storage types allow, unless an exponent overflows."
 },
 "C03": {
  "note": "Stated over all storage types, dimensions and the operators as generated (by value, by reference, assigning); 'compiles' is 'an impl applies' in the model of the generated impls."
 },
 "C04": {
  "note": "C04_keeps_dimension covers all four assigning operators; C03_C04_scale_in_place gives the exact condition for *= and /=."
 },
 "C13": {
  "note": "C13_roundtrip is the f64 error bound (Flocq binary64, no overflow or underflow), C13_exact the exact case (factor a power of two), C13_base_units the case of factor one, for all finite values."
 },
 "C19": {
  "note": "For every accepted system and every alias, plain or combined with a prefix."
 },
 "C20": {
  "note": "C20_prefixed_unit: dimension, factor (one rounding), name and symbol for every prefix of every unit; C20_si_prefixes: the 16 prefix factors are the doubles nearest to the powers of ten; C20_prefixes_distinct: no two prefixes share name, symbol or factor."
 },
 "C21": {
  "note": "C21_expansion counts, C21_variants_in_order gives the list, C21_generated_names that the names of the accepted system are exactly these."
 },
 "C22": {
  "note": "For every skip list and every list of explicit prefixes."
 },
 "C23": {
  "note": "For every accepted system; both exponent modes."
 },
 "C24": {
  "note": "Dimensions exactly, factors as the f64 evaluation of the definition; C24_equations_have_one_solution: the equations determine the dimensions."
 },
 "C25": {
  "note": "Any permutation of the statements of a system without duplicate names."
 },
 "C26": {
  "note": "C26_resolved_iff_grounded is an equivalence with an inductive 'unfolds in finitely many steps'; C26_terminates: the fuel of the loop is never exhausted."
 },
 "C27": {
  "note": "An equivalence between 'no diagnostics' and a well-formedness predicate stated over the statements of the file (SystemSpec.v) without reference to the resolver."
 },
 "C28": {
  "note": "An equivalence: the error appears if and only if a used name is not defined."
 },
 "C29": {
  "note": "An equivalence, under the condition that all names used are defined (the code stops at undefined names before looking at duplicates)."
 },
 "C30": {
  "note": "C30_kinds gives the diagnostics exactly; C30_accepted_kinds the consequence for accepted systems."
 },
 "C33": {
  "note": "Equivalences for both errors."
 },
 "C34": {
  "note": "The diagnostics are characterised exactly: symbol and list of units."
 },
 "C35": {
  "note": "An equivalence for each base unit."
 },
 "C36": {
  "note": "C36_sorted: results sorted by name, no repetition. C36_hash_order_irrelevant: combining two exponent maps gives the same map for every iteration order of the hash map it goes through. Field order inside a generated struct literal follows the hash map but carries no meaning (C60). Declaration order is C25."
 },
 "C37": {
  "note": "For all doubles of the stated range and any powi that is exact on the powers of two it returns (two concrete platforms are instances)."
 },
 "C39": {
  "note": "C39_equality_operator: the derived equality on the triple decides it."
 },
 "C40": {
  "note": "C40_correctly_rounded states it over the reals with Flocq's rounding."
 },
 "C41": {
  "note": "Over all ratios reachable by the operations; C41_defined: no operation overflows on operands whose numerator and denominator are below 2^31."
 },
 "C44": {
  "note": "C44_integer_exponents covers checked and wrapping builds; C44_ratio_exponents the rational ones with checks."
 },
 "C53": {
  "note": "C53_left_associative and C53_factors are about parsing; C53_evaluation: the value the resolver computes is the code's second pass (eval) of the expression in which the first pass put the looked up values; C53_eval_chain: eval goes through a chain of factors from the left, whatever the values."
 },
 "C56": {
  "note": "Over all token sequences of attributes."
 },
 "C58": {
  "note": "C58_field_name gives the string, C58_letters its characters."
 },
 "C60": {
  "note": "C60_literal: the struct literal names each field once and denotes the resolved exponents; C60_source: the same from the text of the system."
 },
 "C62": {
  "note": "The uniform sampler of the rand crate is a parameter: the theorems say how the generated impl wraps it."
 },
 "C63": {
  "note": "The hdf5 and mpi descriptors of the storage types are data of the model."
 },
 "C65": {
  "note": "Two arbitrary powi/powf functions are compared; nothing is assumed of them."
 },
 "C86": {
  "note": "Messages.v models resolve/error.rs; the example C86_C87_compile_fail_tests reproduces the texts in the repository's .stderr files. Positions are modelled as the underlined identifiers, not as spans."
 },
 "C87": {
  "note": "Proved for well-formed files (names unique and defined, definitions grounded), where every declaration has a dimension. The help lines can be equal although the message says mismatch: see C88."
 },
 "C88": {
  "note": "False in general (C88_refuted: four messages, C88_suggestion_refuted: the suggested statement `quantity type Quantity;` is never accepted). C88_partial: every reported error is either true or wrong in one of exactly these four ways. With all names defined, unresolvable names are recursive (C88_unresolvable_is_recursive); in a well-formed file only mismatches can be false (C88_annotations), and exactly those whose two help lines are equal (C88_mismatch_is_true_iff_lines_differ)."
 },
 "C89": {
  "note": "C89_one_type (uniqueness), C89_checker (a computable type checker, Inference.v, agrees with the typing rules), C89_more_features. Bare numbers carry their type in the model; Rust's defaulting of float literals is not modelled. The excluded expressions do need an annotation: C89_needs_annotation."
 },
 "C90": {
  "note": "C90_precision (acceptance and dimension), C90_both_ways (equivalence for expressions in one precision), C90_exact_value (value over the reals; the rounding of either version is C79's)."
 },
 "C91": {
  "note": "OverflowSpec.v: the exponents over the rational numbers and what it means that the arithmetic on them fits; C91_panics_exactly_on_overflow for both builds, with existence, uniqueness and agreement of the solution. Overflow checks on (a proc macro built without them wraps instead: C26_terminates). C91_common_denominator_never_panics is the checkable condition for rational exponents (common denominator d, d^2 times the weight below 2^63)."
 },
 "C92": {
  "note": "Monotone rounding, for every pair of values and factors in both formats; C92_clearly_smaller and C92_si against the exact factors of the file. The comparison is run as a program (Compare), for all six relations."
 },
 "C93": {
  "note": "Simulation between two runs of the resolver under a renaming; the exponents are compared through corresponding base dimension fields. new need not be injective; the snake-case fields only have to stay apart. C93_renamed_file: the renamed file (rename_file) is accepted, with only injectivity on the declared names and symbols, prefixes and fields assumed. C93_accepted_together: a rejected file stays rejected under other names. C93_units: units carry the new symbols, base units are kept."
 },
 "C94": {
  "note": "fits new sy f collects the conditions of C93_renamed_file; carried relates the exponents through the base dimensions of the file. one_symbol is necessary: C94_needs_one_symbol is a file in which renaming a unit changes the symbol printed. That the renamed generated code compiles (compiled) is assumed: new names may be keywords or collide as field names."
 },
 "C95": {
  "note": "C95_read is an equality of outcomes, panics included, with no condition on the values; the two systems are readable (compiled, with identifiers for symbols). C95_written needs one symbol per coherent dimension, like C94_same_text."
 },
 "C96": {
  "note": "C96_still_readable: any outcome but an error is kept, panics included; C96_errors_may_vanish shows why errors are left out. C96_reordered is an equality of all outcomes. Both systems are readable (compiled, with identifiers for symbols)."
 },
 "C97": {
  "note": "C97_read: whatever was not an error, panics included. C97_written composes it with C48_partial. Every version on the way is a working one (accepted, compiled, identifiers for symbols). C97_applies renames and then extends, in both exponent modes."
 },
 "C98": {
  "note": "C98_still_printed: growing adds no panic. C98_same_text needs its conditions: C98_new_symbol shows the text 2.5 m^2 become 2.5 qm when a symbol for square meters is added."
 },
 "C99": {
  "note": "The converse of C96, about what was read successfully. uses_only ranges over the words of the text that stand for units (as in C50)."
 }
}