{"id": "C01", "title": "Adding, subtracting and comparing need equal dimensions", "statement": "For quantities q1 and q2 (owned or borrowed, in the storage combinations the library supports) the expressions q1 + q2, q1 - q2, q1 += q2, q1 -= q2, q1 == q2 and q1 < q2 compile if and only if q1 and q2 have the same dimension; + and - return that same dimension.", "quantifier": "every pair of dimensions of every unit system, every storage type and owned/borrowed form", "why_tests_cant": "compile-fail tests try a few named dimensions; the claim is about all exponent vectors of all user-defined systems", "anchors": ["crates/diman_unit_system/src/codegen/num_traits/operator_trait.rs: OperatorTrait, iter_numeric_traits, output_quantity_dimension"]}
{"id": "C02", "title": "Products and quotients get the exact product or quotient dimension", "statement": "q1 * q2 has the sum of the exponent vectors of q1 and q2, q1 / q2 the difference, q * number and q / number keep the dimension of q, number * q keeps it, and number / q has the negated exponent vector. No other output dimension is ever produced by an operator on quantities.", "quantifier": "all dimensions, all operand kinds (quantity, borrowed quantity, bare number), all storage types", "why_tests_cant": "infinitely many dimension pairs; tests fix a handful", "anchors": ["crates/diman_unit_system/src/codegen/num_traits/operator_trait.rs: output_quantity_dimension, QuantityTrait::output", "crates/diman_unit_system/src/codegen/dimension_type.rs: dimension_add, dimension_sub, dimension_neg"]}
{"id": "C03", "title": "A bare number mixes only with dimensionless quantities", "statement": "Adding, subtracting, comparing a bare number with a quantity, multiplying or dividing in place by a quantity, or building a quantity from a bare number with .into(), compiles only when the quantity involved is dimensionless.", "quantifier": "all dimensions, both operand orders, all storages", "why_tests_cant": "a negative statement about every dimension other than zero", "anchors": ["crates/diman_unit_system/src/codegen/num_traits/operator_trait.rs: dimension_types, iter_numeric_traits", "crates/diman_unit_system/src/codegen/num_traits/mod.rs: gen_from_impl"]}
{"id": "C04", "title": "In-place operators never change a variable's dimension", "statement": "If a statement q += e, q -= e, q *= e or q /= e compiles, then e's dimension is such that the value of q op e has the dimension of q (same dimension for += and -=, dimensionless for *= and /=).", "quantifier": "all dimensions and operand kinds", "why_tests_cant": "ranges over all types for which the trait could be implemented", "anchors": ["crates/diman_unit_system/src/codegen/num_traits/operator_trait.rs: TraitType::AddAssign.., iter_numeric_traits"]}
{"id": "C05", "title": "Operators act on stored values exactly as on raw numbers", "statement": "The stored value of the result of every generated operator on quantities is the same raw operation applied to the stored values in the same operand order, and in-place operators update only the left operand with that value.", "quantifier": "all values of all storage types (the raw operation is an arbitrary function)", "why_tests_cant": "all floating point values incl. NaN, infinities; and all 60+ generated impls", "anchors": ["crates/diman_unit_system/src/codegen/num_traits/operator_trait.rs: fn_return_expr, to_tokens"]}
{"id": "C06", "title": "At most one operator impl applies", "statement": "For any two operand types and any operator at most one generated impl applies, so method resolution on quantities is never ambiguous, and the operator's result type is a function of the operand types.", "quantifier": "all operand type pairs over all dimensions and storages", "why_tests_cant": "needs all type pairs, not only those written in tests", "anchors": ["crates/diman_unit_system/src/codegen/num_traits/operator_trait.rs: iter_numeric_traits", "crates/diman_unit_system/src/codegen/storage_types.rs"]}
{"id": "C07", "title": "Results do not depend on the choice of base units", "statement": "Any well-typed arithmetic program over quantities (addition, subtraction, products, quotients, integer powers, roots, abs, min, max, comparison, unit construction) evaluated over the reals gives a result that transforms by exactly the scale factor of its static dimension when the base units are rescaled; in particular dimensionless results and comparisons are unchanged.", "quantifier": "all programs of the expression language, all rescalings, all input values", "why_tests_cant": "parametricity-style meta-theorem over all programs", "anchors": ["crates/diman_unit_system/src/codegen/num_traits/operator_trait.rs", "crates/diman_unit_system/src/codegen/unit_type.rs", "crates/diman_unit_system/src/codegen/float_methods.rs", "crates/diman_unit_system/src/codegen/quantity_type.rs"]}
{"id": "C08", "title": "Dimension arithmetic is the free abelian group on the base dimensions", "statement": "The generated dimension arithmetic (add, sub, neg, integer multiple) acts pointwise on the exponent vector, is associative and commutative, has the dimensionless vector as unit and neg as inverse, and distributes over integer multiples, as long as no exponent overflows; on overflow evaluation, in builds with overflow checks, aborts compilation instead of producing a different dimension.", "quantifier": "all exponent vectors of all lengths, all multipliers", "why_tests_cant": "algebraic laws over all vectors", "anchors": ["crates/diman_unit_system/src/codegen/dimension_type.rs: dimension_impl, dimension_add.., dimension_mul"]}
{"id": "C09", "title": "Roots exist exactly for divisible dimensions", "statement": "With integer exponents sqrt (cbrt) of a quantity compiles if and only if every exponent is divisible by 2 (3), and then the result's dimension times 2 (3) is the argument's dimension; sqrt of squared and cbrt of cubed always compile and give the original dimension. With rational exponents halving (dividing by three) succeeds as long as nothing overflows, and doubles (trebles) back.", "quantifier": "all exponent vectors", "why_tests_cant": "divisibility condition on unbounded vectors", "anchors": ["crates/diman_unit_system/src/codegen/dimension_type.rs: div_2, div_3", "crates/diman_unit_system/src/codegen/float_methods.rs: sqrt, cbrt, squared, cubed"]}
{"id": "C10", "title": "Three ways of attaching a unit agree", "statement": "x * unit, unit * x and unit.new(x) give the same stored value and the same dimension, for plain values, and multiplying or dividing a quantity by a unit scales the stored value by (the inverse of) the unit's factor and adds (subtracts) its dimension.", "quantifier": "all values, all units of all systems, both f64 and f32 storage", "why_tests_cant": "all float values and all unit factors", "anchors": ["crates/diman_unit_system/src/codegen/unit_type.rs: unit_type_impls"]}
{"id": "C11", "title": "Dividing by a unit or dividing a unit gives the mathematically right quantity", "statement": "For a unit u with factor F and dimension D, a value x and a quantity q: x / u has value x/F and dimension -D, u / x has value F/x and dimension D, u / q has value F/q and dimension D - dim q, q / u has value q/F and dimension dim q - D; likewise for units composed at run time.", "quantifier": "all units, values and quantities", "why_tests_cant": "the identities must hold for every factor and dimension; tests cover single cases of some of the operators", "anchors": ["crates/diman_unit_system/src/codegen/unit_type.rs"]}
{"id": "C12", "title": "Composed units are sound", "statement": "The unit obtained by multiplying or dividing units has the product or quotient of the factors and the sum or difference of the dimensions, so that (x * u1) * u2 over the reals equals x * (u1 * u2), and similarly for division; multiplying and dividing a quantity by any sequence of units, in any order, gives the same dimension and the same real factor, each step contributing at most one rounding.", "quantifier": "all pairs of units, and all sequences of multiplications and divisions of a quantity by units (compile-time or composed), of any length", "why_tests_cant": "unbounded products", "anchors": ["crates/diman_unit_system/src/codegen/unit_type.rs: Mul<Unit> for Unit, Div<Unit> for Unit, RuntimeUnit", "crates/diman_lib/src/magnitude.rs: Mul, Div"]}
{"id": "C13", "title": "Reading a value back in the unit it was made with", "statement": "(u.new(x)).value_in(u) equals x over the reals for non-zero factor; in f64 it differs from x by a relative error of at most two roundings, and it is exactly x when the factor is a power of two and no overflow or underflow happens (in particular for base units).", "quantifier": "all finite x and all unit factors without over/underflow", "why_tests_cant": "all pairs of floats", "anchors": ["crates/diman_unit_system/src/codegen/quantity_type.rs: value_in", "crates/diman_unit_system/src/codegen/unit_type.rs: new"]}
{"id": "C14", "title": "value_in only accepts units of the quantity's dimension", "statement": "q.value_in(u) compiles only if u has the dimension of q.", "quantifier": "all dimension pairs", "why_tests_cant": "negative statement over all units", "anchors": ["crates/diman_unit_system/src/codegen/quantity_type.rs: value_in"]}
{"id": "C15", "title": "Raw value access is only for dimensionless quantities", "statement": "value(), value_ref(), Deref to the raw number and the transcendental methods (exp, ln, sin, ...) exist exactly on dimensionless quantities, return the stored value or the function of the stored value, and their results are dimensionless.", "quantifier": "all dimensions", "why_tests_cant": "negative statement over all dimensions", "anchors": ["crates/diman_unit_system/src/codegen/quantity_type.rs", "crates/diman_unit_system/src/codegen/float_methods.rs: dimensionless_impls"]}
{"id": "C16", "title": "powi, squared, cubed scale the dimension by the exponent", "statement": "squared, cubed and powi::<I> return the dimension multiplied by 2, 3 and I and the stored value raised to the same power, including negative and zero I.", "quantifier": "all I, all dimensions, all values", "why_tests_cant": "all exponents", "anchors": ["crates/diman_unit_system/src/codegen/float_methods.rs", "crates/diman_unit_system/src/codegen/dimension_type.rs: dimension_mul"]}
{"id": "C17", "title": "min, max, clamp, abs and sign predicates respect dimension", "statement": "min, max, clamp take arguments of the same dimension and return one of their arguments (the right one in the order of stored values), abs keeps the dimension, and predicates such as is_positive depend only on the stored value; all are invariant under a positive rescaling of base units.", "quantifier": "all values and dimensions", "why_tests_cant": "all floats incl. NaN and signed zero", "anchors": ["crates/diman_unit_system/src/codegen/float_methods.rs", "crates/diman_unit_system/src/codegen/generic_methods.rs"]}
{"id": "C18", "title": "Sum of an iterator of quantities", "statement": "Summing an iterator of quantities of one dimension yields a quantity of that dimension whose stored value is the left fold of + from the storage default over the stored values in order.", "quantifier": "all finite sequences of any length", "why_tests_cant": "unbounded length", "anchors": ["crates/diman_unit_system/src/codegen/num_traits/mod.rs: gen_sum_impl"]}
{"id": "C19", "title": "An alias is indistinguishable from its unit", "statement": "Every alias of a unit gets the same dimension as the unit and a factor whose f64 value equals the unit's factor; the alias carries no symbol.", "quantifier": "all unit definitions, aliases and definitions", "why_tests_cant": "all systems", "anchors": ["crates/diman_unit_system/src/types/mod.rs: get_definition, format_name, format_symbol", "crates/diman_lib/src/magnitude.rs"]}
{"id": "C20", "title": "A prefixed unit is the power of ten times the unit", "statement": "A prefixed unit has the dimension of the unit and the factor (prefix factor) * (unit factor) rounded once; its name is the prefix name followed by the unit or alias name, its symbol (only for the unaliased name) the prefix symbol followed by the unit symbol; prefix factors are the doubles nearest to the decimal powers and names and symbols of prefixes are pairwise distinct.", "quantifier": "all 16 prefixes, all units", "why_tests_cant": "all definitions and factors", "anchors": ["crates/diman_unit_system/src/types/mod.rs", "crates/diman_unit_system/src/types/prefixes.rs"]}
{"id": "C21", "title": "Expansion produces exactly the requested names", "statement": "A unit with p prefixes and a aliases expands to exactly (p+1)*(a+1) units, one per combination, in the order prefixes then aliases with the plain unit last; every generated unit but the plain one records the unit it comes from and keeps its annotation.", "quantifier": "all p, a", "why_tests_cant": "unbounded lists", "anchors": ["crates/diman_unit_system/src/types/mod.rs: expand, expand_templates"]}
{"id": "C22", "title": "metric_prefixes with skip", "statement": "metric_prefixes yields each of the 16 prefixes that is not listed in skip exactly once in descending order; explicit prefixes are appended.", "quantifier": "all skip lists", "why_tests_cant": "2^16 skip sets in any order with repetitions", "anchors": ["crates/diman_unit_system/src/types/prefixes.rs: From<MetricPrefixes>", "crates/diman_unit_system/src/parse/mod.rs: UnitTemplate::parse_with_attributes"]}
{"id": "C23", "title": "A base unit has factor exactly one and the unit vector as dimension", "statement": "If a system expands without diagnostics, the base unit of a base dimension has factor exactly 1 and a dimension with exponent one at that base dimension and zero elsewhere, so a quantity made with it stores the number given.", "quantifier": "all systems", "why_tests_cant": "all systems of any size", "anchors": ["crates/diman_unit_system/src/resolve/ident_storage.rs: From<DimensionEntry>, From<UnitEntry>, resolve", "crates/diman_unit_system/src/dimension_math.rs: for_base_dimension"]}
{"id": "C24", "title": "Every definition holds as an equation", "statement": "If a system expands without diagnostics, every dimension, unit and constant denotes the value of its defining expression where each name denotes what the system gives it (products add exponents, quotients subtract, powers multiply, numbers are dimensionless).", "quantifier": "all systems, all expressions of any depth", "why_tests_cant": "unbounded dependency graphs and nested expressions", "anchors": ["crates/diman_unit_system/src/resolve/ident_storage.rs: resolve, resolve_dimensions", "crates/diman_unit_system/src/types/expression.rs: eval", "crates/diman_unit_system/src/dimension_math.rs"]}
{"id": "C25", "title": "Declaration order does not matter", "statement": "Permuting the statements of a system without duplicate names changes neither whether it is accepted nor the dimension and factor of any unit, constant or dimension.", "quantifier": "all systems and all permutations", "why_tests_cant": "n! permutations", "anchors": ["crates/diman_unit_system/src/resolve/ident_storage.rs: resolve", "crates/diman_unit_system/src/resolve/mod.rs: resolve"]}
{"id": "C26", "title": "Every well-founded definition is resolved", "statement": "A name gets a value if and only if its definition unfolds in finitely many steps to base definitions; resolution always terminates and every remaining name is reported as unresolvable (cycles included).", "quantifier": "all systems, including cyclic ones", "why_tests_cant": "dependency graphs of any shape and size", "anchors": ["crates/diman_unit_system/src/resolve/ident_storage.rs: resolve, is_resolvable", "crates/diman_unit_system/src/resolve/error.rs: UnresolvableError"]}
{"id": "C27", "title": "Acceptance is exactly well-formedness", "statement": "The macro expands without diagnostics if and only if: one quantity type and one dimension type are given, names are unique, every name used is defined, no definition is cyclic, only permitted kinds are mixed, base units are attached to base dimensions and at most one each, symbols are unique, base units have symbols, and annotations name dimensions and pass the comparison.", "quantifier": "all systems", "why_tests_cant": "both directions over all systems", "anchors": ["crates/diman_unit_system/src/resolve/mod.rs: resolve", "crates/diman_unit_system/src/resolve/ident_storage.rs"]}
{"id": "C28", "title": "Undefined names are reported", "statement": "If a definition mentions a name that is not defined in the system, expansion reports an undefined identifier error that names an undefined identifier; no undefined-identifier error is reported otherwise.", "quantifier": "all systems", "why_tests_cant": "all systems", "anchors": ["crates/diman_unit_system/src/resolve/ident_storage.rs: filter_undefined"]}
{"id": "C29", "title": "Duplicate names are reported", "statement": "If all names used are defined and a name is defined twice (as dimension, unit, prefixed unit, alias or constant) expansion reports a multiple-definition error containing that name, and no such error is reported for names defined once.", "quantifier": "all systems", "why_tests_cant": "prefix/alias expansion collisions range over all names", "anchors": ["crates/diman_unit_system/src/resolve/ident_storage.rs: filter_multiply_defined"]}
{"id": "C30", "title": "Kinds cannot be mixed", "statement": "In an accepted system dimensions are defined only from dimensions, units and constants only from units and constants, and base units only on dimensions; any violation is reported.", "quantifier": "all systems", "why_tests_cant": "all systems", "anchors": ["crates/diman_unit_system/src/resolve/ident_storage.rs: kind_is_allowed_in_definition, check_kinds_in_definitions"]}
{"id": "C31", "title": "A dimension annotation that is accepted is true", "statement": "If `unit u: D = e` or `constant c: D = e` is accepted without diagnostics then the dimension of e is the dimension D (same exponent for every base dimension).", "quantifier": "all annotated definitions", "why_tests_cant": "all expressions", "anchors": ["crates/diman_unit_system/src/resolve/ident_storage.rs: check_type_annotations", "crates/diman_unit_system/src/dimension_math.rs: PartialEq for BaseDimensions"]}
{"id": "C32", "title": "A true annotation is accepted", "statement": "If the dimension of e equals D then the annotation D on e is accepted.", "quantifier": "all annotated definitions", "why_tests_cant": "all expressions", "anchors": ["crates/diman_unit_system/src/resolve/ident_storage.rs: check_type_annotations", "crates/diman_unit_system/src/dimension_math.rs: PartialEq for BaseDimensions"]}
{"id": "C33", "title": "One base unit per base dimension, and only on base dimensions", "statement": "Declaring two base units for one base dimension, or a base unit for a derived dimension, is always reported, and nothing else triggers these errors.", "quantifier": "all systems", "why_tests_cant": "all systems", "anchors": ["crates/diman_unit_system/src/resolve/mod.rs: check_invalid_base_units"]}
{"id": "C34", "title": "Unit symbols are unambiguous", "statement": "If two units, including automatically prefixed ones, would get the same symbol, a diagnostic is emitted that lists the symbol and exactly the units using it; otherwise none is.", "quantifier": "all systems", "why_tests_cant": "collisions between expanded prefixes range over all symbols", "anchors": ["crates/diman_unit_system/src/resolve/mod.rs: check_multiply_defined_symbols"]}
{"id": "C35", "title": "Base units without a symbol are reported", "statement": "Every resolved base unit without a symbol triggers a diagnostic and nothing else does.", "quantifier": "all systems", "why_tests_cant": "all systems", "anchors": ["crates/diman_unit_system/src/resolve/mod.rs: check_for_base_units_without_symbol"]}
{"id": "C36", "title": "Expansion is deterministic", "statement": "The generated dimensions, units and constants are sorted by name without repetition and do not depend on hash-map iteration order or (for duplicate-free systems) on declaration order.", "quantifier": "all systems and all hash iteration orders", "why_tests_cant": "hash order varies per process", "anchors": ["crates/diman_unit_system/src/resolve/ident_storage.rs: get_items, IdentStorage", "crates/diman_unit_system/src/dimension_math.rs: Mul for BaseDimensions"]}
{"id": "C37", "title": "Unit factors survive the type-level encoding", "statement": "Encoding an f64 factor as an integer triple and decoding it returns the same f64 for zero (with sign), infinity and every number of absolute value at least 2^(lo+52), where 2^lo is the smallest power of two that 2f64.powi(.) still returns as a non-zero number (lo = -1023 with compiler-rt's powi, lo = -1074 with an exact one, so that every normal number is then unchanged); every smaller finite number becomes a zero of the same sign and NaN becomes an infinity.", "quantifier": "all 2^64 doubles", "why_tests_cant": "2^64 inputs", "anchors": ["crates/diman_lib/src/magnitude.rs: from_f64, into_f64, integer_decode_f64"]}
{"id": "C38", "title": "No finite factor is changed by the encoding", "statement": "Encoding and decoding returns the same f64 for every f64, including subnormal numbers and independent of how powi is computed.", "quantifier": "all 2^64 doubles and all powi implementations allowed by the platform", "why_tests_cant": "2^64 inputs", "anchors": ["crates/diman_lib/src/magnitude.rs: from_f64, into_f64"]}
{"id": "C39", "title": "Different factors are different types", "statement": "Two non-NaN f64 factors have equal encodings if and only if they are the same double (bitwise), so units with different factors never unify.", "quantifier": "all pairs of doubles", "why_tests_cant": "2^128 pairs", "anchors": ["crates/diman_lib/src/magnitude.rs: integer_decode_f64, Magnitude"]}
{"id": "C40", "title": "Factor arithmetic is f64 arithmetic", "statement": "Multiplying or dividing encoded factors gives the encoding of the correctly rounded f64 product or quotient of the decoded factors, and multiplying a number by a factor the correctly rounded f64 product (f32: after rounding the factor to f32).", "quantifier": "all factor pairs in the round-trip domain", "why_tests_cant": "all pairs of floats", "anchors": ["crates/diman_lib/src/magnitude.rs: Mul, Div impls"]}
{"id": "C41", "title": "Rational exponents form a field with canonical representatives", "statement": "Rational exponents computed from literals with positive denominators by +, -, *, negation and division by positive integers represent the exact rational result, and two equal rationals have identical representations (so type equality is rational equality), as long as no intermediate product overflows.", "quantifier": "all rationals, all operation sequences", "why_tests_cant": "unbounded operation sequences", "anchors": ["crates/diman_lib/src/ratio.rs"]}
{"id": "C42", "title": "Equal rational exponents are equal types", "statement": "Two exponents with the same rational value have the same representation, whatever the sign of the denominators written in the source, and division by any non-zero rational preserves this.", "quantifier": "all integer pairs", "why_tests_cant": "all sign combinations", "anchors": ["crates/diman_lib/src/ratio.rs: Ratio::new, inv, div"]}
{"id": "C43", "title": "Integer powers of a ratio", "statement": "Ratio::powi(r, n) is r to the n-th power.", "quantifier": "all ratios and n", "why_tests_cant": "all inputs", "anchors": ["crates/diman_lib/src/ratio.rs: powi"]}
{"id": "C44", "title": "Exponent overflow never yields a wrong dimension", "statement": "If an exponent computation does not overflow i64 the result is the mathematical one, with overflow checks on or off; if it overflows, with overflow checks the computation aborts, and without them (integer exponents) the result differs from the mathematical one by a multiple of 2^64.", "quantifier": "all exponents", "why_tests_cant": "64-bit ranges", "anchors": ["crates/diman_lib/src/ratio.rs", "crates/diman_unit_system/src/dimension_math.rs", "crates/diman_unit_system/src/codegen/dimension_type.rs"]}
{"id": "C45", "title": "Exponents beyond 32 bits keep factor and dimension consistent", "statement": "In unit definitions, u^n gives factor u^n and dimension n*dim(u) for the same n.", "quantifier": "all i64 exponents", "why_tests_cant": "2^64 exponents", "anchors": ["crates/diman_lib/src/dimension_exponent.rs: float_pow", "crates/diman_unit_system/src/dimension_math.rs: pow"]}
{"id": "C46", "title": "Debug output shows the value in base units with the right unit", "statement": "Formatting a quantity prints the stored value followed by the symbol of a unit of factor one with exactly that dimension if there is one, and otherwise by the base unit symbols with exactly the non-zero exponents in declaration order, from which the dimension can be read back uniquely.", "quantifier": "all values, all dimensions, all systems", "why_tests_cant": "all dimensions", "anchors": ["crates/diman_unit_system/src/codegen/debug_trait.rs", "crates/diman_lib/src/runtime_unit_storage.rs", "crates/diman_unit_system/src/codegen/units_and_constants.rs"]}
{"id": "C47", "title": "Formatting never panics", "statement": "Debug formatting of any quantity of any dimension of an accepted system terminates without panic.", "quantifier": "all accepted systems, all dimensions", "why_tests_cant": "all systems", "anchors": ["crates/diman_unit_system/src/codegen/debug_trait.rs"]}
{"id": "C48", "title": "Serialization round-trips", "statement": "Deserializing the serialized form of a quantity (float or vector) gives back the same quantity, with integer exponents, provided number formatting round-trips.", "quantifier": "all values, dimensions and systems with distinct symbols", "why_tests_cant": "all dimensions and values", "anchors": ["crates/diman_unit_system/src/codegen/serde.rs", "crates/diman_unit_system/src/codegen/debug_trait.rs"]}
{"id": "C49", "title": "Serialization round-trips with rational exponents", "statement": "Deserializing the serialized form of a quantity with fractional exponents gives back the same quantity.", "quantifier": "all dimensions", "why_tests_cant": "all dimensions", "anchors": ["crates/diman_unit_system/src/codegen/serde.rs", "crates/diman_unit_system/src/codegen/debug_trait.rs"]}
{"id": "C50", "title": "Deserialization enforces the dimension", "statement": "A string is accepted for a quantity type only if the product of the unit powers it lists has exactly the target dimension, and then the value is the number times the product of unit factors raised to their exponents; unknown symbols, malformed numbers and malformed exponents are rejected; a plain number is accepted exactly for dimensionless targets.", "quantifier": "all strings, all dimensions", "why_tests_cant": "all strings", "anchors": ["crates/diman_unit_system/src/codegen/serde.rs: read_unit_str, read_single_unit_str, visit_str, visit_f64, visit_i64"]}
{"id": "C51", "title": "The order of unit factors in text does not matter", "statement": "Permuting the unit terms of the text form does not change whether it is accepted, the dimension, or (over the reals) the value.", "quantifier": "all strings of any number of terms", "why_tests_cant": "n! permutations", "anchors": ["crates/diman_unit_system/src/codegen/serde.rs: read_unit_str"]}
{"id": "C52", "title": "Vector text form is strict", "statement": "A string is accepted for a vector quantity only if it is a parenthesised list of exactly as many numbers as the vector has components followed by a unit of its dimension.", "quantifier": "all strings", "why_tests_cant": "all strings", "anchors": ["crates/diman_unit_system/src/codegen/serde.rs: vector visit_str"]}
{"id": "C53", "title": "Products and quotients in definitions associate to the left and juxtaposition multiplies", "statement": "a * b / c d means ((a*b)/c)*d; parentheses group; ^ binds tighter than * and /.", "quantifier": "all expressions of any length and depth", "why_tests_cant": "unbounded expressions", "anchors": ["crates/diman_unit_system/src/parse/mod.rs: Expr::parse, Operator::parse, Factor::parse"]}
{"id": "C54", "title": "The definition grammar is unambiguous and the parser implements it", "statement": "For every token sequence the parser accepts exactly the sentences of the expression grammar and returns its unique syntax tree; printing a tree and parsing it gives the tree back.", "quantifier": "all token sequences", "why_tests_cant": "unbounded token sequences", "anchors": ["crates/diman_unit_system/src/parse/mod.rs"]}
{"id": "C55", "title": "Only 1 may appear as a number in dimension definitions", "statement": "A dimension definition that contains, at any depth, a numeric factor whose value as a double is not 1 is rejected with an error; in particular every integer other than 1 and every decimal differing from 1 by more than 2^-53.", "quantifier": "all dimension definitions", "why_tests_cant": "all literals", "anchors": ["crates/diman_unit_system/src/parse/mod.rs: Number::as_one, One, DimensionFactor"]}
{"id": "C56", "title": "Unit attributes are handled completely", "statement": "A unit statement is accepted only if it has either one base attribute and no expression, or no base attribute and an expression, at most one symbol and at most one metric_prefixes attribute, and no unknown attribute; aliases and prefixes of repeated attributes accumulate in order.", "quantifier": "all attribute lists", "why_tests_cant": "unbounded attribute lists", "anchors": ["crates/diman_unit_system/src/parse/mod.rs: UnitTemplate::parse_with_attributes", "crates/diman_unit_system/src/parse/attributes.rs"]}
{"id": "C57", "title": "Attributes on other statements are rejected", "statement": "An attribute written on a dimension, constant or type statement is reported as an error rather than ignored.", "quantifier": "all statements", "why_tests_cant": "all attributes", "anchors": ["crates/diman_unit_system/src/parse/mod.rs: Entry::parse", "crates/diman_unit_system/src/parse/attributes.rs"]}
{"id": "C58", "title": "Base dimension field names", "statement": "The field name of a base dimension is the snake case form of its name: lower case with an underscore before every upper-case letter but the first position.", "quantifier": "all identifiers", "why_tests_cant": "all strings", "anchors": ["crates/diman_unit_system/src/types/base_dimension.rs: str_to_snakecase"]}
{"id": "C59", "title": "Different base dimensions get different fields", "statement": "Two base dimensions with different names have different exponent fields.", "quantifier": "all pairs of identifiers", "why_tests_cant": "all pairs", "anchors": ["crates/diman_unit_system/src/types/base_dimension.rs", "crates/diman_unit_system/src/codegen/dimension_type.rs"]}
{"id": "C60", "title": "Generated dimension values are the resolved ones", "statement": "The dimension literal generated for a dimension, unit or constant is a valid struct expression (each field once, remaining fields zero) and denotes exactly the resolved exponents.", "quantifier": "all resolved dimensions", "why_tests_cant": "all systems", "anchors": ["crates/diman_unit_system/src/codegen/dimensions.rs: get_dimension_expr", "crates/diman_unit_system/src/codegen/dimension_type.rs"]}
{"id": "C61", "title": "Vector operations have the right dimension and components", "statement": "Components, new, setters, length, distance, distance_squared, normalize and dot of vector quantities have the dimensions D, D, D, D, D, 2D, 0 and D+D', and their stored values are the componentwise or Euclidean values of the stored vectors; component access inverts construction.", "quantifier": "all vectors of 2 or 3 components, all dimensions", "why_tests_cant": "all values", "anchors": ["crates/diman_unit_system/src/codegen/vector_methods.rs"]}
{"id": "C62", "title": "Random sampling keeps the dimension", "statement": "Uniform sampling of quantities takes bounds of one dimension and returns a quantity of that dimension whose stored value is the raw sample for the raw bounds; no other dimension can be sampled from those bounds.", "quantifier": "all bounds and random sources", "why_tests_cant": "all random streams", "anchors": ["crates/diman_unit_system/src/codegen/rand.rs"]}
{"id": "C63", "title": "HDF5 and MPI see quantities as their raw numbers", "statement": "The HDF5 type descriptor and MPI datatype of a quantity are those of its storage type (float of 4 or 8 bytes, array of n floats for vectors), whatever its dimension, so the byte layout agrees with the storage type.", "quantifier": "all dimensions and storage types", "why_tests_cant": "all types", "anchors": ["crates/diman_unit_system/src/codegen/hdf5.rs", "crates/diman_unit_system/src/codegen/mpi.rs", "crates/diman_unit_system/src/codegen/storage_types.rs"]}
{"id": "C64", "title": "The SI system is accepted and its annotations are exactly true", "statement": "The bundled SI definition expands without diagnostics, every annotated unit and constant has exactly the annotated dimension, and the prefixed units of the base units have the expected powers of ten.", "quantifier": "all statements of the bundled SI system (including all prefix and alias expansions)", "why_tests_cant": "the conjunction over all expanded units with exact f64 factors is not asserted by tests", "anchors": ["src/si.rs", "crates/diman_unit_system/src/parse/mod.rs", "crates/diman_unit_system/src/resolve/mod.rs"]}
{"id": "C65", "title": "Diagnostics and dimensions do not depend on the machine running the compiler", "statement": "For one unit_system! text, whatever results the compiling machine's powi/powf functions give, the macro emits the same diagnostics, and every name gets the same dimension, symbol and set of units; only factors of powers can differ.", "quantifier": "all unit systems, all power functions, both exponent builds", "why_tests_cant": "tests run on one platform", "anchors": ["crates/diman_unit_system/src/resolve/ident_storage.rs", "crates/diman_unit_system/src/dimension_math.rs", "crates/diman_lib/src/magnitude.rs"]}
{"id": "C66", "title": "Every SI unit's factor is accurate to 2^-51", "statement": "For every unit, alias, prefixed unit and constant of the bundled SI system the generated factor differs from the exact rational value stated by its definition by a relative error of at most 2^-51 (the litre, for example, is off by one unit in the last place).", "quantifier": "all 1167 generated units and the constant of the SI system, every powf, both known powi implementations", "why_tests_cant": "no exact oracle in the test suite; tests use tolerances on a few units", "anchors": ["src/si.rs", "crates/diman_lib/src/magnitude.rs", "crates/diman_unit_system/src/types/prefixes.rs"]}
{"id": "C67", "title": "An overflowing exponent is caught in every build profile", "statement": "If an operation on dimensions would leave the 64-bit range of an exponent, the program is rejected at compile time whatever the build profile (debug or release).", "quantifier": "all exponent vectors, all dimension operations, both overflow-check settings", "why_tests_cant": "concerns the extreme values of 64-bit exponents and a compiler setting; the repository's tests use small exponents in one profile", "anchors": ["crates/diman_unit_system/src/codegen/dimension_type.rs"]}
{"id": "C68", "title": "A rational exponent means the fraction written", "statement": "With rational exponents, `X^(a/b)` stands for the power a/b of X for every pair of 64-bit integers with b non-zero, and an exponent with denominator zero is rejected.", "quantifier": "all numerators and denominators", "why_tests_cant": "all integer pairs; the repository tests a few fractions and no zero denominator", "anchors": ["crates/diman_unit_system/src/parse/mod.rs: Exponent", "crates/diman_lib/src/ratio.rs: Ratio::new"]}
{"id": "C69", "title": "An erroneous unit is reported once", "statement": "A wrong definition or annotation of a unit is reported once per statement the user wrote, however many prefixed and aliased units are generated from it.", "quantifier": "all unit systems with distinct names, all prefix and alias attributes", "why_tests_cant": "one compile-fail test with one undefined name; the property ranges over every error kind and every combination of attributes", "anchors": ["crates/diman_unit_system/src/resolve/ident_storage.rs: filter_autogenerated_invalid, check_type_annotations, resolve", "crates/diman_unit_system/src/types/mod.rs: UnitTemplate::expand"]}
{"id": "C70", "title": "An accepted system generates code whose names resolve", "statement": "When unit_system! accepts a file without an error, the names in the code it generates are valid Rust: no name is defined twice in a module, every import and every mentioned name is found and means the intended item, struct fields are distinct and no generated identifier is a keyword. In particular quantity_type and dimension_type may be given any names.", "quantifier": "all files the parser and the resolver accept, both exponent builds, all feature combinations", "why_tests_cant": "all repository tests and examples use the type names Quantity and Dimension and ordinary unit names; the property ranges over every choice of names", "anchors": ["crates/diman_unit_system/src/codegen/mod.rs: code_gen", "crates/diman_unit_system/src/codegen/units_and_constants.rs: gen_units_and_constants", "crates/diman_unit_system/src/codegen/dimensions.rs", "crates/diman_unit_system/src/dimension_math.rs: BaseDimension"]}
{"id": "C71", "title": "Unit factors of every accepted system are accurate", "statement": "In every accepted system (integer or rational exponents; unit definitions with whole exponents), the factor of each unit and constant is finite and equals the exact value of its definition up to a relative error of 2*c*2^-53, where c counts the roundings its definition asks for (one per written number, product or quotient; none for aliases, two for a prefix; 2|z| for a power z, whose operand counts |z| times), as long as no value on the way leaves the range 2^-900..2^900.", "quantifier": "all files the parser and resolver accept, with integer or rational exponents, all units, constants, aliases and prefixed units, any power function with the stated accuracy, among them both known implementations of powi", "why_tests_cant": "the tests compare a few factors of two systems; the bound is over all expressions and all numbers", "anchors": ["crates/diman_unit_system/src/resolve/ident_storage.rs: resolve", "crates/diman_lib/src/dimension_exponent.rs: float_pow", "crates/diman_unit_system/src/types/expression.rs: eval", "crates/diman_unit_system/src/types/mod.rs: UnitTemplate::expand"]}
{"id": "C72", "title": "Unit conversion is accurate", "statement": "Storing a number in one unit and reading it in another (u1.new(x).value_in(u2)) gives x*u1/u2, computed exactly from the definitions in the file, up to the roundings of the two factors plus two more; in single precision up to 12*2^-24. For any two units of the bundled SI system the relative error in double precision is at most 24*2^-53.", "quantifier": "all accepted files, all pairs of units, aliases, prefixed units and constants, all finite numbers whose results are neither huge nor tiny, f32 and f64", "why_tests_cant": "the tests convert a handful of numbers between a handful of units", "anchors": ["crates/diman_unit_system/src/codegen/unit_type.rs: new", "crates/diman_unit_system/src/codegen/quantity_type.rs: value_in", "crates/diman_unit_system/src/codegen/units_and_constants.rs", "crates/diman_lib/src/magnitude.rs"]}
{"id": "C73", "title": "The definitions of an accepted file have exactly one exact meaning", "statement": "Read as equations between rational numbers, the unit and constant definitions of an accepted file (aliases and prefixes included) have exactly one solution; the output has exactly the names the text defines, each defined once.", "quantifier": "all files the parser and resolver accept, with integer or rational exponents", "why_tests_cant": "ranges over all definition graphs, orders of declaration and attribute combinations", "anchors": ["crates/diman_unit_system/src/resolve/ident_storage.rs: resolve", "crates/diman_unit_system/src/types/mod.rs: UnitTemplate::expand", "crates/diman_unit_system/src/parse"]}
{"id": "C74", "title": "Every unit has a finite, non-zero factor", "statement": "In an accepted system every unit and constant has a finite factor different from zero, so that converting into the unit and back is meaningful.", "quantifier": "all files the parser and resolver accept", "why_tests_cant": "ranges over all numbers and expressions in definitions", "anchors": ["crates/diman_unit_system/src/resolve/ident_storage.rs: resolve", "crates/diman_unit_system/src/codegen/units_and_constants.rs: get_magnitude_expr", "crates/diman_lib/src/magnitude.rs"]}
{"id": "C75", "title": "Adding statements changes nothing that is already there", "statement": "If a file is accepted and remains accepted after statements are inserted anywhere in it, then every dimension, unit and constant of the first system is one of the second, with the same dimension, factor, symbol and base flag: extending a unit system never changes the meaning of what it already defines.", "quantifier": "all pairs of accepted files of which the first's statements are among the second's, in any order, both exponent modes", "why_tests_cant": "ranges over all files and all extensions of them; resolution order depends on the whole file", "anchors": ["crates/diman_unit_system/src/resolve/ident_storage.rs: resolve", "crates/diman_unit_system/src/resolve/mod.rs: resolve"]}
{"id": "C76", "title": "The rational-dimensions build supports a superset", "statement": "Whatever is possible with integer exponents is possible with the rational-dimensions feature: every text of a unit system that runs through the macro with integer exponents also runs through it with rational exponents, gives the same diagnostics, names, symbols, base units and exponents (z becomes z/1), and the same conversion factors where powf agrees with powi; and every operator expression and method call that compiles on its quantities compiles there too, with the corresponding result type.", "quantifier": "all token sequences, all platforms' powi and powf, all operators, methods, storage types and dimensions", "why_tests_cant": "compares two builds of the library on all files and all programs; the test suite is run with one of them at a time and on fixed systems", "anchors": ["src/lib.rs: Rational dimensions", "crates/diman_lib/src/ratio.rs: Ratio", "crates/diman_unit_system/src/types/mod.rs: Exponent", "crates/diman_unit_system/src/codegen/dimension_type.rs", "crates/diman_unit_system/src/parse/mod.rs: Exponent"]}
{"id": "C77", "title": "Cargo features turn on exactly what they are documented to", "statement": "For every selection of diman's features: a storage type is available exactly if one of its features is selected (f32: f32, glam-vec2, glam-vec3 or default; f64: f64, glam-dvec2, glam-dvec3 or default; each vector type its own feature) and a vector type never without its component type; the math functions exist exactly with std, libm or default; exponents are rational exactly with rational-dimensions; the macro, the crate and the two copies of the support library agree on the features; and every selection with std or libm where rational-dimensions requires it builds.", "quantifier": "all subsets of the declared features (2^16), with Cargo's closure of implied features", "why_tests_cant": "CI builds six selections of more than 65000", "anchors": ["Cargo.toml: features", "crates/diman_unit_system/Cargo.toml: features", "crates/diman_lib/Cargo.toml: features", "crates/diman_unit_system/src/codegen/storage_types.rs: vector_types, float_types", "crates/diman_unit_system/src/codegen/float_methods.rs", "crates/diman_unit_system/src/codegen/serde.rs", "src/lib.rs", "crates/diman_lib/src/lib.rs"]}
{"id": "C78", "title": "Any self-contained part of an accepted system is accepted and means the same", "statement": "Remove any statements from an accepted file (and reorder the others): the rest is accepted exactly if it is self-contained, that is, still has a quantity type and a dimension type and everything its definitions and annotations refer to is still declared; and then its dimensions, units and constants are exactly those of the original that it declares, with the same exponents, factors, symbols and base flags.", "quantifier": "all accepted files, all ways to split and reorder their statements, both exponent modes", "why_tests_cant": "ranges over all files and all 2^n subsets of their statements; resolution order and every check depend on the whole file", "anchors": ["crates/diman_unit_system/src/resolve/mod.rs: resolve", "crates/diman_unit_system/src/resolve/ident_storage.rs: resolve, filter_undefined, filter_multiply_defined"]}
{"id": "C79", "title": "A computation over quantities gives what exact arithmetic gives, up to a stated rounding error", "statement": "For every accepted file, and every expression or loop over quantities (new, value_in, products and quotients of units, + - * /, sums, abs, powers, sqrt, min, max, clamp, tests, comparisons, branches, and all of these and the vector methods dot, length, distance, normalize, getters and setters on vector quantities): if a running error bound can be established for it (n roundings of a size s, where s is the exact result itself if nothing cancels), then the code runs to the end on floats, its result is finite and differs from the result over exact numbers and exact unit values by at most 2 n u s, and tests and comparisons whose two sides differ by more than their errors come out as they do exactly. For a vector this holds of every component. In particular adding or comparing quantities given in different units, or taking the scalar product of vectors in different units, is accurate. In f64 and in f32; for the bundled SI system with five roundings per unit.", "quantifier": "all accepted files, all programs, all finite inputs, both float types", "why_tests_cant": "ranges over all systems, expressions, loop counts and floats; rounding errors of the factors computed by the macro and of the program add up", "anchors": ["crates/diman_unit_system/src/codegen/unit_type.rs", "crates/diman_unit_system/src/codegen/generic_methods.rs", "crates/diman_unit_system/src/codegen/float_methods.rs", "crates/diman_unit_system/src/codegen/storage_types.rs", "crates/diman_lib/src/magnitude.rs"]}
{"id": "C80", "title": "Operations on quantities do not panic, except clamp with bad bounds", "statement": "Every program over quantities (units, operators, sums, scalar and vector methods, comparisons, branches, loops) that the compiler accepts runs to the end on all floats, including NaN, infinities and zero, and its result has the storage type the compiler gave it; the only call that can panic is clamp (with min > max or NaN bounds).", "quantifier": "all programs, all systems, all values, both exponent modes, all storage types", "why_tests_cant": "ranges over all well-typed programs and all float values", "anchors": ["crates/diman_unit_system/src/codegen/unit_type.rs", "crates/diman_unit_system/src/codegen/quantity_type.rs", "crates/diman_unit_system/src/codegen/generic_methods.rs", "crates/diman_unit_system/src/codegen/float_methods.rs", "crates/diman_unit_system/src/codegen/vector_methods.rs", "crates/diman_unit_system/src/codegen/num_traits/operator_trait.rs"]}
{"id": "C81", "title": "The same physics in two unit systems", "statement": "Take two accepted unit_system! files that agree about how large the units are relative to each other, but may choose different base units (meters or inches, SI or CGS). A program that compiles against both, takes plain numbers or vectors of them, may use any units and constants both files define, converts and computes, and returns a plain number, a plain vector or a truth value, gives the same result with either system: exactly the same when factors and arithmetic are exact, and in single and double precision the same up to the sum of the two stated rounding bounds (same truth value for tests decided outside those bounds).", "quantifier": "all pairs of accepted files, all assignments of sizes, all typed programs, all finite inputs", "why_tests_cant": "ranges over all pairs of unit systems, all programs and all floats", "anchors": ["crates/diman_unit_system/src/codegen/unit_type.rs", "crates/diman_unit_system/src/codegen/units_and_constants.rs", "crates/diman_unit_system/src/codegen/quantity_type.rs", "crates/diman_unit_system/src/dimension_math.rs", "crates/diman_unit_system/src/resolve/mod.rs"]}
{"id": "C82", "title": "A dimension cannot come out of nowhere", "statement": "Whatever a program computes with quantities through the public operations (units, constants, operators, sums, scalar and vector methods, branches, loops; without the escape hatches that read or write the stored number, which C07 lists), the dimension of its result is a product of powers of the dimensions of its inputs and of the units and constants it names, or else the result is zero: exactly zero for real arithmetic, and in double and single precision with the units of an accepted file nothing but rounding errors, within the stated bound. In particular a program that names no unit and no constant and takes only numbers can produce a quantity with a dimension only if that is zero.", "quantifier": "all typed programs, all dimensions and unit tables, all inputs; for the rounding version all accepted files and all finite inputs", "why_tests_cant": "ranges over all programs and all inputs", "anchors": ["crates/diman_unit_system/src/codegen/quantity_type.rs", "crates/diman_unit_system/src/codegen/unit_type.rs", "crates/diman_unit_system/src/codegen/generic_methods.rs", "crates/diman_unit_system/src/codegen/float_methods.rs", "crates/diman_unit_system/src/codegen/vector_methods.rs", "crates/diman_unit_system/src/codegen/num_traits/operator_trait.rs", "crates/diman_unit_system/src/codegen/units_and_constants.rs"]}
{"id": "C83", "title": "What a name means depends only on its definition", "statement": "In two accepted unit_system! invocations (same exponent mode), take a set of names, closed under reference, about which both say the same: the same base dimension or dimension expression, base unit, right-hand side, or prefixed/aliased unit. Then every one of these names comes out with the same dimension and, for units and constants, the same conversion factor, bit for bit. Symbols, dimension annotations, other statements, the order of statements, and which attribute generated a name make no difference. Two accepted invocations that say the same things have the same dimensions, units and constants, and nothing comes out that was not written.", "quantifier": "all pairs of accepted source texts, all reference-closed sets of names, both exponent modes, every platform's powi", "why_tests_cant": "ranges over all pairs of unit systems and all resolution orders", "anchors": ["crates/diman_unit_system/src/resolve/mod.rs", "crates/diman_unit_system/src/resolve/ident_storage.rs", "crates/diman_unit_system/src/types/mod.rs", "crates/diman_unit_system/src/parse/mod.rs"]}
{"id": "C84", "title": "Data written before a system grows is still readable afterwards", "statement": "Let two unit systems be accepted, the second containing every statement of the first (in any order, with any further statements in between, among them new base dimensions). Whatever a program using the first system serializes, a program using the second deserializes, at the same dimension, to the same value bit for bit (NaN excluded), under the conditions of C48: the dimension has a symbol of factor one, or its exponents are integers that fit an i32. More generally this holds between any two systems when the second has all the units of the first.", "quantifier": "all pairs of accepted systems with inclusion of statements, all dimensions of the smaller one, all stored scalars and vectors, both exponent builds, every number formatter that round-trips", "why_tests_cant": "Quantifies over all pairs of unit systems and all ways of extending one; tests can only try particular versions of particular systems.", "anchors": ["crates/diman_unit_system/src/codegen/serde.rs", "crates/diman_unit_system/src/codegen/debug_trait.rs", "crates/diman_unit_system/src/resolve/mod.rs: resolve"]}
{"id": "C85", "title": "Quantities read from text are accurate", "statement": "Deserializing text such as `12.5 km^2 h^-1` or `(1 2.5 -3) km` with the units of any accepted system gives, for every component, the decimal number that is written times the exact product of the units' exact values, up to a stated number of relative roundings: one for the number, one for each product, 2|e| for a power e, and those of the units' factors |e| times. The result is finite. In single precision the error is at most 8 * 2^-24. For the bundled SI system, which is readable on every platform considered, each unit counts five roundings.", "quantifier": "all accepted source files with a rounding budget, all texts with any number of unit words whose exact values stay between 2^-900 and 2^900, both exponent builds, scalars and vectors in both precisions, all platforms whose powi is accurate (both known implementations are)", "why_tests_cant": "Ranges over all unit systems, all texts and all numbers; tests compare a few literals.", "anchors": ["crates/diman_unit_system/src/codegen/serde.rs", "crates/diman_lib/src/runtime_unit_storage.rs", "crates/diman_lib/src/magnitude.rs", "src/si.rs"]}
{"id": "C86", "title": "Every error is printed and says what it is about", "statement": "Each error found in a unit_system! call is printed as one message, in the order found; the message underlines the identifiers the error is about and its text names them; printing never panics. Errors whose messages are identical are the same error, except that base units and other units are not told apart.", "quantifier": "all source files on which the macro terminates, both exponent builds, all errors", "why_tests_cant": "Ranges over all faulty systems; the compile-fail tests compare thirteen messages.", "anchors": ["crates/diman_unit_system/src/resolve/error.rs"]}
{"id": "C87", "title": "A dimension mismatch shows the true exponents of both sides", "statement": "In a file without other kinds of mistakes, a message \"Dimension mismatch in expression.\" points to an annotation that stands in the source, and its two help lines list, in alphabetical order, the base dimensions either side is built from with exactly the exponents the annotation and the definition have; base dimensions not listed have exponent zero on both sides. The text can be read back: it determines the base dimensions and the exponents.", "quantifier": "all well-formed source files with violated annotations, both exponent builds, all dimensions", "why_tests_cant": "Ranges over all definitions and annotations; tests compare two messages.", "anchors": ["crates/diman_unit_system/src/resolve/error.rs", "crates/diman_unit_system/src/resolve/dimensions.rs"]}
{"id": "C88", "title": "Error messages are true", "statement": "What an error message of the macro asserts holds of the source file: a name reported undefined is used and declared nowhere, a name reported unresolvable is defined through a recursive definition, a name reported as multiply defined has several definitions, the kinds named are those of the declarations and the note excludes the offending kind, an annotation reported undefined names no declared dimension, a dimension mismatch is reported for differing dimensions, the base unit and symbol messages are right, and the statement suggested for a missing type name is accepted.", "quantifier": "all source files on which the macro terminates (with any number of mistakes), both exponent builds, all errors reported", "why_tests_cant": "Ranges over all faulty files and combinations of mistakes; the compile-fail tests contain one mistake each.", "anchors": ["crates/diman_unit_system/src/resolve/error.rs", "crates/diman_unit_system/src/resolve/ident_storage.rs", "crates/diman_unit_system/src/resolve/mod.rs"]}
{"id": "C89", "title": "Every expression over quantities has one type, which can be inferred", "statement": "The types of the variables determine whether an expression built from the generated operators, methods and units is accepted, and its type (raw number type and dimension), so no intermediate result needs an annotation; acceptance is decided by a procedure that computes the type bottom-up. Only `zero()` of a vector and a constant read in no particular float type need one. Turning on further float, vector or math features and declaring further units and constants changes neither acceptance nor type of an accepted expression.", "quantifier": "all expressions (of any size, with variables, loops, branches, vectors and sums), all types of variables, all unit systems and feature sets, both exponent builds", "why_tests_cant": "Ambiguity or a missing impl may appear for one combination of operator, reference kind, raw type and dimension inside an expression of any depth; tests contain finitely many expressions.", "anchors": ["crates/diman_unit_system/src/codegen/num_traits/operator_trait.rs", "crates/diman_unit_system/src/codegen/float_methods.rs", "crates/diman_unit_system/src/codegen/vector_methods.rs", "crates/diman_unit_system/src/codegen/unit_type.rs"]}
{"id": "C90", "title": "The precision of the numbers matters for nothing but rounding", "statement": "An expression over quantities written for f32 (Vec2, Vec3) is accepted exactly if the same expression written for f64 (DVec2, DVec3) is, with the same dimension, and both have the same exact value: the two versions differ only in rounding.", "quantifier": "all expressions, all types of variables, all unit systems, both exponent builds, all feature sets that contain the raw types used", "why_tests_cant": "The impls for each raw type are generated separately (storage_types.rs); the tests check a fixed list of expressions in either type.", "anchors": ["crates/diman_unit_system/src/codegen/storage_types.rs", "crates/diman_unit_system/src/codegen/num_traits/operator_trait.rs", "crates/diman_unit_system/src/codegen/float_methods.rs"]}
{"id": "C91", "title": "The macro panics exactly when the arithmetic on dimension exponents overflows", "statement": "With integer and with rational exponents, `unit_system!` panics if and only if, for the exponents over the unbounded rational numbers that solve the declarations, the arithmetic for some product, quotient or power on the right-hand side of a grounded declaration leaves the range of i64: with integers the result itself (a divisor changes its sign first), with rationals the numerators over the common denominator, that denominator, or the unreduced result - so the macro can panic although every exponent it should compute is representable. There is exactly one such solution, and if the macro does not panic it is what the macro computes. In particular it never panics with integer exponents if the absolute exponents on each right-hand side add up to less than 2^63. With rational exponents it never panics if all exponents are multiples of 1/d and the absolute exponents on each right-hand side add up to less than 2^63/d^2.", "quantifier": "all unit systems with distinct names (in any order, also with undefined or circular definitions), all exponents that fit i64 (numerator and denominator), both builds, all platforms", "why_tests_cant": "Overflow depends on the values of arbitrary exponents reached through chains of definitions of any length; the tests use small exponents only.", "anchors": ["crates/diman_unit_system/src/dimension_math.rs", "crates/diman_unit_system/src/resolve/ident_storage.rs"]}
{"id": "C92", "title": "Units never get the order of values wrong", "statement": "Whatever is multiplied by a unit or divided by one (u.new(x), x * u, u * x, q.value_in(u), q / u) with a positive finite factor, infinities included: of two results exactly one of <, == and > holds, never a NaN; if it is < or >, then the same holds of the exact products or quotients, for one unit or for two different ones; so rounding can make different values equal, but never swaps them. Converting numbers from one unit to another never reverses their order either. And if the exact values, computed from the definitions in the file, differ by more than the roundings of the two results (for the bundled SI system: by more than 44*2^-53 of their sizes), the smaller one does compare as smaller.", "quantifier": "all systems and platforms, all pairs of units, products and quotients of units, all numbers that are not NaN, f32 and f64, all six relations", "why_tests_cant": "Monotonicity of a rounded operation is a statement about all pairs of numbers and factors; the tests compare a few equal values.", "anchors": ["crates/diman_unit_system/src/codegen/unit_type.rs: new, Mul, Div", "crates/diman_unit_system/src/codegen/quantity_type.rs: value_in", "crates/diman_lib/src/magnitude.rs", "crates/diman_unit_system/src/codegen/num_traits/operator_trait.rs: PartialOrd, PartialEq"]}
{"id": "C93", "title": "Names and symbols do not matter", "statement": "If everything one accepted file says about some dimensions, units and constants, closed under reference, a second accepted file says under other names, then these come out the same: same factor for a unit or constant and its renamed counterpart, and the same exponent in corresponding base dimensions. The order of the definitions, the alphabetical order of the names (in which units are resolved and printed), symbols, annotations and everything else in the two files may differ; prefixed names and aliases may be renamed to anything that means the same. In particular, if every name and every symbol of an accepted file is replaced so that different names stay different, prefixed names follow the names of their units and fields of different base dimensions stay different, and likewise for the symbols, then the new file is accepted, everything comes out under its new name with the same factor and exponents, and nothing else comes out. If the renaming can be undone, the two files are accepted together: renaming does not make a rejected file acceptable. Units stay units with the new symbol, and base units stay base units.", "quantifier": "all pairs of accepted unit-system files, all renamings, all sets of names closed under reference, both exponent features", "why_tests_cant": "It relates all pairs of files that differ by an arbitrary renaming; dependence on names (sorting by name, snake-case collisions, look-ups) shows only for particular names.", "anchors": ["crates/diman_unit_system/src/resolve/mod.rs", "crates/diman_unit_system/src/resolve/ident_storage.rs", "crates/diman_unit_system/src/types/mod.rs: expand_templates", "crates/diman_unit_system/src/dimension_math.rs"]}
{"id": "C94", "title": "Printed text follows the symbols, not the names", "statement": "Give an accepted file new names and symbols, as in C93. Formatting a quantity with {:?} under the old names panics exactly if formatting the corresponding quantity under the new names does. If the quantity's dimension, and each base dimension in it, has at most one unit of factor one with a symbol, then both print the same text with corresponding symbols: the new symbol of the same unit, or the new symbols of the same base units with the same exponents in the same order. So if the symbols are kept, exactly the same is printed, whatever the units and dimensions are called. (With two units of factor one and the same dimension, their names decide which symbol is printed.)", "quantifier": "all accepted unit-system files, all renamings that fit them, all quantities, both exponent features", "why_tests_cant": "It relates all files and all renamings; the unit printed is the first in name order, so a dependence on names shows only for particular names.", "anchors": ["crates/diman_unit_system/src/codegen/debug_trait.rs", "crates/diman_lib/src/runtime_unit_storage.rs: get_first_unit_for_dimension", "crates/diman_unit_system/src/resolve/mod.rs"]}
{"id": "C95", "title": "Renaming units and dimensions keeps the data format", "statement": "Give the dimensions, units and constants of an accepted file new names, as in C93, and keep the symbols. Then whatever a data format hands over (a text, an integer, a float, anything else) is read the same for a quantity type before the renaming and for the corresponding one after it, for every storage type: the same stored value, the same error, or the same panic. And a quantity is written as the same text, if its dimension and the base dimensions in it each have at most one unit of factor one with a symbol.", "quantifier": "all accepted unit-system files, all renamings that fit them, all quantity types and storage types, all serialized values, both exponent features", "why_tests_cant": "It compares two generated libraries for all files, renamings and inputs; the table of units is in name order and the struct fields are derived from names, so a dependence on names shows only for particular ones.", "anchors": ["crates/diman_unit_system/src/codegen/serde.rs", "crates/diman_lib/src/runtime_unit_storage.rs: get_unit_by_symbol", "crates/diman_unit_system/src/codegen/debug_trait.rs"]}
{"id": "C96", "title": "Data stays readable when the unit system grows", "statement": "Add statements to an accepted file, anywhere and in any order, new base dimensions included, so that it is still accepted. Whatever a data format hands over that was read before as a value of a quantity type, or that panicked, is read the same for the corresponding type of the larger system (the same exponents, and zero for the new base dimensions): the same stored value, or the same panic. Only errors can change, since a text may use a symbol that was unknown. If the statements are only reordered, all outcomes are equal, errors included.", "quantifier": "all pairs of accepted unit-system files of which one contains the statements of the other, all quantity types and storage types, all serialized values, both exponent features", "why_tests_cant": "It compares two generated libraries for all files, extensions and inputs: added units change the table that is searched, and added dimensions change the struct that is compared field by field.", "anchors": ["crates/diman_unit_system/src/codegen/serde.rs", "crates/diman_lib/src/runtime_unit_storage.rs: get_unit_by_symbol", "crates/diman_lib/src/dimension_exponent.rs", "crates/diman_unit_system/src/resolve"]}
{"id": "C97", "title": "Data stays readable across the whole history of a unit system", "statement": "Let a unit system evolve through any number of accepted versions, each of which adds statements to the previous one or reorders them (new base dimensions included), or gives its dimensions, units and constants new names while keeping the symbols. Follow a quantity type through the versions. Whatever the first version read for it without an error, the last one reads the same, stored values bit for bit; and whatever the first version wrote, the last one reads back bit for bit, under the conditions of C48.", "quantifier": "all finite histories of accepted unit-system files, all quantity types and storage types, all serialized values and all stored values (NaN excluded), both exponent features, every number formatter that round-trips", "why_tests_cant": "It ranges over all histories of all unit systems; a test compares two given versions.", "anchors": ["crates/diman_unit_system/src/codegen/serde.rs", "crates/diman_unit_system/src/codegen/debug_trait.rs", "crates/diman_lib/src/runtime_unit_storage.rs: get_unit_by_symbol", "crates/diman_unit_system/src/resolve/mod.rs: resolve"]}
{"id": "C98", "title": "Adding statements does not break printing", "statement": "Add statements to an accepted file, new base dimensions included, so that it is still accepted. If a quantity could be printed (no panic for lack of a symbol), it can be printed in the larger system. It is printed as the same text, if the larger system gives its dimension no new symbol of factor one and no second one to the base dimensions in it, and keeps the base dimensions in their order.", "quantifier": "all pairs of accepted unit-system files of which one contains the statements of the other, all dimensions of the smaller one, all values, both exponent features", "why_tests_cant": "It ranges over all unit systems and all extensions; what is printed depends on the whole table of units and on the order of the fields.", "anchors": ["crates/diman_unit_system/src/codegen/debug_trait.rs", "crates/diman_unit_system/src/resolve/mod.rs: resolve"]}
{"id": "C99", "title": "Removing statements only affects data that uses what was removed", "statement": "Remove statements from an accepted file, base dimensions included, so that it is still accepted. A serialized value that the larger system reads for a quantity type (with exponent zero in the removed base dimensions) is read by the smaller one as the same stored value, provided that every unit symbol in the text is the symbol of a unit that was kept.", "quantifier": "all pairs of accepted unit-system files of which one contains the statements of the other, all quantity types of the smaller one and storage types, all serialized values, both exponent features", "why_tests_cant": "It compares two generated libraries for all files, removals and inputs; the table of units that is searched and the struct that is compared both change.", "anchors": ["crates/diman_unit_system/src/codegen/serde.rs", "crates/diman_lib/src/runtime_unit_storage.rs: get_unit_by_symbol", "crates/diman_unit_system/src/resolve/mod.rs: resolve"]}
