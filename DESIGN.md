# Formal model of diman in Rocq (Coq 8.16.1)

Source modelled: `/repo` (Tehforsch/diman, pinned commit).  Everything lives in
`rocq/theories/`.  Line numbers in comments refer to files in `/repo`.

## Shape

The library has a *compile-time* half (the `unit_system!` procedural macro: parser, resolver,
code generator) and a *generated* half (trait impls, methods, formatting, serde).  The model has
the same two halves:

* machine arithmetic: checked i64, `Ratio`, IEEE-754 binary64/32 through Flocq, `Magnitude`;
* macro: token trees -> parser -> templates -> expansion -> resolver -> resolved definitions
  (plus the list of emitted diagnostics);
* generated code: dimension arithmetic, the table of operator impls (as *data*, matched against
  operand types the way trait selection does), unit impls, methods, Debug, serde, HDF5/MPI/rand.

Compile-time failure (a panic in a const fn, an overflow with overflow checks on, a missing impl)
is an explicit error value (`None`, `Err`), never a default.

## Per property plan

| id | modelled | proof |
|---|---|---|
| C01-C06 | `iter_numeric_traits` as a list of records; trait selection = matching operand types against impl headers with a dimension variable; output computed as in `output_quantity_dimension`/`fn_return_expr` | case analysis on the (finite) table, universally quantified dimensions |
| C07 | expression language typed by the modelled impl tables, evaluated over R, rescaling of base units | induction on programs; refuted for the impls with wrong dimension/value |
| C08, C09 | generated `Dimension` methods on exponent vectors | list induction, `Z` divisibility |
| C10-C14 | `unit_type.rs` impls as a table, values over an abstract field, over R and over binary64 | algebra; Flocq error analysis; refutations for the impls that are wrong |
| C15-C18 | method tables, folds | case analysis / induction |
| C19-C22 | `UnitTemplate::expand`, prefixes | list lemmas, float rounding lemmas |
| C23-C36 | the whole `resolve` pipeline with diagnostics | least fixed point specification `Den`, invariants of the loop, permutation |
| C37-C40 | `Magnitude` on Flocq binary64 bit patterns, `powi` algorithms | Flocq |
| C41-C45 | `Ratio` with checked and wrapping i64 | gcd theory |
| C46-C52 | Debug, serde over strings, number formatting as an oracle with stated round-trip law | string lemmas |
| C53-C57 | token-tree parser with relational grammar | soundness and completeness by induction |
| C58-C60 | snake case, struct literals | string/list induction |
| C61-C63 | vector methods, rand, hdf5, mpi | case analysis |
| C64-C66 | tokens of `src/si.rs` run through the model | verified evaluators (`FastCheck`, `FastFactor`), `vm_compute` of the boolean answer |
| C67 | generated dimension arithmetic with and without overflow checks | case analysis on the checked operation, per field; witness |
| C68 | `(a/b)` exponents from tokens to the recorded ratio | gcd theory; witness for `(1/0)` |
| C69 | number of diagnostics of a run against the statements written | list induction over the expansion; witness for annotations; complete list of the reports about a well-formed system (ReportFacts.v) |
| C70 | the items, imports and mentioned names of the generated modules against Rust's name rules | list lemmas on scopes; witness files |
| C71 | the resolver's float arithmetic on every file; rounding counts per definition (`RoundingSpec`) | Flocq's relative error of each operation, powi loop invariants, well-founded induction over the definitions |
| C72 | `new` followed by `value_in` on the factors of the resolved file, both precisions | C71/C66 for the factors, relative errors of two more operations |
| C73 | the definitions of a parsed file as rational equations (`Accuracy`) | well-founded induction over the definition graph; evaluation with growing fuel; names as permutation |
| C74 | factors of a resolved file | three accepted files as witnesses; corollary of C71 |
| C75 | two resolver runs on files one of which contains the other | induction over the definition order of the smaller file, determinism of the equations |
| C76 | the two modes of the parser, resolver and type rules side by side | simulation: z ↦ z/1 commutes with every operation that succeeds on i64, lifted through parser, resolver, operator specification |
| C77 | the three manifests as a table of implied features, every `cfg` as a guard | the closure is inductive; a computed closure is proved equal to it; per-guard case analysis on the selected features |
| C78 | two resolver runs, on a file and on any part of it | well-formedness is inherited by self-contained parts; a panic of the part would be one of the whole; then as C75 |
| C79 | programs over quantities on floats (FloatPrograms.v) and a running error analysis (TrackSpec.v) | induction on the derivation of the bound: every step is a lemma on one rounding (TrackFacts.v), vectors component by component (TrackVector.v); unit factors by C71 |
| C80 | the float semantics of programs (FloatPrograms.v) and their typing (Programs.v) | progress and preservation in one induction on the typing derivation |
| C81 | sizes of units as any assignment that satisfies the definitions (IndependenceFacts.v: `sizes`); programs of C79 | the factor of a unit is its size over the product of base sizes to its dimension's exponents (induction over the definitions); then C07 for every program, and C79 twice |
| C82 | programs and typing of C07; `combined`, `units_in`, `constants_in`, `source` (OriginSpec.v) | a dimension outside the rational span of the sources is separated from them by a linear functional (Gaussian elimination by induction over the sources, OriginFacts.v); rescaling by that functional (C07) changes no input but would change the result; with C79 for floats |
| C83 | `says`, `refers`, `comes_out` (LocalSpec.v) over source files and results | what a file says about a name fixes the expression the resolver evaluates (LocalFacts.v); induction over the grounded names of one file, both evaluations agree; names are unique in accepted files |
| C84 | the serializer of one system composed with the deserializer of another (PropertiesExchange.v) | the words written name units of the first system (C48's analysis); these are units of the second (C75), their exponents in new base dimensions are zero (keys of a resolved unit come from base dimensions it is built from); then C50/C52 for the second system |
| C85 | the deserializer on text; `reading` (PropertiesReading.v) gives exact value and count of roundings of the unit words | C50_text/C52 give the float expression that is computed; induction over the words with the accuracy of factors (C71, C66 for SI) and of powers; then one rounding for the number and one for the product |
| C86 | `Messages` (error.rs: texts, underlined identifiers, notes and helps); `tells`, `same_up_to_base` (PropertiesMessages.v) | the messages of a run follow its errors one to one (MessageFacts.v); case analysis over the kinds of errors for the texts |
| C87 | the two help lines of a dimension mismatch; `dimension_text` (exponents as rationals) | the resolved dimensions are the denotations (AnnotationFacts.recorded_items); printed exponents determine the rational (C48's analysis), names contain neither `^` nor spaces |
| C88 | what each message asserts, `true_message`, over the declarations written (PropertiesMessageTruth.v); chains of definitions `leads_to`, `recursive` (MessageTruthFacts.v) | soundness of every check for arbitrary faulty files; names left unresolved form a set closed under mentioning, hence contain a cycle (pigeonhole) or lead to an undefined name; witnesses for the four exceptions |
| C89 | a type checker `infer` (Inference.v) for the programs of Programs.v | it agrees with the typing rules: soundness by induction on the program, completeness by induction on the derivation; each operator's impls are reduced to a function by OperatorFacts.compiles_iff_spec |
| C90 | `rewrite_in f p`: the program `p` with all raw types moved to the precision `f` | induction on the typing derivation; the spec of the operators and methods commutes with changing the raw type; exact evaluation ignores it |
| C91 | OverflowSpec.v: the dimension equations over the rational numbers (`solution`) and `declaration_fits`, for integer and rational exponents; `in_steps`, `declaration_weight` for the sufficient conditions (`OverflowRational.v`) | evaluation of a right-hand side either fits or panics (induction on expressions, maps of exponents as functions); the resolution loop panics iff the evaluation of a grounded item does; existence by iterating the equations to the fixed point of groundedness |
| C92 | `OrderSpec.v` (numbers with infinities), `OrderFacts.v` (what `x*f` and `x/f` round, monotone), `PropertiesOrder.v`: the comparison run as a program for all six relations; against exact factors by the rounding budget of C71 | monotone rounding as an order on reals with infinities, composed along the program |
| C93 | `RenameSpec.v` (a definition under other names), `RenameFacts.v` (evaluation commutes with renaming; exponents compared key by key), `RenameAccept.v` (the renamed system is well-formed), `RenameFile.v` (a renamed file), `PropertiesRename.v` | induction over the grounded names, simulation of the two evaluations; acceptance through the characterization of accepted systems |
| C94 | `PropertiesRenameText.v` (`fits`, `carried`, `one_symbol`; symbols of coherent units correspond, on top of C93) | the characterization of the printed text (C46) and of the panic (C47) on both sides, with uniqueness of the symbol |
| C95 | `PropertiesRenameData.v` (`rows`: two dimension structs that agree field by field under the renaming) | simulation of the two readers: every struct operation preserves `rows`, the unit tables agree symbol by symbol; writing through C94 |
| C96 | `PropertiesGrowth.v` (`ext`: the same exponents, and zero in the new fields) | simulation of the two readers: every struct operation preserves `ext`, panics included (zero and zero cannot overflow); the larger table contains the units of the smaller one by C75 |
| C97 | `PropertiesHistory.v` (`step`, `history`: inductive, any number of versions) | induction over the history; extension steps by C96, renaming steps by C95; writing by C48 |
| C98 | `PropertiesGrowthText.v` (`same_exponents`: the same exponents, and zero in the new fields) | symbols of the smaller system are symbols of the larger one (C75); then C46_text and C47_exactly on both sides |
| C99 | `PropertiesShrink.v` (`uses_only`) | the simulation of C96 read backwards: a text of known words is not rejected (read_Err), and outcomes that are not errors agree |

Properties the code violates are recorded by `_refuted` theorems (a concrete witness) together
with the strongest true `_partial` statement.

## Where things are

| layer | model (mirrors the code) | specification (independent of it) | theorems |
|---|---|---|---|
| machine numbers | `MachineInt`, `F64`, `FloatOps`, `Raw` | reals `R` through Flocq | `FloatFacts`, `FloatAccuracy` |
| exponents, factors | `Ratio`, `Magnitude`, `Exponent` | `Q`, `R` | `PropertiesNumeric` |
| macro: parser | `Parse` | `Grammar` (relational, printed form) | `PropertiesParse` |
| macro: templates and resolver | `Types`, `Expression`, `DimensionMath`, `Snake`, `Resolve` | `PrefixSpec`, `ExpansionSpec`, `SystemSpec` (denotation as least fixed point, well-formedness), `Accuracy` (exact rational solution) | `PropertiesSystem`, `PropertiesExponents`, `PropertiesReports`, `PropertiesSources`, `PropertiesSI` |
| generated modules | `CodegenModules` (items, imports, mentioned names) | `NamesSpec` (Rust's name rules) | `PropertiesModules` |
| accuracy of factors | `Platform` (powi implementations), `FloatOps`, `Resolve` | `Accuracy` (exact values), `RoundingSpec` (counts) | `PropertiesSI`, `PropertiesAccuracy`, `PropertiesConversion`, `PropertiesExact` |
| extension and parts of a file | `Resolve`, `Parse` | `incl`/`Permutation` of statements, `self_contained` (RemovalFacts) | `PropertiesExtension`, `PropertiesRemoval` |
| the two builds | `Parse`, `Resolve`, `CodegenDimension`, `Operators` | `Simulation` (maps between the modes), `OperatorSpec` | `PropertiesSuperset` |
| Cargo features | `Features` | `on` (Cargo's closure), `gate` | `PropertiesFeatures` |
| generated dimension type | `CodegenDimension` | exponent vectors `string -> Q` | `PropertiesDimension` |
| generated operators | `Storage`, `Operators` | `OperatorSpec` | `PropertiesOperators` |
| generated units, methods | `UnitOps`, `FloatMethods`, `Vector` | real arithmetic, exponent vectors | `PropertiesUnits`, `PropertiesMethods`, `PropertiesVector` |
| whole programs | `Programs`, `Inference` (type checker) | `Equivariance` (change of base units), `InferenceFacts` | `PropertiesEquivariance`, `PropertiesInference` |
| the repository's tests run on the model | `Sources`, `Conformance` | | `PropertiesSources` (examples only) |
| text | `Text`, `Debug`, `Serde` | `NumberFormat`, relational readings in the property files | `PropertiesDebug`, `PropertiesSerde`, `PropertiesRoundTrip` |
| interoperability | `Interop` | raw number layouts | `PropertiesInterop` |
| repository's own systems | `Sources` (token streams of `src/si.rs` and of the tests), `SiTree` | `SiTree.si_file` | `PropertiesSources`, `PropertiesSI` |

`FastCheck`/`FastFactor` are verified evaluators (reflection): they decide acceptance and factor
accuracy of a large closed system; their soundness theorems are proved in general, and only the
boolean answer for `src/si.rs` is computed by the kernel.

Every theorem is followed by `Print Assumptions`, and by an `Example` showing that its hypotheses
are met by a non-trivial case.

## Trusted base

1. **Coq 8.16.1's kernel**, including its `vm_compute` conversion (used in examples, in the
   refutation witnesses and for `C64`, `C65`, `C66`).  `native_compute` is not used, nor are plugins, kernel switches,
   functors, module types or own axioms.
2. **Axioms** (all from Coq's standard library), as printed by `Print Assumptions`:
   * `ClassicalDedekindReals.sig_forall_dec`, `ClassicalDedekindReals.sig_not_dec` (the reals),
   * `FunctionalExtensionality.functional_extensionality_dep`,
   * `Classical_Prop.classic` (Flocq's rounding lemmas).

   * `sig_forall_dec` and `functional_extensionality_dep`: `C12_order`, `C17_rescaling`, `C71_budget_is_exact`
   * closed under the global context (no axiom): `C20_prefixes_distinct`, `C22_metric_prefixes`, `C41_exact`, `C41_type_equality`, `C41_defined`, `C42_refuted`, `C42_partial`, `C43_refuted`, `C43_actual`, `C44_integer_exponents`, `C44_ratio_exponents`, `C54_unique_tree`, `C58_field_name`, `C58_letters`, `C59_collision_refuted`, `C59_camel_case_partial`, `C06_no_duplicates`, `C17_min_max_nan`, `C18_fold`, `C62_typing`, `C62_value`, `C62_dimension`, `C63_hdf5`, `C63_mpi`, `C63_any_dimension`, `C77_closure`, `C77_components`, `C77_mode`, `C77_agreement`, `C77_builds_exactly`, `C77_refuted`, `C42_exactly`, `C59_exactly`, `C53_eval_chain`, `C87_readable`
   * all four: the remaining 291 theorems

   The checker's list also shows the opaque fields of the standard library's modules
   `Rdefinitions.RbaseSymbolsImpl`, `RinvImpl` and `ssr.ssrunder.Under_rel`; they are defined
   there, not assumed, and appear because the reals are sealed behind a signature.
3. **The reading of Rust and of its libraries** built into the model (nothing here is in `/repo`):
   * `i64` arithmetic panics on overflow with overflow checks and wraps without; const evaluation
     follows the profile (`MachineInt`);
   * `f32`/`f64` are IEEE binary32/binary64, round to nearest even (Flocq); `as` casts likewise.
     NaN payloads are not claimed anywhere;
   * `f64::powi` is an argument of the model (`fenv`).  Theorems assume `good_platform` (powers of
     two exact down to `2^lo`, zero below) and both algorithms in use, compiler-rt's and
     num-traits', are modelled and proved to meet it; `powf` and all transcendental functions are
     arbitrary functions;
   * trait selection: an impl applies iff its header unifies with the operand types and its where
     clauses hold; coherence for quantities nested in quantities is left to rustc (it would reject
     the generated impls, not select the wrong one);
   * token trees, `syn`'s `Ident`, `Lit`, `parse_terminated`, custom keywords and its "unconsumed
     tokens" error (`Parse`);
   * `str::trim`, `split`, `split_whitespace`, `find`, number parsing (`Text`); float `Display` is
     an arbitrary function that reads back to the same value (`NumberFormat.number_format`, shown
     satisfiable by `exact_format`);
   * glam 0.24's scalar algorithms for `dot`, `length`, `distance`, `normalize`, `min`, `max`
     (`Vector`); `f32::min`/`max` are any functions with core's documented contract;
   * rand's `UniformSampler`, the hdf5 and mpi crates: abstract interfaces (`Interop`).
4. **Transcription**: `Sources.v` was produced from the files in `/repo` by `tools_tokenize.py`
   (token streams, no interpretation).

## Modelled and not modelled

Modelled, function by function, with file and line numbers at each definition:
`diman_lib/src/{magnitude,ratio,dimension_exponent,runtime_unit_storage}.rs`;
`diman_unit_system/src/{lib,dimension_math}.rs`, `parse/{mod,attributes}.rs`,
`types/{mod,expression,prefixes,base_dimension}.rs`, `resolve/{mod,ident_storage,error}.rs` (which
messages are emitted, their texts, notes and helps, and the identifiers they underline), `codegen/{dimension_type,dimensions,quantity_type,storage_types,
float_methods,generic_methods,vector_methods,unit_type,units_and_constants,debug_trait,serde,rand,
hdf5,mpi}.rs`, `codegen/num_traits/{mod,operator_trait}.rs`; the unit systems of `src/si.rs`,
`tests/*`, `compile_fail/*`.

Not modelled: spans (a position is the identifier underlined); syn's syntax error texts; the entry point
`unit_system_internal` (with rational-dimensions it would emit `prefix::::ratio`, dimension_type.rs:174-175;
used inside the crate only); documentation comments; `quote`'s token output as such
(the impls are modelled as data, not as Rust source; of `codegen/mod.rs` the items, modules and
imports, `CodegenModules`); raw identifiers and macro-generated invisible groups in the input; `Copy`/`Clone`
derives; `as_ref`-style conversions; floating point exceptions; the release of memory.

Simplifications, each repeated at the definition it concerns: hash maps are sorted association lists
where iteration order does not matter (proved: `DimensionMathFacts.bd_mul_order`, `C36`) and
insertion-ordered where it only affects the order of messages; loops carry fuel that is proved
sufficient (`ResolveFacts`, `ParseFacts`, `RatioFacts.gcd_loop_enough`); C07 runs programs on exact
reals (rounding is bounded separately for each operation).

## Findings about the code

Each is a machine-checked counterexample or an exact description:

| property | what the code does |
|---|---|
| C11 | `number / unit` has the unit's dimension instead of its inverse; `unit / quantity` computes `q / F` |
| C14 | `value_in` accepts a unit of any dimension |
| C31, C32 | annotations are compared one-sidedly: `unit a: Dimensionless = meter` is accepted, `unit radian: Angle = 1` rejected after `dimension Angle = Length / Length`; the exact condition is C31_C32_exactly |
| C38 | subnormal factors (and, with compiler-rt's `powi`, factors below 2^-971) become zero |
| C42, C43 | `Ratio::new` keeps negative denominators; `Ratio::powi` returns the ratio itself |
| C45 | factors use the exponent modulo 2^32, dimensions all 64 bits |
| C47 | a base dimension without base unit is accepted, and formatting then panics |
| C48, C49 | exponents outside `i32` and fractional exponents are written but cannot be read |
| C50, C67 | without overflow checks dimension exponents wrap silently |
| C51 | whether reading text panics on exponent overflow depends on the order of units |
| C52 | text before the bracket of a vector is ignored |
| C54 | powers of parentheses, `(a b)^2`, are not in the grammar |
| C55 | decimals that round to 1 are accepted in dimension definitions |
| C57 | attributes without arguments are ignored on non-unit statements |
| C59 | `AB` and `A_b` need the same field (always a compile error, never a silent merge) |
| C61 | `new_x(inf)` has NaN components |
| C68 | the exponent `(1/0)` is accepted, and `Length^(1/0) * Length = Length^(1/0)` |
| C69 | a violated annotation is reported once per generated variant (17 times with `#[metric_prefixes]`) |
| C70 | `quantity_type`/`dimension_type` under any other name than `Quantity`/`Dimension`, a base dimension such as `Type` (field `type`), a dimension `Exponent`, a unit `Unit`: accepted, but the generated code does not compile |
| C74 | `0 * meter`, `1e200 * 1e200 * meter`, `1e-200 * 1e-200 * meter`: accepted silently with factor 0, infinity and 0 |
| C76 | Length^-1 / Length^-9223372036854775808 compiles with integer exponents, not with rational-dimensions (`Ratio::sub` negates first) |
| C77 | the SI system with `serde` (or `hdf5` and a vector type) does not build without `std`: the generated code uses `std::`, `format!`, `Vec`, `Box` |
| C88 | `unit x = z; unit y = x;` says "Remove recursive definitions." about `y`; `dimension A = A; unit x: A = 1;` says "Undefined dimension A"; `unit foot: meter;` (base unit) is told that units can only be defined in terms of units; `unit radian: Angle = 1` is a mismatch of `length^0` and `length^0`; the suggested `quantity type Quantity;` and `dimension type Dimension;` are syntax errors (the keywords have underscores) |
| C66 | `liter` is one ulp above the double nearest to 10^-3 |
