# Formal model of dmitryikh/leaves in Rocq (Coq 8.16.1)

Sections 1-3 were written before the proofs.  Sections 4-8 (what is modelled, trusted
base, findings, conformance, wrong programs) are kept current as the development grows.

## 1. How the code is modelled

* **Values.** `float64` is the standard library's executable IEEE-754
  specification (`SpecFloat.spec_float` at precision 53, emax 1024), so `+ * /`,
  comparisons, NaN, infinities and signed zeros are concrete.  Go `int`,
  `uint32`, `int32`, `uint8` are `Z` with the wrap written explicitly wherever the
  code converts or can overflow.  Strings and byte slices are `list byte`.
* **Outcomes.** Every function returns `outcome A = Ok | Err | Panic | Hang`:
  Go error values, run-time panics (index out of range, nil map, division by
  zero, negative make) and non-termination are separate, visible results.
* **Memory.** A function that writes through the `predictions` slice is modelled as
  the list of elementary commands it performs (`p[i] = v`, `p[i] += v`,
  `p[i] *= v`, panic, hang) in program order; sequential execution folds them over
  the slice, the concurrent model interleaves them between goroutines at the
  granularity of single loads and stores.  Slices whose aliasing matters (JSON
  loader's pointers into `t.nodes`, pickle lists and dicts) are modelled
  with an explicit backing store.
* **Platform.** What Go leaves to the platform or to packages outside the
  repository is a field of a record `platform` over which every theorem
  quantifies: float to integer conversion out of range, `math.Exp`,
  `GOMAXPROCS`, `strconv.ParseFloat`, float printing, slice growth, allocation limit.
  Nothing is an axiom.
* **Loops** become structural recursion or recursion on fuel; running out of fuel is
  `Hang`, and theorems show that it is never reached (loaders) or that it means
  genuine non-termination (tree traversal).

## 2. Layout

| layer | files |
|---|---|
| Go primitives | `Go.v`, `GoFloat.v`, `GoText.v` |
| model | one file per Go file group (see section 4) |
| independent specifications | `Spec_*.v` |
| proofs | `Pf_*.v` |
| property theorems | `Prop_*.v`, each followed by `Print Assumptions` |
| concrete cases and refutations | `Ex_*.v`, `Demo*.v` |

## 3. Plan per property

| id | modelled | proof |
|---|---|---|
| C01,C02 | small-step machine: spawning main goroutine, unbuffered channel, workers with private buffers, WaitGroup, loads/stores on the shared slice | invariant over all reachable states; final memory = sequential fold |
| C03 | same machine | well-founded measure + no stuck state |
| C04 | same machine | invariant: row windows disjoint |
| C05-C09 | `Predict`, `PredictDense`, `PredictCSR` as written | frame/determinacy lemmas on command lists |
| C10-C14 | `adjustNEstimators`, `predictInner` of the three model kinds | induction on the estimator loop, compared with a closed-form fold |
| C15,C16 | `predictLeafIndicesInner`, `NLeaves` | as above + leaf range lemma on well formed trees |
| C17,C18 | `PredictSingle`, view constructors (nested wrappers as in Go) | induction on wrapper chains |
| C19,C20 | `Sigmoid`, softmax on IEEE floats, `exp` a platform function | Flocq rounding monotonicity; relative errors of the sum, the inverse and the product (`Prop_Softmax.v`) |
| C21,C22 | `predictInnerAndTransform`, names | case analysis, refutation witnesses |
| C23,C24 | decisions, bit sets | case analysis, bit lemmas; platform dependence refuted by two platforms |
| C25-C27 | bit tricks on uint32 | bit-level proof, all 2^32 words |
| C28-C30, C38, C46, C52 | stack based loaders, one generic loop with three instances | simulation of the iterative loop by structural recursion over an inductive reference tree |
| C31-C33 | text loader header, objective parsing | inversion |
| C34,C35,C57 | JSON loader on a JSON AST with explicit slice reallocation | the stack loop lays out the same nodes as the generic builder as long as the slice is not moved (structural induction); moved slices are refutation witnesses |
| C36,C37,C39,C40 | byte level reader | round trip with an independently written encoder; prefix lemma |
| C41 | `NFeatures` | refutation + positive bound |
| C42-C45 | pickle machine with heap | round trip by induction on objects |
| C47 | sklearn loader | fold over estimators |
| C48-C50 | matrices, text readers | round trip, shape invariant |
| C51 | comparators | case analysis, refutation for NaN |
| C53 | batch arithmetic incl. floating point ceil | arithmetic |
| C54 | raw view against transformed model | execution of command lists |
| C55 | `Predict` on a longer vector | monotonicity of command lists in their operands |
| C58 | WriteStr on a device with a script of failures, `bufio.Writer`, ToCsvFile | invariant: device + buffer = text so far |
| C59 | transformations on IEEE floats | monotonicity of rounded addition and division |
| C60 | the score formulas of C11-C14 over the reals | standard model of rounding (Flocq), induction on the terms |
| C61 | program of any number of calls over one memory (Concurrent.v), machine of C01 per call | projection of every execution to each call, frame of disjoint windows, per-call step counts |
| C62 | `usable`: `well_formed`, `arity_accepted`, no leaf indices (Prop_Loaded.v) | inversion of each loader: which checks it makes on every accepted input |
| C63 | `dense_scores`, `csr_scores` (Spec_EndToEnd.v): every result of the machine of C01 against the trees of the file | loader theorems lifted through `C63_dense_from_rows`, `C63_csr_from_rows` |
| C64 | `json_text`, `utf8`, `nesting_within` (Spec_JsonText.v): RFC 8259 as an inductive grammar, UTF-8 by its bit layout | scanner of `JsonText.v` complete for the grammar and sound for its lenient form (mutual induction), stable under longer streams, which gives truncation |
| C65 | `model_like`, `column_major` (Spec_SkAccept.v): the shape an object must have, class by class | inversion of every `Reduce`/`Build` through `denotes`; corollaries for other classes and column-major arrays |
| C66 | `text_fits`, `json_fits`, `children_exist`, `sk_tree_fits` (Spec_Calm.v): no reference to anything the file does not hold | `calm` (no panic) is compositional; invariant of the conversion loop (`build_calm`): every index on the stacks is in range and the new tree has at most one node more than nodes were visited; prefixes by C29's extension lemma |
| C67 | file systems as maps from names to streams (Files.v) | by cases on whether the file opens; the readers' theorems carry over |
| C68 | io.Reader as a list of pieces, `bufio.Reader` with its buffer, the loaders over either kind of reader (Stream.v) | simulation: the buffered reader shows the remaining bytes; each loader preserves it. Streams on which bufio.Reader gives up: every stream lasts or gives up, and one that gives up is simulated by the bytes before that point followed by an error (Pf_Tired.v). The JSON decoder's own buffer is not modelled |
| C69 | any two batch calls that return | both rows equal the single prediction (C05, C06), and rows of a matrix are unique |
| C70 | any tree model, any two vectors | equal leaf indices give equal results of each tree, hence equal accumulating loops |
| C71 | `csr_holds` rows with the same cells | both matrices have the same dense rows, then C03, C06, C07, C69 |
| C72 | the loaders on a part of a file and on the file | a decoder that succeeds does not look at what follows; for LightGBM text the loops over lines are compared step by step: partial, false for the last tree |
| C73 | `blocks` that `say_the_same` about the known keys | the loader looks at a block only by `lookup` of known keys; induction over the trees |
| C74 | `same_way` down the reference trees of a file | the loaded trees do as the reference trees do (C28, C34, C38, C46), then equal tree outputs give equal calls |
| C75 | `spans`: finite bounds around the leaf values of each tree | binary64 addition is monotone (Flocq), overflow included; then induction over the sum of C11, C12, C13 |
| C76 | `Errorf` goes through the values it formats; `endless` chains of values inside values | pigeonhole over the slices and maps of the heap: the fuel is enough; invariant over the decoder's histories and over the class readers |
| C77 | one memory holding features and predictions, every read of a feature made when the code makes it (Shared.v; Transform in SharedTransform.v) | the accesses commute with taking copies as long as the cells read are not yet written; induction over accesses and rows |
| C78 | the loaders as modelled; the size of a model (Spec_Size.v) | the tree builder visits each index at most once; every array element takes bytes of its line; for pickles, invariants of the machine bound every string, stack and array by the bytes read |
| C79 | the loaders and Predict as modelled; the constraint is a predicate on reference trees (Spec_Monotone.v) | induction over a tree: at a split on the feature the two vectors part at most from left to right; sums, products with weights of one sign and the logistic function are monotone with rounding (Flocq) |
| C80 | writers of the four formats from abstract trees (Spec_Write.v and the Prop_Write*.v files; the writers are part of the proof, not of the code) | induction over the trees with a running node, leaf, set and word offset; the theorems about files (C34, C39, C47, C64 and the text loader lemmas of C01) do the loading |
| C81 | the loaders with the reader as they leave it (Sequence.v; XgIO.v for XGBoost) | every reading step takes a prefix that ends itself; closed under sequencing; induction over the instructions of a pickle, the lines of a block and the models of the stream |
| C82 | the matrix loaders as modelled, called repeatedly on one reader (Spec_Pieces.v) | induction over the rows: a text read with limit k is the first k rows, the rest is read from an empty matrix; matrices put one under the other commute with adding a row |
| C83 | the five loaders with both settings of the flag (`load_one` of Sequence.v, JSON beside it) | case analysis of the loaders: everything but the choice of transformation is the same computation, and that choice never panics or hangs; behaviour through the core of the nested ensembles (Prop_Values.v) |
| C84 | the four tree loaders on pairs of files, one with fewer trees | text: blocks that say the same, tree by tree; XGBoost: round trip of the records, prefix of the trees, weights and tree info; both then through C10; JSON and scikit-learn: through the score formulas of C34 and C47 |
| C85 (and the second half of C08) | the single-threaded calls with the contents of `predictions` kept when they stop early (Unwind.v) | the accesses up to the first that panics are a prefix of the accesses of the row loop; rows before it through the row lemmas of C05 and C06 on the shorter matrix |
| C86 | the transformations against the real functions of Spec_Probability.v; `math.Exp` is any function with relative error `eps` (`accurate_exp`) | rounding lemmas of Flocq for the last operations, a quotient-error lemma for the softmax, the mean value theorem for the slope of the logistic function; the correctly rounded exponential is defined and meets the hypotheses |
| C87 | two `platform` records side by side: `defined_splits`, `machines_alike`, `same_release`, `unless_crash` (Spec_Machine.v) | every use of the platform in a prediction is shown to be defined by Go; loading by a compositional relation "the same outcome unless the first machine panicked"; NaN at a categorical split and a negative categorical threshold are refuted |
| C88 | the three accumulation loops with a choice at each addition: `fexec`, `Predict_fused` (Fused.v), and the batch calls with their goroutines, `PredictDense_fused`, `PredictCSR_fused` (FusedBatch.v); `plain_products`, `accumulated` (Spec_Fused.v) | `ffma` is Flocq's `Bfma`; exact products make both choices round the same real number; a cell's value is traced through the command list as `accumulated`, whose error is bounded step by step; the two goroutine machines simulate each other step by step while all cells hold float64 values; two models whose score changes are the refuted theorems.  For rows of batch calls an invariant of the goroutine machine (Pf_FusedRows.v) follows the window of each row through the choices made for it, and gives freedom from races.  A second invariant and a lexicographic measure (Pf_FusedRun.v; `fused_completes` in Spec_FusedRun.v) give progress and termination.  The scikit-learn loader with every choice is FusedSk.v; a relation `same_but_leaves` (Spec_FusedSk.v) is carried through the tree construction |
| C89 | `DenseMatZero`, `DenseMatFromArray` (Mat.v) against `dense_holds` (Spec_Mat.v) | directly; the wrap-around of `rows*cols` is the refuted theorem |
| C90 | `reordered` (Spec_Reorder.v): a permutation of the estimators | the outputs of the trees are permuted alike, both scores are near the same real sum (C60); 2^53, 1, 1 in two orders is the refuted theorem |
| C91 | `renamed`, `moved` (Spec_Rename.v): the same trees with feature `f` called `r f`, and vectors that agree up to `r` at the features the trees ask for | a step of a tree depends on the vector only through the value at the node's feature; induction over the walk, then over trees and rows |
| C92 | `one_class` (Spec_OneClass.v): the one-output model made of class `k`; `table_fits`: a linear weight table a program can hold | the commands that touch a cell are a first value and then terms (`first_of`, `term_of`), the same for the class alone; success of a command list is success of each command |
| C56 | CSV reader | line by line simulation, decidability of the line format |

Not expressible in this model: wall-clock speed, memory consumption, the text of error
messages, and behaviour of the Go runtime itself.

## 4. What is modelled

| Go source | model | not modelled |
|---|---|---|
| `leaves.go` 1-307 | `Leaves.v` (sequential), `Parallel.v` (goroutines, channel, WaitGroup), `Concurrent.v` (several calls), `Shared.v` (input and output in one memory), `Unwind.v` (what a call that stops early leaves behind), `Sequence.v` (the reader as loaders leave it) | nothing; the text of error messages is abbreviated |
| `lgtree.go`, `misc.go` | `LgTree.v` | nothing |
| `lgensemble.go`, `xgensemble.go`, `xgblinear.go` | `Ensembles.v` | nothing |
| `transformation/*.go` | `Transformation.v`, `SharedTransform.v` (in place) | nothing |
| `util/util.go` | `UtilBits.v`, `UtilMath.v`, `UtilText.v` | nothing |
| `lgensemble_io.go` 52-391 (text) | `UtilText.v`, `TreeBuild.v`, `LgTextIO.v`; opening files: `Files.v` | nothing |
| `lgensemble_io.go` 16-50, 97-101, 404-669 (JSON) | `JsonText.v`, `LgJsonIO.v`; storing of parsed JSON values into the structs (field matching up to case, null, type errors, number ranges) | nothing; the scanner of `encoding/json` (text to JSON value) is in `JsonText.v` |
| `internal/xgbin/xgbin_io.go` | `XgBin.v` | nothing |
| `xgensemble_io.go`, `xgblinear_io.go` | `TreeBuild.v`, `XgIO.v`, `Files.v` | nothing |
| `internal/pickle/*.go` | `Pickle.v`, `SkClasses.v` | nothing that the loaders reach |
| `skensemble_io.go` | `TreeBuild.v`, `SkIO.v`, `Files.v` | nothing |
| `mat/mat.go`, `mat/mat_io.go` | `Mat.v`, `MatIO.v`, `Files.v` (files, failing writers) | nothing |

Every definition cites the Go lines it models, and says where it simplifies.  The
simplifications that cut across files:

* Reading from a stream is a byte list and a flag saying whether it ends with EOF or with
  another error.  `Stream.v` models how the stream arrives in pieces and how `bufio.Reader`
  buffers it, and C68 shows that the loaders on it are the ones on the byte list.
* `strings.Split` with an empty separator (only possible for a CSV delimiter chosen as "")
  splits bytes; it agrees with Go on ASCII text.  `strings.TrimSpace` is exact: the model
  removes the encodings of Unicode white space, and `trim_space_iff` (Pf_Text.v) proves it
  equal to the specification `trimmed` (Spec_Utf8.v), which is what the theorems mention.
* Numbers and words. The theorems do not mention the parsers of the model. What a decimal
  integer is, what fits in 32 or 64 bits, and where the words of a line are is defined in
  Spec_Words.v (`int64_text`, `int32_text`, `uint32_text`, `parts`, `pieces`). Pf_Words.v
  proves that the modelled `strconv` and `strings.Split` compute exactly that. Which JSON key
  selects which field is `spells` (Spec_Calm.v), and `key_is_spells` (Prop_CalmJson.v) proves
  the modelled key matching equal to it.
* `make` panics for a negative size and for one above `pl_maxalloc`; growing by `append`
  never runs out of memory.
* Goroutines interleave at single loads and stores of `float64` on one shared slice
  (sequential consistency); C04 shows that there is no data race, so the Go memory model
  gives the same executions.
* Stack overflow of the Go runtime does not occur, except when an error message formats a
  value that contains itself (`Errorf` in Pickle.v, C76).  No other modelled function recurses
  without bound except over input already in memory.

## 5. Trusted base

* Coq 8.16.1's kernel and its `vm_compute`.  No native_compute, no plugins, no kernel check
  switched off, no axioms, parameters or admitted proofs in `/verif`.
* `Print Assumptions` of the theorems named in MANIFEST.json (recomputed by
  `tools/assumptions.py`):

  * closed under the global context (249 theorems)
    C07_predict_window, C08_errors_write_nothing, C08_predict_errors,
    C09_csr_errors, C09_dense_errors, C09_overflow_refuted, C10_adjusted_estimators,
    C10_later_estimators_ignored, C10_linear_one_estimator, C11_raw_score_is_sum,
    C12_average_output, C13_xgboost_score, C14_gblinear_score, C16_nleaves_layout,
    C17_predict_single, C18_views_exist, C21_outputs_written,
    C21_unwritten_gblinear_leaves_refuted, C21_unwritten_logistic_refuted,
    C22_exponential_name_refuted, C22_names_partial, C22_type_names_partial,
    C24_nan_platform_independent_refuted, C25_number_of_set_bits,
    C26_first_non_zero_bit, C27_construct_bitset, C27_negative_values,
    C29_json_load_returns, C29_loop_bounded, C29_sklearn_load_returns,
    C29_sklearn_source_returns, C29_sklearn_tree_returns, C29_text_load_returns,
    C29_text_source_returns, C29_xgb_load_returns, C29_xgb_source_returns,
    C29_xgb_tree_returns, C30_cyclic_refuted, C30_shared_refuted,
    C30_sklearn_cyclic_refuted, C30_xgb_cyclic_refuted, C30_xgb_no_groups_refuted,
    C31_bad_header, C31_header, C32_block, C32_end_of_input, C32_exact,
    C32_leading_blank_lines_skipped_refuted, C32_two_equals_signs, C33_objective,
    C33_unknown_objective, C34_huge_num_leaves_refuted,
    C34_negative_category_refuted, C34_no_num_cat_refuted,
    C34_understated_leaves_refuted, C34_wide_category_refuted,
    C35_random_forest_refuted, C36_gblinear_round_trip, C36_gbtree_round_trip,
    C36_header_round_trip, C36_string_and_slice_round_trip, C36_tree_round_trip,
    C37_trailing_bytes_ignored, C37_truncated_linear, C37_truncated_trees,
    C38_pruned_root_refuted, C38_tie_refuted, C38_tree_partial, C39_xgboost_file,
    C40_gblinear_file, C40_short_weights_refuted, C41_feature_above_max_refuted,
    C41_single_feature_refuted, C41_sklearn_refuted, C41_xgb_refuted,
    C42_decode_partial, C42_decode_stateless, C42_dumps, C42_terminates,
    C43_dict_is_current, C43_get_returns_put, C43_instance_refuted,
    C43_list_is_stale, C43_list_refuted, C44_other_escapes_refuted,
    C44_unicode_escape, C45_float_array, C45_float_round_trip, C45_int_array,
    C45_int_round_trip, C45_iterate, C45_iterate_rejects, C45_node_array,
    C45_node_round_trip, C46_constant_refuted, C46_sklearn_tree, C48_from_array,
    C48_negative_dimensions_refuted, C48_overflow_refuted,
    C48_single_feature_refuted, C49_csr_libsvm, C49_csr_rejects, C49_dense_libsvm,
    C49_dense_rejects, C49_double_space_refuted, C49_every_text,
    C49_inconsistent_refuted, C50_csv_round_trip, C50_delimiter_refuted,
    C50_empty_refuted, C50_empty_text, C50_file_round_trip, C50_text,
    C50_wrong_size, C51_nan_refuted, C52_traversal_bounded_or_divergent,
    C54_exponential, C54_logistic, C54_raw_view_predicts, C54_softmax,
    C55_extra_features_ignored, C56_csv, C56_csv_rejects, C56_every_text,
    C56_whitespace_delimiter_refuted, C57_bad_json_header, C57_json_header,
    C58_csv_file, C58_lost_data_refuted, C58_refused, C58_same_text, C58_write_str,
    C61_concurrent_calls_complete, C61_concurrent_calls_independent,
    C61_overlapping_slices_refuted, C61_single_threaded_completes, C62_gblinear,
    C62_lightgbm_json, C62_lightgbm_text, C62_sklearn,
    C62_sklearn_no_groups_refuted, C62_text_misfit_refuted, C62_xgb_misfit_refuted,
    C62_xgboost, C64_accepted, C64_json_stream, C64_layout_irrelevant, C64_not_json,
    C64_one_meaning, C64_returns, C64_too_deep, C64_truncated,
    C65_column_major_refused, C65_other_class_refused,
    C65_sklearn_accepts_only_models, C66_gblinear, C66_json_category_refuted,
    C66_lightgbm_json, C66_lightgbm_text, C66_matrix_files,
    C66_sk_empty_stack_refuted, C66_sk_missing_child_refuted, C66_sklearn,
    C66_text_missing_child_refuted, C66_text_short_array_refuted,
    C66_xg_missing_child_refuted, C66_xgboost, C67_matrices_from_files,
    C67_models_from_files, C68_batches, C68_matrices, C68_same_stream, C68_sklearn,
    C68_sklearn_any_stream, C68_sklearn_stalls_refuted, C68_stream_cases,
    C68_text_gives_up, C68_matrices_give_up, C68_text_model, C68_text_stalls_refuted, C68_xgboost, C72_json, C72_sklearn, C72_text_complete,
    C72_text_partial, C72_text_refuted, C72_xgboost, C73_line_order, C73_spelling,
    C74_sklearn, C74_xgboost, C76_error_for_every_file_refuted, C76_message,
    C76_only_self_containing, C76_pickled, C77_ahead_refuted, C77_predict,
    C77_predict_in_place, C77_raw_in_place_refuted, C77_raw_then_transform,
    C77_transform, C77_transform_ahead_refuted, C78_gblinear,
    C78_json_words_refuted, C78_lightgbm_json, C78_lightgbm_text, C78_sklearn,
    C78_sklearn_linear_refuted, C78_text_words_refuted, C78_xgboost, C80_gblinear,
    C80_xgboost, C81_came_from, C81_end_of_stream_refuted, C81_one_after_another,
    C81_prefix_free, C81_same_models, C81_stops_behind, C82_csr_libsvm,
    C82_csr_libsvm_back, C82_csv, C82_csv_back, C82_dense_libsvm,
    C82_dense_libsvm_back, C82_widths_refuted, C84_lightgbm_text, C84_xgboost,
    C85_csr, C85_dense, C85_predict, C87_load, C87_load_json, C87_nan_refuted,
    C87_numerical, C87_predict, C87_text_conversions_refuted, C88_csr_includes,
    C88_dart_refuted, C88_dense_includes, C88_forest_refuted, C88_same_success,
    C88_sklearn_load, C88_sklearn_refuted, C89_from_own_values,
    C89_shape_unchecked_refuted, C89_zero_matrix, C90_bits_refuted,
    C90_same_success, C91_predict, C92_class_alone, C92_classes_together,
    predict_hang_is_divergence
  * ClassicalDedekindReals.sig_forall_dec, ClassicalDedekindReals.sig_not_dec,
    Classical_Prop.classic, FunctionalExtensionality.functional_extensionality_dep
    (120 theorems)
    C01_dense_schedule_independent, C02_csr_schedule_independent,
    C03_csr_always_completes, C03_dense_always_completes, C04_csr_no_data_race,
    C04_dense_no_data_race, C05_dense_rows_equal_predict,
    C06_csr_rows_equal_predict, C07_csr_window, C07_dense_window,
    C11_raw_score_is_plain_sum, C15_leaf_indices, C19_logistic_range,
    C20_overflow_gives_nan_refuted, C20_predictions_sum_to_one,
    C20_softmax_accuracy, C20_softmax_distribution, C20_softmax_predictions,
    C20_softmax_sums_to_one, C23_numerical_split, C24_amd64_other_values_go_right,
    C24_categorical_split, C24_other_values, C28_text_file, C28_text_predictions,
    C28_text_tree, C30_proper_file_predicts_partial, C34_json_file,
    C34_json_predictions, C34_json_tree, C35_models, C35_tree, C46_rule,
    C47_sklearn_class, C47_sklearn_file, C48_dense_csr_agree, C48_dense_follows_csr,
    C51_almost_equal_slices, C51_num_mismatched, C51_real_distance,
    C53_batches_partition_rows, C59_logistic_order, C59_softmax_order,
    C59_strict_order_refuted, C60_gblinear_score, C60_inexact_refuted,
    C60_lightgbm_score, C60_random_forest_score, C60_xgboost_score,
    C61_concurrent_results, C63_csr_from_rows, C63_dense_from_rows, C63_gblinear,
    C63_lightgbm_json, C63_lightgbm_text, C63_sklearn, C63_xgboost, C64_predictions,
    C67_text_model_file, C69_dense_split, C69_rows_independent,
    C70_leaves_determine_prediction, C71_missing_values, C71_order_of_entries,
    C71_same_cells_same_result, C74_lightgbm_json, C74_lightgbm_text,
    C75_forest_range, C75_score_range, C75_xgboost_range, C77_csr, C77_dense,
    C77_dense_in_place, C77_dense_raw_in_place, C79_gblinear, C79_lightgbm_json,
    C79_lightgbm_probability, C79_lightgbm_text, C79_numerical_splits, C79_sklearn,
    C79_tree_scores, C79_xgboost, C79_xgboost_probability, C79_xgboost_scores,
    C79_zero_missing_refuted, C80_formats_agree, C80_lightgbm_json,
    C80_lightgbm_text, C80_sklearn, C84_lightgbm_json, C84_sklearn,
    C86_gblinear_probability, C86_lightgbm_probability, C86_lightgbm_softmax,
    C86_logistic, C86_rounded_exp, C86_softmax, C86_xgboost_probability,
    C86_xgboost_softmax, C87_batch, C88_csr, C88_csr_always_completes,
    C88_csr_no_data_race, C88_csr_rows, C88_dense, C88_dense_always_completes,
    C88_dense_no_data_race, C88_dense_rows, C88_fma, C88_gblinear_score,
    C88_random_forest_score, C88_sklearn_later_estimators, C88_sklearn_leaf,
    C88_sklearn_rate_one, C88_unchanged, C88_xgboost_score, C90_lightgbm,
    C90_random_forest, C90_xgboost, C91_batch
  * ClassicalDedekindReals.sig_forall_dec, ClassicalDedekindReals.sig_not_dec,
    FunctionalExtensionality.functional_extensionality_dep (1 theorems)
    C86_exponential
  * ClassicalDedekindReals.sig_forall_dec,
    FunctionalExtensionality.functional_extensionality_dep (7 theorems)
    C19_exponential_range, C20_large_sum_exceeds_one_refuted,
    C20_sum_overflow_gives_zero_refuted, C20_underflow_gives_inf_refuted,
    C51_rounding_refuted, C59_exponential_order, C60_growth
  * FunctionalExtensionality.functional_extensionality_dep (4 theorems)
    C18_views_compose, C83_load_flag, C83_load_flag_json, C83_same_raw_scores

  All four are axioms of Coq's standard library (Reals, Logic); they enter through Flocq's
  use of the real numbers.  C18 and C83 use functional extensionality directly.  The axioms of
  `Coq.Reals.Rdefinitions` and `Coq.ssr` that `coqchk` lists are opaque module fields of
  the loaded library files, not used by these theorems.
* The hand-written translation from Go to Gallina, i.e. that each definition does what the
  cited lines do.  Section 7 compares the model with recorded outputs of the real models.
* The Go semantics assumed: 64-bit `int`, two's complement wrap, float64 operations rounded
  to nearest even one by one.  The Go specification allows fusing `x*y + z`; the compiler
  does so on arm64, ppc64le, s390x and riscv64 but not on amd64.  The model is for the choice
  "not fused"; C88 has the three accumulation loops of the prediction code with every choice,
  shows for which models it makes no difference and bounds it for the others.  So statements
  about exact values (C11-C14, C54) hold everywhere for the models of `C88_unchanged`, and on
  amd64 for the others.  The addition `Values*scale + base` of the scikit-learn loader
  (skensemble_io.go:41, 55, 60) may be fused as well: FusedSk.v has every choice, and the
  `C88_sklearn_*` theorems say what it can change.
* The platform record: nothing is assumed about it except where a theorem states it
  (`good_exp` in C19 and C20; `monotone_exp` in C59; `accurate_exp` in C86; `1 <= pl_gomaxprocs` in C03 and C48; what `pl_parse_float`
  returns for the texts in question in the loader theorems; `prints_well` in C50).

## 6. Findings

Behaviour of the code that contradicts its documentation or a natural expectation, each with
a machine-checked witness where a theorem is named.

1. `NFeatures()` is 0 for a LightGBM model with `max_feature_idx=0`; such a model accepts an
   empty vector and panics, and works in `PredictDense` but panics in `PredictCSR`
   (`C41_single_feature_refuted`, `C48_single_feature_refuted`).
2. sklearn models take `NFeatures` from `max_features_`, which may be smaller than the number
   of features used (`C41_sklearn_refuted`); XGBoost files are not checked either
   (`C41_xgb_refuted`), nor LightGBM files (`C41_feature_above_max_refuted`).
3. Cyclic or shared child references are accepted by all loaders; prediction then hangs or
   panics (`C30_cyclic_refuted`, `C30_shared_refuted`, `C30_xgb_cyclic_refuted`,
   `C30_sklearn_cyclic_refuted`).
4. A negative number of output groups in an XGBoost file is accepted
   (`C30_xgb_no_groups_refuted`).
5. XGBoost compares with `<`, the loaded tree with `<=`: on a tie the prediction differs
   (`C38_tie_refuted`).  A tree pruned at the root is rejected (`C38_pruned_root_refuted`).
6. gblinear files with too few weights load, and prediction panics
   (`C40_short_weights_refuted`).
7. Transformations whose arity check fails leave the output untouched without an error, since
   the error of `Transform` is dropped (`C21_unwritten_logistic_refuted`,
   `C21_unwritten_gblinear_leaves_refuted`).
8. The exponential transformation calls itself logistic, and its type has no name: printing it
   panics (`C22_exponential_name_refuted`).
9. Softmax overflows to NaN, underflows to division by zero or sums above 1
   (`C20_*_refuted`).
10. Categorical splits on NaN depend on the platform's float to integer conversion
    (`C24_nan_platform_independent_refuted`).
11. `AlmostEqualFloat64Slices` accepts NaN against everything (`C51_nan_refuted`).
12. Leading blank lines of a parameter block are not skipped although the loop intends it
    (`C32_leading_blank_lines_skipped_refuted`).
13. Pickle: lists and instances fetched from the memo are the state at PUT time
    (`C43_list_refuted`, `C43_instance_refuted`); escapes other than backslash and newline are
    not undone (`C44_other_escapes_refuted`).
14. A sklearn tree that is a single leaf is given a split on feature 0, so it needs one
    feature value and reports two leaves (`C46_constant_refuted`).
15. `DenseMatFromArray` and `CSRMatFromArray` accept two negative dimensions and dimensions
    whose product wraps around (`C48_negative_dimensions_refuted`, `C48_overflow_refuted`).
16. libsvm: a doubled space drops the rest of a line (`C49_double_space_refuted`); rows without
    records make a dense matrix inconsistent (`C49_inconsistent_refuted`).
17. CSV: an absent first or last value is lost with a white space delimiter
    (`C56_whitespace_delimiter_refuted`); an empty matrix loses its shape when written
    (`C50_empty_refuted`).
18. JSON models: understated `num_leaves` gives a model whose prediction hangs
    (`C34_understated_leaves_refuted`), `num_cat: 0` with a large category set one that panics
    (`C34_no_num_cat_refuted`), a single category is cut to 32 bits
    (`C34_wide_category_refuted`), a negative category or a huge `num_leaves` makes the loader
    panic; `average_output` is ignored, so random forests sum instead of averaging
    (`C35_random_forest_refuted`).
19. `ToCsvFile` reports success although the last bytes never reached the file: the error of
    the deferred `Flush` is dropped (`C58_lost_data_refuted`).
20. The sklearn loader ignores `loadTransformation`: the model always gives raw scores.
21. The LightGBM text loader panics on arrays shorter than `num_leaves-1`
    (`C66_text_short_array_refuted`); `NOutputGroups*nrows` may wrap around and bypass the length
    check of `predictions` (`C09_overflow_refuted`; hence `sane_rows` in the theorems).  Without a
    named theorem but visible in the model: the sklearn loader panics on an empty shape and ignores
    the error of reading the class priors (`Spec_SkAccept.v`).
22. `C72_text_refuted`: a LightGBM text file that is cut short within its last tree may load
    without error and predict something else (a cut within the digits of the last leaf value).
    No other tree can change (`C72_text_partial`).
23. `C76_error_for_every_file_refuted`: a file of 15 bytes given to the scikit-learn loader ends
    the program.  It puts a dict into itself, and the error message about it (`%v` in
    decoder.go:129) recurses until the stack is exhausted, which Go cannot recover from.
24. Raw scores and leaf indices are accumulated in `predictions` while the features are still
    being read, so `Predict(row, 0, row)` is wrong for them although it is right for transformed
    models (`C77_raw_in_place_refuted`, `C77_predict_in_place`).
25. Small files can ask for much memory: the JSON threshold `"0||100000"` (a document of 502
    bytes) makes a bitset of 3126 words (`C78_json_words_refuted`); categorical nodes of a text model copy their words even when
    they share them (`C78_text_words_refuted`); a pickle may name one tree many times
    (`C78_sklearn_linear_refuted`).
26. A monotone constraint of the training is not kept by LightGBM models with zero as missing
    value: raising a feature across zero may lower the prediction (`C79_zero_missing_refuted`).
27. A LightGBM text that ends without a blank line loads alone, but with another model behind it
    in the stream it swallows the beginning of that model (`C81_end_of_stream_refuted`).
28. Rows of different lengths are an error only within one call: a dense matrix read in pieces
    may have pieces of different widths (`C82_widths_refuted`).
29. `DenseMatZero` and `DenseMatFromArray` accept negative sizes and sizes whose product wraps
    around; the matrix then has fewer values than its shape says
    (`C89_shape_unchecked_refuted`).

## 7. Conformance

`tools/conformance` runs the model itself (by `vm_compute`, in scratch files outside
`rocq/theories`) on model files of `/repo/testdata` and compares with the recorded predictions:
`sk_iris.model` (30 rows, 3 classes, 90 of 90 values agree),
`sk_gradient_boosting_classifier.model` (20 of 20), the XGBoost files of `xg.py`, and in `lg.py`
the LightGBM models `lg_dart_breast_cancer` as text and as JSON (20 values each), `lgmulticlass`
(30), `lg_kddcup99` with categorical splits (39), the leaf indices of `lg_breast_cancer` (195) and
the random forest `lg_rf_iris` through CSR (10), with the data read by the modelled CSV and
libsvm readers.  All values agree.
This is testing of the translation, not part of any proof.

## 8. Wrong programs

`tools/mutate.py` applies an edit to a scratch copy of the model, rebuilds what depends on it and
reports which theorems no longer hold.  The edits are in `seeded/mutants_*.json`, the results in
`seeded/LOG.jsonl`.  Mutants that survived led to the tightened theorems named there.
