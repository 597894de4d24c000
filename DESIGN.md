# Design

Target: apmcleod/harmonic-inference (Python), pinned commit in /repo, read as text only.
Tool: Rocq/Coq 8.16.1, standard library. No project code is executed here; the only
link from the theorems to the code is the reading recorded in the comments of the model
files (every definition cites file and lines).

## Layout (rocq/theories)

| kind | files | content |
|---|---|---|
| model | `PyBase.v`, `Model_*.v` | Gallina functions mirroring the Python functions branch by branch; no proofs |
| spec | `Spec_*.v` | small independent definitions the theorem statements use |
| proofs | `Proof_*.v` | lemmas |
| tests | `Check_Tests.v` | the project's own unit tests (`/repo/tests/`), run on the model by evaluation: evidence that the model is the code, not proofs |
| properties | `Prop_*.v` | the theorems `Cxx_...`, `Print Assumptions` for each, and `Example`s that show the hypotheses can be met |

Python exceptions are values of a `res` type (`Ok v | Raise e`) with `e` naming the Python
exception class. Loops are structural recursion, folds, or fuel with an explicit
`OutOfFuel` error which theorems exclude or show unreachable. Integers are `Z`;
`Fraction` is `Q`. Scores of beam states (floats) are `Z`: only comparison is used by
the beams, and any finite set of non-NaN floats embeds in `Z` preserving order. Where log
probabilities are added, exact addition replaces floating point addition (rounding is not
modelled). numpy arrays are lists. Neural networks (CCM, CTM, CSM, KTM, KSM) are arbitrary
functions given as arguments, so theorems hold for every possible network output.

Names: `Cxx_...` is a part of property Cxx. `..._refuted` is a proof that the code (as
modelled) does not have the property in some case, with a witness. MANIFEST.json marks a
property "partial" when some part of its statement is refuted or not covered, and says which.

## Plan per property

| id | model | proof |
|---|---|---|
| C01 C02 C03 | `get_chord_one_hot_index`, `get_chord_from_one_hot_index` (list built by the same nested comprehension), `get_chord_vector_length`, arbitrary reduction `ChordType -> ChordType` | lookup in concatenated blocks, induction over the sorted type list |
| C04 | key index functions, key-change index and relative key label list | arithmetic + list lookup |
| C05 | label lists as strings | lengths by the same block lemma, distinctness by finite computation for label atoms lifted over all reductions |
| C06 C07 | strings as `list ascii`; accidental stripping loops | induction on the string |
| C08 C09 | `transpose_pitch`, `transpose_chord_vector`, `absolute_to_relative` | arithmetic, `nth` characterisation of vectors |
| C10 | `to_pitch_type` via strings | finite domain by computation (35 and 12 pitches), lifted |
| C11 | scale degree functions | induction on accidentals, arithmetic |
| C12 | `decode_relative_keys` | induction on the path |
| C13 C14 | `reduce_chord_one_hots`, `reduce_chord_types`, `remove_chord_inversions` | via C01/C02; `nth` reasoning on vectors |
| C15 | `Chord.to_vec`, `get_chord_vector_length`, `decode_chord_vector` | block lemmas |
| C16 | `transpose_note_vector`, `decode_note_vector` | refutation by witness + positive theorem under the range guard |
| C17–C22 | CPython `heapq` algorithms on lists, `Beam`, `HashedBeam` with validity flags | invariant by induction over operation lists; refinement to "k best" |
| C23 C24 C48 C58 C59 | measure table as list, `get_range_length`, metrical level, duration cache | a clock `T` on measures; rational arithmetic |
| C25–C28 C54 C55 | `get_chord_ranges` work list | loop invariant; soundness and completeness |
| C29–C33 C35 C36 C56 C57 | `State` operations, branching code of `beam_search`, `get_key_change_states` | invariants by induction over the states the search builds |
| C34 C69 C70 | `_validate_and_load_forced_labels`, `get_harmony` composed of C25–C36 | refutation with a concrete model; composition of the range and search theorems |
| C37–C39 C60 C61 | corpus_utils on lists of rows | fixpoint/reachability, sums |
| C46 C47 C53 C62 C63 | note.py, chord.py, key.py readers, piece.py | list induction, the clock of C23 |
| C40 C41 | eval_utils on per-input label lists | sums in Q; run-length induction |
| C71 C72 C73 | tables of results and labels | rows against the inputs that last; label lists without repetition make texts and values interchangeable |
| C42–C44 | datasets split/pad/get_item | list arithmetic, store-passing model for in-place writes |
| C45 C74 | initial chord model: counting in Q, json options | counts by induction over the chords; sums |
| C49 C50 | forces.py bisect and regex (leftmost alternation semantics written as a matcher) | order lemmas; witnesses |
| C51 | change strings; added and replaced pitches | induction on string; letters modulo 7, finite check of the chord tones |
| C52 | load_pieces: which file and which saved dictionary go into which piece | positions in filtered lists; composition with the splits of C42 |
| C75 C76 | beam_search as a whole | every call of a step returns, by the invariant that all states are sound and in range; a beam that can be reached is not empty: for semitones in every key, on the line of fifths in the keys that are given, an invariant of all states |
| C77 | key_obj and chord_obj of State | states as objects on a heap; refinement to states without caches over all call sequences |
| C78 - C82 | pieces from MusicXML and csv labels | the loop over the measures as a fold; invariant: the rows made so far are a chain of consecutive measures; positions by search in the chain; texts of keys and degrees by induction over their accidentals |
| C83 | ChordTransitionDataset | masks and index writes as pointwise statements on lists |
| C84 | dictionary forms | finite maps with unique names; equality field by field |
| C85 C86 | evaluation script: forced labels, averages of a log | grammar of the texts against the loops that read them; folds |
| C87 - C89 | batches of the neural models | batches as consecutive groups; a batch is the map of a pointwise description of its items; totals by induction over the groups |
| C90 - C93 | output files, grid search, aggregation of annotations, checkpoints | files as lists of writes; names put together and split again; products of lists; dictionary order of texts |
| C94 | `log_state` | positions selected by a mask cut the inputs into segments on which the labels are constant; sums over segments |
| C95 | the data files | writes of distinct names (names injective in class, split and seed); composition with C42; induction over the runs |
| C96 | the joint model and its parts | case analysis of the checks; widths of rows by induction over the chain of states; composition with C75 and C76 |
| C97 | options | case analysis; the tables are finite |
| C99 | runs of test.py | events of a run as a list that ends at the first exception; induction over the pieces; composition with C40, C71, C73, C86, C90, C94 |
| C100 | runs of annotate.py, end to end | induction over the pieces; composition of C96 (accepted models), C25/C26 (ranges), C75/C76 (search), C29/C70 (analyses), C41 (tables) and C90 (files) |
| C101 | labels written onto scores | the tree of files as a list of paths; glob as a filter, its order as that of texts; composition with C90 |
| C102 | create_ml_course_data.py | induction over composers and pieces; an invariant on the texts of all files |
| C103 | reading rows of chords and key changes | finite tables of intervals lifted to all keys; offsets of sections by induction over the keys |
| C104 | texts in the cells of a corpus | equivalence of the readers with a grammar of numbers; induction over characters |
| C105 | steps of training and validation | the steps are the parts of the tally of C88; masks for padding and unknown chords |
| C106 | epochs of training, the file of the initial chord model | permutations cut into batches; C105 for each batch; C45 for the prior |
| C107 | the convolutional classifier and the joint model | windows of a circle, modulo arithmetic; layers as maps over rows |
| C108 | hidden states of the networks during the search | invariant of the states by mutual induction over runs; get_ksm_input by induction on the chain of states |
| C109 | texts of objects | unique decomposition of the texts, part by part; induction on the list of fields |
| C110 | the published systems | C93, C96, C97 and C75 at the stored options; the first-chord index by enumeration of the vocabulary |
| C111 | places of labels | the tables are natural in the notes; C41, C73, C80 |
| C112 | uses of one model | the sets of the caller keep their members other than 0; one call is get_harmony of Model_Infer on the sets as they were; induction over the calls |
| C113 | `State.copy` | equality of the copy with a freshly built state; inversion of the two transitions and of rejoin |
| C114 | scores with infinities (Model_Logs): charges of `State`, `rejoin`, `Beam` on IEEE numbers with exact finite part | induction over the charges and over the list |
| C115 | conversion of whole numbers to half precision (Model_Float16), the chord and key indices, `to_h5`, `h5_to_dataset` | exactness by binary length; size of the vocabularies for every reduction |
| C98 | accuracies of verbose runs | counts as lengths of filtered lists; induction over the loops; search in increasing lists |
| C64–C68 | dataset rows against `State` inputs, item arithmetic, in-place writes | refinement along the chain of states; store-passing |

## What is modelled

| source | modelled in | left out |
|---|---|---|
| utils/harmonic_constants.py | Model_Types, Model_Harmony | – |
| utils/harmonic_utils.py | Model_Harmony (index arithmetic), Model_Strings (names, Roman numerals, relative keys, change strings), Model_Changes (`get_added_and_removed_pitches`) | `int` of texts with signs, underscores or white space |
| data/vector_decoding.py | Model_Vectors, Model_Decode | float16 rounding of stored values |
| utils/beam_search_utils.py | Model_Heap (heapq), Model_Beam (Beam, HashedBeam), Model_Search (State), Model_Cache (State as an object, with its caches) | floating point rounding; hashes are taken as the tuples hashed |
| models/joint_model.py | Model_Ranges (`get_chord_ranges`), Model_Search (`beam_search` and its helpers) | logging, batching of network calls; Model_Infer has `_validate_and_load_forced_labels` and `get_harmony` with the networks as functions, without the checks of the input type and the reset of `current_piece`; Model_Reuse has these, the attributes of the object and the sets of the caller |
| utils/forces.py | Model_Forces (regular expressions as an ordered matcher, `extract_forces_from_musescore` after the score is read, `convert_score_positions_to_note_indexes`) | reading the score with ms3; labels that are not ASCII |
| utils/eval_utils.py | Model_Eval (`evaluate_chords`, `evaluate_keys`, `evaluate_chords_and_keys_jointly`, `get_annotation_df`), accuracies as rationals; Model_Tables (`get_results_df`, `get_labels_df`, `get_label_df`), data frames as lists of rows; Model_Log (`log_state`, entries as values); Model_Where (the columns mc, mc_onset and mn_onset of the tables of labels) | rounding of floats |
| utils/rhythmic_utils.py | Model_Rhythm | pandas indexing is a list lookup |
| utils/corpus_utils.py, data/corpus_reading.py | Model_Corpus, Model_Clean, Model_Aggregate (`aggregate_annotation_dfs`, which is all that aggregate_corpus_data.py calls) | reading TSVs; columns that are not used by the functions |
| data/corpus_constants.py | Model_Convert (`str2inttuple`, `int2bool`, `str2frac` with `Fraction` of a text as in Python 3.8 to 3.10) | pandas calling the converters; the column types `DTYPES` |
| data/note.py, chord.py, key.py, piece.py | Model_Piece (`from_series`, repetition masks, `get_score_piece_from_data_frames`, `get_chord_note_inputs`, lookups); Model_Xml (`get_measures_df_from_music21_score`, `get_notes_from_music_xml`, `get_score_piece_from_music_xml`, `from_music21`, `from_labels_csv_row`) | music21 itself (the functions get what they read from its objects), reading csv files; Model_Dict has `to_dict`, `__eq__`, `to_pitch_type` and `get_score_piece_from_dict` on dictionaries of values |
| models/initial_chord_models.py, utils/data_utils.py | Model_Prior (`train_icm`, `SimpleInitialChordModel`, `evaluate`, `load_kwargs_from_json`), Model_Load (`load_pieces`, file list of create_h5_data.py; a piece is the record of what the readers are given) | decimal text of floats; warnings; the command line; Model_Checkpoints has `load_models_from_argparse` (`glob`, loading of a checkpoint: functions given) |
| test.py, eval_utils.average_results | Model_Runs (`load_forces_from_json`, choice of the forces in `evaluate`, `average_results`) | `float` of a text is a parameter; Model_Output has the paths of the files written; Model_Script (`evaluate` as a whole, `--average`); argument parsing |
| data/datasets.py | Model_Dataset (splits, four dataset classes, padding, h5 storage, items), Model_Change (`ChordTransitionDataset`), Model_Float16 (float16 of whole numbers) | float16 of fractions; torch tensors are lists; h5 is a record of the arrays written |
| create_h5_data.py, train.py, test.py | Model_Create (the splits, corpus filter, `get_dataset_splits`, the files written and read; constructors of datasets and `Piece.to_dict` given; a directory is a list of names with contents) | regular expressions in --corpus; failing writes; training itself |
| models/chord_sequence_models.py, chord_transition_models.py, chord_classifier_models.py, key_transition_models.py, key_sequence_models.py | Model_Batch (`get_data_from_batch`, `evaluate`, the packing done by `forward`; the loaders of joint_model.py), Model_Steps (`training_step`, `validation_step`) | the networks themselves and the logarithmic losses are arbitrary functions (one output per row, or one per sequence); the training loop, optimisers, float rounding, devices |
| annotate.py, grid_search.py | Model_Annotate (`annotate` as a whole, with the joint model's inference), Model_Output (paths of the files written), Model_Grid (commands, options as test.py reads them), Model_Models (`set_default_args`, `from_args`) | argument parsing of the scripts themselves |
| joint_model.py 1380-2073 (`DebugLogger`) | Model_Debug | texts of the messages and the labels in them; the numbers of chords and keys in the vocabularies are given; messages written before an exception |
| joint_model.py (constructor, checks), sizes of the networks in models/*.py | Model_Models | floats are rationals; the layers and weights |
| write_to_score.py, `write_labels_to_score` in eval_utils.py (902-938) | Model_Scores | what ms3 does (an arbitrary choice of operations that fail); symbolic links; glob patterns in the path of the output directory |
| create_ml_course_data.py | Model_Course | making the pieces (given); lines 71-86, which are never reached |
| train.py | Model_Train (batches of an epoch, the initial chord model), Model_Create (the data used) | pytorch_lightning: the optimizer, early stopping, checkpoints, means of logged values |
| models/chord_classifier_models.py:324-488 | Model_Cnn (the convolutional classifier, the encoder and the joint model; arbitrary numbers) | training mode: dropout and the statistics of batch norms |
| the hidden states of the search (beam_search_utils.py:139-381, 598-694, joint_model.py:941-1378) | Model_Hidden, on top of Model_Search: who passes which hidden state to whom, where get_ksm_input stops | the choices of the search (arbitrary there; they are in Model_Search); NaN in hidden states |
| the published directories checkpoints-best and checkpoints-fh-best (hparams.yaml, initial_chord_prior.json) | Model_Published: the options of each network and of the priors, the options of the scripts that load them | the weights and the numbers of the priors (arbitrary); the binary checkpoints are assumed to have the options of the hparams.yaml beside them |
| __repr__ and __str__ of notes, chords and keys (note.py:324-332, chord.py:397-418, key.py:282-287) | Model_Repr, on the objects of Model_Dict | floats; numpy integers print like integers; fields of the wrong kind in __str__ |

Simplifications are stated at each definition.

## Trusted base

* Coq 8.16.1 kernel (including `vm_compute`).
* The reading of the Python source (citations in the model files). `Check_Tests.v` runs the project's own unit tests on
  the model: all of `tests/test_harmonic_utils.py` and `tests/test_rhythmic_utils.py`, and of `tests/test_corpus_utils.py`
  and `tests/test_piece.py` everything except note vectors, a function that is no longer in the code
  (`get_notes_during_chord`) and the expectation about `localkey_is_minor` that the code does not meet (C62_minor_refuted).
* Assumptions: `Print Assumptions` follows every `Cxx_...` theorem in the `Prop_*.v` files and
  prints "Closed under the global context" for each of them: no axiom is used, not even one of
  the standard library.
* The standard library files that get loaded (through `Lia`, `Lqa`, `ssr` plugins of the
  prelude) contain seven opaque declarations that `coqchk -o` lists as axioms of the loaded
  library: `Coq.ssr.ssrunder.Under_rel.` `Under_rel`, `Under_rel_from_rel`, `Under_relE`,
  `Over_rel`, `over_rel`, `over_rel_done`, `under_rel_done`. No theorem depends on them.

## Findings

Behaviour of the code, as modelled, that a user would not expect. Each is a theorem.

| theorem | finding |
|---|---|
| C01_default_pad_refuted | encoder and decoder have different default values for `pad`: the round trip fails with default arguments |
| C07_errors, C07_no_accidental_left_refuted | a string with accidentals only is an IndexError; a flat behind a sharp is left over |
| C10 (refuted part) | MIDI to TPC conversion is a KeyError on every black key |
| C13_total_refuted | reducing the third inversion of a seventh chord to triads with inversions is a ValueError for the whole list |
| C14_kept_types_refuted, C14_bass_refuted | `reduce_chord_types` erases types that the reduction keeps; removing inversions leaves the bass |
| C16_refuses_refuted | out of range transpositions are not refused; `decode_note_vector` never succeeds |
| C17_size_zero | beam sizes below 1 are an IndexError |
| C22_hashed_reuse_refuted | `HashedBeam.empty()` makes the beam unusable |
| C27_end_refuted, C27_start_refuted, C28_refuted | chord length limits ignore the last input and count the first twice; forced (non-)changes are only looked up for the last input of an onset, and never on the last onset |
| C30_refuted, C33_refuted | states with both key possibilities: the change is charged twice on one branch and not at all on the other |
| C35_keys_refuted | rejoining merges inputs that are forced to different keys |
| C36_unreached_refuted | if the target probability is not reached one option is taken instead of the maximum |
| C57_room_refuted | states are dropped from beams that have room (the states that are added are treated right: C57_kept_partial, C57_best_partial) |
| C37_one_file_refuted, C37_loop_refuted | removing repeats from a corpus with one file removes everything; unreachable loops stay |
| C39_orphan_refuted | tie chains without a beginning continue past their end |
| C46_gap_refuted | chords merged across a label that could not be read last less than the time they span |
| C47_lookup_refuted | looking up chords before the first one returns the last |
| C53_high_refuted | MIDI pitches 120–127 are an IndexError in the input vectors |
| C62_minor_refuted | the column `localkey_is_minor` is not read: the mode of the local key is the case of its numeral (tests/test_piece.py:237 expects otherwise and fails) |
| C62_pivot_refuted, C62_single_refuted | a key change on a repeated chord is recorded one chord late; a piece with one chord or one note cannot be loaded |
| C63_midi_type_refuted | `get_midi_note_number` counts 35 semitones to the octave for the MIDI pitch type |
| C42_negative_refuted | negative split proportions are accepted and files end up in two splits |
| C43_empty_refuted, C43_key_refuted | an empty dataset cannot be written; key datasets read back from a file are cut by lengths of other items |
| C44_key_refuted | reading an item of a key dataset overwrites a row of the next item of the longest piece |
| C64_first_key_refuted | if the search changes the key of the first chord, its inputs are not those of training |
| C65_notes_refuted, C65_midi_refuted | notes that leave the pitch range are not refused; MIDI roots past the octave are |
| C66_ksd_refuted | the last item of the key sequence dataset can never be read |
| C66_far_refuted | a key change of more than 14 fifths in one piece: the key sequence dataset of all pieces is a ValueError, while the other datasets leave the change out |
| C67_csd_refuted, C67_key_refuted | no reduction of the inputs of the sequence datasets succeeds |
| C68_lost_refuted, C68_inference_refuted | pitch-based targets lose pitches below -14; for spelled pitches the search weighs them with a vector 14 fifths off |
| C34_change_refuted, C34_non_change_refuted | forced key changes and non-changes are validated and then ignored |
| C69_complete_refuted, C69_zero_refuted, C69_errors | a key label that begins at a chord non-change is refused with TypeError (`-1 not in` a number); a non-change at 0 is compared with the last input; refusals are TypeError, AttributeError or KeyError because ArgumentError is built with the wrong arguments |
| C70_changes_refuted | one chord lasts over a forced chord change when both sides are forced to it |
| C70_chords_refuted | a chord forced on the last onset is not given: `get_chord_ranges` never checks the labels of the last onset |
| C49_after_refuted | a forced position after the last note is an IndexError instead of the documented ValueError |
| C50_sevenths_refuted, C50_plain_refuted | of the seventh chords only `%7` can be written as a forced label: the regular expression tries `M`, `m`, `o`, `+` first, the inversion then does not match, and `len` of NaN is a TypeError; the same for every chord without inversion |
| C40_pickup_refuted | inputs before the first label of a piece are compared with chord 0 and key 0 and count as wrong |
| C40_applied_refuted | the true key is the applied key of the first chord of a section, even when the piece was loaded without applied keys |
| C40_midi_refuted | with MIDI output the indexes of the spelled true chords are read as MIDI chords: right answers count as wrong, or the evaluation is an IndexError |
| C71_black_key_refuted | an analysis with MIDI pitches cannot be tabled with spelled ones: a black-key root or tonic is a KeyError |
| C72_pickup_refuted, C73_pickup_refuted | notes before the first label get chord 0 (F with three flats, major) in the table of labels, and are compared with the last chord of the vocabulary in the coloured table |
| C45_reduce_refuted, C45_reduce_raises_refuted | an initial chord model cannot be loaded with a reduction or without inversions: always a TypeError |
| C45_option_refuted | `use_inversions` in the saved file changes the flag and leaves the prior with inversions |
| C45_no_smoothing_refuted | without smoothing, a mode without chords gives 0/0 for all priors |
| C110_prior_refuted | the published prior of checkpoints-best says it is over triads without inversions; it has all 1276 chords |
| C110_debug_refuted | with checkpoints-best the debug log gives the probability and the rank of another chord as those of the annotated first chord |
| C111_endings_refuted | in tables of labels of MusicXML scores mc does not count the measures of first endings: labels after one name an earlier measure |
| C112_sets_refuted, C112_shared_refuted | get_harmony removes 0 from the sets of forced changes it is given; a set used for changes and later for non-changes gives another result than alone |
| C113_refuted | `State.copy` drops the most recent charges: a rejoin from the copy of a charged state does not take them back (no such state is copied by the search: C113_search) |
| C114_refuted, C114_top_refuted (C114_lost, C114_blocked, C114_first_chord) | rejoining a state that was charged with log 0 gives nan (-inf minus -inf); this happens for a key forced inside the first chord; a nan state blocks a full beam and can be returned as the best |
| C75_spelling_refuted | a TPC chord of the vocabulary whose bass note leaves the range of spelled pitches stops the search with a ValueError when it is forced or among the first options |
| C75_inversion_refuted | a chord sequence model with a reduction to triads and inversions: a seventh chord in third inversion is a ValueError during the search |
| C75_empty_refuted | a piece without inputs is an IndexError |
| C76_fifths_refuted | TPC: a forced chord more than 14 fifths from the forced key leaves the beam empty, the result is None |
| C77_pitch_type_refuted | a state asked for its key with a second pitch type answers with the object made for the first |
| C78_single_refuted, C78_brackets_refuted | a MusicXML score of one measure is an IndexError (the code looks at the second measure to find the pickup); a repeat bracket over two endings (number "1, 2") is a ValueError |
| C80_pickup_refuted | a note tied out of a pickup gets an offset too early by the offset of the pickup in the bar: the offset of the first measure is subtracted from the duration, and that of the last one added twice |
| C80_numbers_refuted | notes of a measure whose number was used before are placed in the earlier measure |
| C81_unlabelled_refuted | a MusicXML piece whose label file has no usable row is an IndexError |
| C83_unlabelled_refuted | the targets of a piece without labels mark every measured note as a chord change (`target[None] = 1`) |
| C84_unlabelled_refuted | `to_dict` of a piece without labels is a TypeError |
| C85_order_refuted | if several keys of the file of forced labels occur in the name of a piece, the entry used depends on the iteration order of a set of strings (different from run to run) |
| C87_key_refuted | an item of the longest piece of a key dataset in memory has one row less than the items of shorter pieces: a batch with both is a RuntimeError |
| C87_pitch_refuted | the pitch-based model is neither trained nor measured on chords that contain the first pitch (MIDI: the tonic); the mask looks at `targets[:, 0] == 0` |
| C88_ccm_refuted, C89_classifier_refuted | the classifier raises on a batch of one item (`squeeze()`): evaluation and inference fail when the number of items is 1 modulo 512 |
| C88_ksm_refuted | evaluate of the key sequence model weighs each batch with `len(batch)`, the number of fields of a dictionary |
| C88_nan_refuted, C88_pitch_refuted | a batch without a question makes accuracy and loss NaN; evaluate of the pitch-based model always raises (loss without reduction, then `.item()`) |
| C89_reduction_refuted | the options of the key models are passed to the dataset as `transform`, and the chord sequence model uses the no-op reduction of another dataset: the models' reductions are not applied at inference |
| C90_spaces_refuted, C90_outside_refuted | the path of an output file is what follows the last space of the name of the piece: a corpus name that ends in a space puts the files in the root directory, file names with spaces lose their first part and can overwrite each other |
| C90_results_refuted, C90_annotate_refuted | a piece `x_results` overwrites the results of `x`; annotate.py drops the corpus, so equal file names overwrite each other |
| C90_score_refuted | for MusicXML the labels file gets the suffix .mxl: with the input directory as output directory the scores are overwritten |
| C91_spaces_refuted, C91_twice_refuted | the commands of grid_search.py are not quoted; repeated values give repeated commands |
| C92_stale_refuted | aggregate_annotation_dfs leaves the table of an earlier run if no piece has such a table |
| C92_same_refuted, C92_missing_refuted | equal corpus and file names are not told apart; one piece without chord annotations makes load_pieces raise KeyError for the corpus |
| C93_latest_refuted, C93_pattern_refuted | checkpoints are sorted as texts: version_9 is taken although there is a version_10; `_*` in the checkpoint directory is replaced by the version, too |
| C94_last_end_refuted | the last entry of the debug log gives the end of the last note and the length up to the end of the last chord |
| C94_unannotated_refuted | `annotate.py --verbose` on a score without annotations fails with TypeError in `log_state` |
| C94_midi_refuted | with MIDI chords `log_state` looks up the true labels in the wrong list: IndexError, or a right chord is corrected |
| C95_stale_refuted | an empty split does not remove the files of an earlier run with the same seed: `--test` then evaluates on pieces that are in the training data |
| C95_absent_refuted | without data files for the split `test.py` ends with UnboundLocalError instead of a message |
| C96_ktm_refuted | `check_input_output_types` checks the chord type of the key sequence model twice and that of the key transition model never: such a model is accepted and cannot read a single row |
| C96_kinds_refuted | chords and keys of different pitch types are accepted; no row made during the search has the size the networks expect |
| C96_inversions_refuted | a chord classifier without inversions is accepted although its classes are looked up in the list of all chords with inversions: they are read as other chords |
| C96_pitch_based_refuted | `PitchBasedChordSequenceModel` has 29 outputs for MIDI pitches too, where twelve are read |
| C96_notes_refuted | nothing checks the pitch type of a piece: with MIDI notes for models trained with spelled pitches the first network call fails |
| C97_annotate_refuted | `annotate.py` defines `set_default_args` and never calls it: `--defaults` and `--fh-defaults` have no effect there; the command given in the README runs with a target_chord_branch_prob of 0.75 instead of 0.5 |
| C98_last_refuted, C98_one_chord_refuted | the accuracies of a verbose run leave out the last chord of a piece; for a piece with one chord both divide by zero and the run ends |
| C98_keys_refuted | `len(chord_changes) < new_chord_index` (joint_model.py:1447) is never true: at a chord change the states with the right new chord are left out of the KTM accuracy |
| C98_index_refuted | all states are compared with the annotation at the index of the first one, although states that continue a chord begin earlier |
| C98_next_refuted | with a prior over pitches the verbose output looks up a chord number beyond its end: IndexError |
| C98_next_key_refuted, C98_start_refuted | a verbose run stops at an annotated key change of more than 14 fifths; at the beginning of a piece (a forced key that replaces the first) `keys[new_key_index - 1]` is the last key of the piece |
| C99_unannotated_refuted | test.py logs "Cannot compute accuracy. Ground truth unknown." for a piece without annotations and then fails with a TypeError when it makes its tables: the run ends, nothing is written for it or for the pieces after it (C99_stops) |
| C99_no_result_refuted | pieces without a result are not counted in the averages |
| C99_verbose_refuted | the average of a verbose log has an entry of its own for each pair of counts ("Correct key states accuracy: 3 / 4") |
| C99_log_refuted | `--average f` with `--log` on the same file empties it before it is read |
| C100_verbose_refuted | a whole run of `annotate.py --verbose` stops at the first unannotated piece that has a result (cf. C94_unannotated_refuted) |
| C101_suffix_refuted, C101_dot_refuted | the name of a score is used as a regular expression with `search`: "op1" also takes the score "xop1", and "op.1" also "op-1" |
| C101_scores_refuted | after an evaluation of scores that are not .tsv files, write_to_score finds only the files of results, not the labels |
| C101_annotate_refuted | annotate.py writes all tables to one directory; write_to_score then looks for all their scores in the topmost directory of the annotations |
| C102_data_refuted, C102_stops_refuted | create_ml_course_data.py adds a list to a set: it fails on the first piece of every corpus, after it has deleted the data of earlier runs |
| C103_far_refuted | the vector of a key change out of range says no interval; decode_key_change_vector does not refuse it but reads 15 fifths (major) or 16 (minor), because argmax falls on the mode. The decoded mode is an array of one KeyMode, not a KeyMode |
| C104_malformed_refuted, C104_python_refuted, C104_next_refuted | str2inttuple catches every exception and returns an empty tuple, so that a malformed "next" (for example "(2, 17)") silently makes its measure the last one of the piece |
| C105_single_refuted, C105_evaluate_refuted | the classifier cannot train on a last batch of one item; evaluate does not mask targets of -1 as validation_step does, so it raises if a transposition refuses one item |
| C106_ccm_refuted, C106_nan_refuted | training the classifier fails in every epoch if the number of items is 1 modulo 256; a batch without a question has the loss NaN |
| C107_never, C107_refuted, C107_joint_refuted | the convolutional classifier raises an exception on every input: 2 * width + 1 positions instead of 12, then a float for a size; its input is documented with a dimension for the channels, which the convolution refuses; the encoder it is to be joined with returns None |
| C97_given_refuted | options given together with `--defaults` are silently replaced |
| C74_piece_type_refuted | a json option naming a piece type is a KeyError, or (MIDI) is read as a pitch type |
| C52_missing_refuted, C52_unlabelled_refuted | if a score has no annotation file, all later scores get the annotation of another score, and the last ones an IndexError |
| C52_dataset_ids_refuted | create_h5_data.py numbers the annotated scores, load_pieces all scores: saved pieces get the measures of another score |
| C52_no_pickle_refuted, C52_str_refuted | a missing file of saved pieces is an UnboundLocalError; a single score given as str is an AttributeError |
| C41_zero_duration_refuted | a chord that only covers inputs without duration is missing from the annotation table (the search gives no such harmony, C70_onsets) |
| C51_plus_refuted, C51_two_additions_refuted | a "+" alteration records two removed notes and shifts the later ones; several notes that replace nothing overwrite each other |
| C51_tens_refuted (C51_last_digit) | a mark before a number of two digits is read with the last digit only: "^13" on C7 replaces the E, "v10" the B flat |
