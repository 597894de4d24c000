{"id": "C01", "title": "Chord one-hot encoding is decoded back to the same chord", "statement": "Encoding a chord (root, chord type, inversion) with get_chord_one_hot_index and looking the resulting index up with get_chord_from_one_hot_index under the same options returns the same root, the reduction of the chord type, and the inversion (or 0 when inversions are not used).", "quantifier": "every pitch type, every chord-type reduction (any map on chord types), inversions on or off, absolute or relative, every root/type/inversion that the encoder accepts", "why_tests_cant": "The set of reductions is a function space (12^12 maps) times roots, types, inversions and options; the tests only try the identity reduction and a few chords.", "anchors": ["harmonic_inference/utils/harmonic_utils.py:get_chord_one_hot_index", "harmonic_inference/utils/harmonic_utils.py:get_chord_from_one_hot_index", "harmonic_inference/utils/harmonic_utils.py:get_chord_label_list"]}
{"id": "C02", "title": "Chord one-hot indices are exactly the range of the vector", "statement": "Every accepted chord gets an index between 0 and get_chord_vector_length(one_hot=True)-1, every index in that range is the code of some chord, and encode(decode(i)) = i, so output units of the models and chord symbols are in bijection with nothing wasted and nothing aliased.", "quantifier": "every pitch type, reduction, inversion flag, absolute/relative/padded mode and every index", "why_tests_cant": "Surjectivity and injectivity over all reductions cannot be sampled; off-by-one errors appear only for particular inversion-count prefixes.", "anchors": ["harmonic_inference/utils/harmonic_utils.py:get_chord_one_hot_index", "harmonic_inference/utils/harmonic_utils.py:get_chord_from_one_hot_index", "harmonic_inference/utils/harmonic_utils.py:get_chord_label_list", "harmonic_inference/data/chord.py:get_chord_vector_length"]}
{"id": "C03", "title": "The chord encoder rejects exactly the chords that have no symbol", "statement": "get_chord_one_hot_index raises ValueError if and only if the root lies outside the pitch range of the chosen mode, or inversions are used and the inversion is not below the number of inversions of the reduced chord type; in every other case it returns an index.", "quantifier": "every integer root and inversion, every type, reduction and mode", "why_tests_cant": "The rejected set is infinite (all integers), and a silent wrap-around on one boundary would give a plausible wrong label.", "anchors": ["harmonic_inference/utils/harmonic_utils.py:get_chord_one_hot_index"]}
{"id": "C04", "title": "Key and key-change indices are bijective with keys", "statement": "get_key_one_hot_index and get_key_from_one_hot_index are mutually inverse between (tonic, mode) pairs and [0, 2*num_pitches); the relative key label list used by the joint model and get_key_change_vector_length agree with the index computed for a key change, for both pitch types; out-of-range tonics are rejected.", "quantifier": "all tonics (all integers), modes and pitch types", "why_tests_cant": "Needs both directions over all integers including rejected ones; a model trained with one ordering and decoded with another produces no error.", "anchors": ["harmonic_inference/utils/harmonic_utils.py:get_key_one_hot_index", "harmonic_inference/utils/harmonic_utils.py:get_key_from_one_hot_index", "harmonic_inference/data/key.py:Key.get_key_change_one_hot_index", "harmonic_inference/data/key.py:get_key_change_vector_length", "harmonic_inference/models/joint_model.py:HarmonicInferenceModel.__init__"]}
{"id": "C05", "title": "Human readable label lists are aligned with the indices", "statement": "get_chord_label_list and get_key_label_list have as many entries as there are one-hot indices, entry i describes the chord/key that index i decodes to, and no two entries of a list are equal strings.", "quantifier": "every pitch type, mode, inversion flag; every reduction for chord lists", "why_tests_cant": "Distinctness of rendered labels quantifies over pairs, and the alignment over every reduction map.", "anchors": ["harmonic_inference/utils/harmonic_utils.py:get_chord_label_list", "harmonic_inference/utils/harmonic_utils.py:get_key_label_list", "harmonic_inference/utils/harmonic_utils.py:get_pitch_string", "harmonic_inference/utils/harmonic_utils.py:get_chord_string"]}
{"id": "C06", "title": "Pitch spelling round trip", "statement": "get_pitch_from_string(get_pitch_string(p)) = p for each pitch in range; conversely any accepted TPC string denotes the line-of-fifths position letter + 7*(sharps-flats), accidentals may be stacked to any depth, and a string out of the 35-pitch range is rejected with ValueError instead of wrapping.", "quantifier": "every pitch of both pitch types; every spelling letter + any number of accidentals", "why_tests_cant": "The number of accidentals is unbounded; tests enumerate at most two.", "anchors": ["harmonic_inference/utils/harmonic_utils.py:get_pitch_string", "harmonic_inference/utils/harmonic_utils.py:get_pitch_from_string", "harmonic_inference/utils/harmonic_utils.py:get_accidental_adjustment"]}
{"id": "C07", "title": "Accidental parsing consumes exactly the accidentals", "statement": "get_accidental_adjustment returns (number of sharps minus number of flats on the chosen side, remaining text), the remaining text has no accidental left on that side, and gluing the stripped accidentals back restores the input. It terminates on each string and never strips a lone 'b' (the note b natural / degree).", "quantifier": "every string, both sides", "why_tests_cant": "Arbitrary strings; termination and restoration are statements over all lengths. Degenerate strings such as all-sharps are never tested.", "anchors": ["harmonic_inference/utils/harmonic_utils.py:get_accidental_adjustment"]}
{"id": "C08", "title": "Transposition is a group action on pitches and chord vectors", "statement": "transpose_pitch by a then b equals transposing by a+b, transposing by 0 is the identity, and by -a undoes a (whenever no step leaves the range); for MIDI the octave is irrelevant. Chord presence vectors transposed with transpose_chord_vector move bit p to p+interval (mod 12 for MIDI; dropped when it leaves the range for TPC) and nothing else changes.", "quantifier": "all integers intervals, all pitches, all vectors of the right length, both pitch types", "why_tests_cant": "Infinite family of interval compositions; order-dependent clipping errors appear only for particular pairs.", "anchors": ["harmonic_inference/utils/harmonic_utils.py:transpose_pitch", "harmonic_inference/utils/harmonic_utils.py:transpose_chord_vector"]}
{"id": "C09", "title": "Absolute/relative pitch conversion is invertible and bounded", "statement": "absolute_to_relative always lands inside [0, number of relative pitches) when it returns, is injective for a fixed key tonic, is invariant under transposing chord and tonic together, and it raises exactly when the (TPC) interval lies outside the supported (optionally padded) range.", "quantifier": "all pitches and tonics, both pitch types, padded or not", "why_tests_cant": "Invariance quantifies over simultaneous transpositions; rejection over all integers.", "anchors": ["harmonic_inference/utils/harmonic_utils.py:absolute_to_relative"]}
{"id": "C10", "title": "Pitch-type conversion respects enharmonic classes", "statement": "Converting a TPC pitch to MIDI maps each fifth up to +7 semitones mod 12, so that two TPC pitches get the same MIDI pitch iff they differ by a multiple of 12 fifths; MIDI to TPC to MIDI is the identity for every MIDI pitch.", "quantifier": "all TPC and MIDI pitches", "why_tests_cant": "The claim relates all pairs; unit tests check natural notes only.", "anchors": ["harmonic_inference/utils/harmonic_utils.py:get_pitch_from_string", "harmonic_inference/utils/harmonic_utils.py:get_pitch_string", "harmonic_inference/data/chord.py:Chord.to_pitch_type", "harmonic_inference/data/note.py:Note.to_pitch_type"]}
{"id": "C11", "title": "Scale degree and interval are inverse descriptions", "statement": "get_interval_from_scale_degree(get_scale_degree_from_interval(i, mode), mode) = i for each integer interval (mod 12 for MIDI), for both modes, so writing out and re-reading a relative root or key loses nothing.", "quantifier": "every integer interval (TPC), every interval mod 12 (MIDI), both modes", "why_tests_cant": "Accidental runs grow with the interval without bound.", "anchors": ["harmonic_inference/utils/harmonic_utils.py:get_interval_from_scale_degree", "harmonic_inference/utils/harmonic_utils.py:get_scale_degree_from_interval"]}
{"id": "C12", "title": "Nested applied keys resolve from the innermost outwards", "statement": "decode_relative_keys on 'k1/k2/.../kn' from a global key gives the key obtained by resolving kn in the global key, then k(n-1) in the result, ... and k1 last; the mode of the result is decided by the case of k1's numeral; an empty path is never silently accepted.", "quantifier": "every list of numerals with accidentals, of every depth, every start key", "why_tests_cant": "Depth is unbounded and order mistakes cancel out on symmetric examples such as V/V.", "anchors": ["harmonic_inference/utils/harmonic_utils.py:decode_relative_keys"]}
{"id": "C13", "title": "Reducing one-hot chords after the fact equals reducing before", "statement": "reduce_chord_one_hots applied to an index gives the index that the reduced chord (and dropped inversion) would have been given directly, for every option combination, and without reduction and with inversions kept it is the identity.", "quantifier": "all indices, reductions, inversion flags, pad/relative modes", "why_tests_cant": "Commutation over the function space of reductions.", "anchors": ["harmonic_inference/data/vector_decoding.py:reduce_chord_one_hots"]}
{"id": "C14", "title": "Reducing non-one-hot chord vectors keeps exactly one chord type", "statement": "reduce_chord_types on a vector with one chord type set yields a vector with exactly the reduced type set and everything else unchanged, for any reduction including those mapping a type to itself; remove_chord_inversions yields inversion 0 and the root as bass and nothing else changed.", "quantifier": "every vector, every reduction map", "why_tests_cant": "Only in-place aliasing order decides the result; it differs per reduction map.", "anchors": ["harmonic_inference/data/vector_decoding.py:reduce_chord_types", "harmonic_inference/data/vector_decoding.py:remove_chord_inversions"]}
{"id": "C15", "title": "Chord vectors decode to the chord that produced them", "statement": "Chord.to_vec followed by vector decoding recovers relative root, type, bass, inversion, onset/offset level, duration and key mode fields; the vector has the length that get_chord_vector_length announces, in every mode.", "quantifier": "every chord and key, both pitch types, padded or not", "why_tests_cant": "Block boundaries depend on all options; a shift by one is still a valid vector.", "anchors": ["harmonic_inference/data/chord.py:Chord.to_vec", "harmonic_inference/data/chord.py:get_chord_vector_length", "harmonic_inference/data/vector_decoding.py:decode_chord_vector"]}
{"id": "C16", "title": "Note vector transposition never changes a note into another unrelated note", "statement": "transpose_note_vector by an interval produces the vector of the transposed note (same octave, level and duration fields), or refuses when the transposed pitch is outside the range.", "quantifier": "every note vector, every integer interval, both pitch types", "why_tests_cant": "Range failures depend on the combination of every pitch and interval.", "anchors": ["harmonic_inference/data/vector_decoding.py:transpose_note_vector", "harmonic_inference/data/vector_decoding.py:decode_note_vector", "harmonic_inference/data/note.py:Note.to_vec"]}
{"id": "C17", "title": "A beam never holds more states than its size", "statement": "After any sequence of add / fits_in_beam / iteration calls without force, the beam (plain or hashed) reports at most beam_size states; forced insertion adds at most one.", "quantifier": "all beam sizes >= 1, all finite sequences of additions with arbitrary scores and hashes", "why_tests_cant": "Histories are unbounded and stale (invalidated) heap entries only accumulate in long ones.", "anchors": ["harmonic_inference/utils/beam_search_utils.py:Beam", "harmonic_inference/utils/beam_search_utils.py:HashedBeam"]}
{"id": "C18", "title": "Beam content is the best states seen", "statement": "After any sequence of additions, a plain beam holds a multiset of the k best of all states added (ties resolved for the earlier arrival only by strict comparison), and get_top_state returns one of maximum score among all states ever added.", "quantifier": "all histories and scores, all k >= 1", "why_tests_cant": "Top-k over arbitrary insertion orders is a universally quantified statement about histories.", "anchors": ["harmonic_inference/utils/beam_search_utils.py:Beam.add", "harmonic_inference/utils/beam_search_utils.py:Beam.get_top_state"]}
{"id": "C19", "title": "Hashed beam keeps at most one state per hash, the best of those it accepted", "statement": "In a hashed beam no two listed states have the same hash; the listed states are exactly the live heap entries; the smallest live score is always visible at the heap top; a state is replaced only by a strictly better state with equal hash or evicted only by a strictly better state.", "quantifier": "all histories of additions with arbitrary hash collisions", "why_tests_cant": "Requires an invariant connecting dictionary, heap and validity flags through all interleavings of replacement and eviction.", "anchors": ["harmonic_inference/utils/beam_search_utils.py:HashedBeam.add", "harmonic_inference/utils/beam_search_utils.py:HashedBeam._fix_beam_min", "harmonic_inference/utils/beam_search_utils.py:HashedBeam.__iter__"]}
{"id": "C20", "title": "Hashed beam quality bound", "statement": "Among all states ever added to a hashed beam the best one is always retained and returned by get_top_state, and a state absent from the final beam is either dominated by an equal-hash state at least as good or the beam is full of states at least as good.", "quantifier": "all histories", "why_tests_cant": "Requires reasoning about every past state, also those evicted then re-offered.", "anchors": ["harmonic_inference/utils/beam_search_utils.py:HashedBeam.add", "harmonic_inference/utils/beam_search_utils.py:HashedBeam.get_top_state"]}
{"id": "C21", "title": "fits_in_beam predicts add", "statement": "fits_in_beam(state) is True exactly when a following add(state) would insert the state; with check_hash=False it never returns False for a state that add would insert.", "quantifier": "every reachable beam and every state", "why_tests_cant": "The pruning in the search relies on the equivalence at every reachable beam state, including those with stale entries at the top.", "anchors": ["harmonic_inference/utils/beam_search_utils.py:Beam.fits_in_beam", "harmonic_inference/utils/beam_search_utils.py:HashedBeam.fits_in_beam"]}
{"id": "C22", "title": "An emptied beam can be reused like a new one", "statement": "After empty() a beam reports length 0 and accepts additions as a freshly built beam does.", "quantifier": "all histories before and after empty()", "why_tests_cant": "Only long-lived reuse would show the difference.", "anchors": ["harmonic_inference/utils/beam_search_utils.py:Beam.empty", "harmonic_inference/utils/beam_search_utils.py:HashedBeam.empty"]}
{"id": "C23", "title": "Range length is the signed distance between score positions", "statement": "get_range_length(a,b) equals the difference of the two positions measured along the measure chain: it is antisymmetric, additive (len(a,c)=len(a,b)+len(b,c)), zero only for equal positions, whatever the pick-up lengths, offsets and split measures.", "quantifier": "every measure table whose next column forms a chain, every pair/triple of positions in it", "why_tests_cant": "Unbounded number of measures and positions; additivity is a three-variable law.", "anchors": ["harmonic_inference/utils/rhythmic_utils.py:get_range_length"]}
{"id": "C24", "title": "Metrical levels are hierarchical", "statement": "get_metrical_level assigns downbeat 3, other beats 2, sub-beats 1 and everything else 0: level >= 2 iff the position is a whole number of beats after the downbeat, level >= 1 iff a whole number of sub-beats, level 3 iff the start of the measure; simple and compound metres both.", "quantifier": "every time signature, every rational beat and offset", "why_tests_cant": "Rational positions are infinite and compound metre detection branches on the signature.", "anchors": ["harmonic_inference/utils/rhythmic_utils.py:get_metrical_level", "harmonic_inference/utils/rhythmic_utils.py:get_metrical_level_lengths"]}
{"id": "C25", "title": "Chord ranges tile the piece", "statement": "Every chord range offered to the search starts at index 0 or at the end of another offered range, has start < end <= number of inputs, and only begins/ends at the first note of an onset; no range is offered twice; so any chain of ranges from 0 to the end labels each input exactly once.", "quantifier": "all change probability vectors, all duration caches, all thresholds", "why_tests_cant": "The worklist explores a data-dependent set; duplicates and gaps depend on its history.", "anchors": ["harmonic_inference/models/joint_model.py:HarmonicInferenceModel.get_chord_ranges"]}
{"id": "C26", "title": "Mandatory changes are never crossed", "statement": "No offered chord range contains strictly inside it a valid index whose change probability exceeds max_no_chord_change_prob, in particular a forced chord change (with max < 1); no range ends (before the end of the piece) where the probability is below min_chord_change_prob, in particular at a forced non-change (with min > 0); conversely each (start,end) meeting these conditions and the length limit is offered.", "quantifier": "all probability vectors, thresholds, forced sets", "why_tests_cant": "Soundness and completeness of the enumeration over all vectors.", "anchors": ["harmonic_inference/models/joint_model.py:HarmonicInferenceModel.get_chord_ranges", "harmonic_inference/models/joint_model.py:HarmonicInferenceModel._apply_forced_chord_changes"]}
{"id": "C27", "title": "Chord ranges respect the maximum length", "statement": "Each offered range lasts at most max_chord_length, and no admissible range of at most that length is omitted.", "quantifier": "all duration caches and limits", "why_tests_cant": "Boundary arithmetic at the first and last notes of all pieces.", "anchors": ["harmonic_inference/models/joint_model.py:HarmonicInferenceModel.get_chord_ranges"]}
{"id": "C28", "title": "A chord range never covers two different forced labels", "statement": "If two inputs inside one offered chord range are both forced to chords (or keys), they are forced to the same chord (key).", "quantifier": "all forced-label dictionaries", "why_tests_cant": "Depends on position parity relative to onsets and end of piece.", "anchors": ["harmonic_inference/models/joint_model.py:HarmonicInferenceModel.get_chord_ranges", "harmonic_inference/models/joint_model.py:HarmonicInferenceModel._validate_and_load_forced_labels"]}
{"id": "C29", "title": "A search state describes a well-formed analysis", "statement": "For every state reachable by chord transitions, rejoins and key transitions: change indices strictly increase from 0, get_chords returns exactly one chord per interval between consecutive change indices and covers [0, change_index), get_keys covers the same interval with no two equal adjacent keys, and adjacent chords differ unless the key changed between them.", "quantifier": "all finite operation histories", "why_tests_cant": "Histories are unbounded trees of linked states.", "anchors": ["harmonic_inference/utils/beam_search_utils.py:State.chord_transition", "harmonic_inference/utils/beam_search_utils.py:State.key_transition", "harmonic_inference/utils/beam_search_utils.py:State.rejoin", "harmonic_inference/utils/beam_search_utils.py:State.get_chords", "harmonic_inference/utils/beam_search_utils.py:State.get_keys"]}
{"id": "C30", "title": "A state's log probability is the sum of the terms charged to its analysis", "statement": "The log probability of a reachable state equals the sum of the range/chord/key/sequence terms of its path; rejoining a split range removes exactly the terms of the key and chord sequence models charged at the split and nothing else, so that a joined chord is scored as one chord.", "quantifier": "all histories of transitions, prior additions and rejoins", "why_tests_cant": "Accumulation error depends on the history (copies drop the recorded terms).", "anchors": ["harmonic_inference/utils/beam_search_utils.py:State.rejoin", "harmonic_inference/utils/beam_search_utils.py:State.add_ktm_log_prob", "harmonic_inference/utils/beam_search_utils.py:State.add_csm_prior", "harmonic_inference/utils/beam_search_utils.py:State.copy"]}
{"id": "C31", "title": "Equal hash means equal recent analysis", "statement": "The hash of a reachable state is determined by exactly the last hash_length (key, chord) pairs of its analysis, padded when shorter; two states with equal hash tuples agree on those pairs, and states agreeing on them have equal hash.", "quantifier": "all histories, all hash lengths >= 1", "why_tests_cant": "Sliding windows over unbounded histories; rejoin and key change rewrite the last entry.", "anchors": ["harmonic_inference/utils/beam_search_utils.py:State.__init__", "harmonic_inference/utils/beam_search_utils.py:State.get_hash", "harmonic_inference/utils/beam_search_utils.py:State.rejoin"]}
{"id": "C32", "title": "Key transitions stay in the supported range and really change the key", "statement": "Each state produced by get_key_change_states has a valid key different from the key it left, equal to the forced key if one is set, and a chord whose root and bass are inside the relative range of the new key; at most max_key_branching_factor are produced for each state.", "quantifier": "all prior vectors, states and forced keys", "why_tests_cant": "Ranges over all permutations of priors.", "anchors": ["harmonic_inference/models/joint_model.py:HarmonicInferenceModel.get_key_change_states", "harmonic_inference/utils/beam_search_utils.py:State.key_transition", "harmonic_inference/utils/beam_search_utils.py:State.chord_transition"]}
{"id": "C33", "title": "Key change and no-change branches are charged separately", "statement": "In one search step, a state that may both keep and change its key yields a keep branch charged with the no-change probability and change branches charged with the change probability; neither receives the other's charge.", "quantifier": "all states and probabilities", "why_tests_cant": "Aliasing between the copy and the original only matters on one branch combination.", "anchors": ["harmonic_inference/models/joint_model.py:HarmonicInferenceModel.beam_search"]}
{"id": "C34", "title": "Forced key changes and non-changes are honoured", "statement": "In the harmony returned for a piece with forced key changes at some indexes, the key changes at each of these, and does not change at any forced non-change index.", "quantifier": "all pieces, models and forced sets", "why_tests_cant": "Depends on what the models would otherwise prefer.", "anchors": ["harmonic_inference/models/joint_model.py:HarmonicInferenceModel.get_harmony", "harmonic_inference/models/joint_model.py:HarmonicInferenceModel._validate_and_load_forced_labels", "harmonic_inference/models/joint_model.py:HarmonicInferenceModel.beam_search"]}
{"id": "C35", "title": "Forced chords are honoured", "statement": "Every chord branch generated for a range that contains an input forced to a chord has that chord id; forced labels validated as consistent make forced id arrays agree with every given (start,end) label.", "quantifier": "all forced dictionaries, priors and ranges", "why_tests_cant": "Quantifies over all overlapping label dictionaries and orders.", "anchors": ["harmonic_inference/models/joint_model.py:HarmonicInferenceModel.beam_search", "harmonic_inference/models/joint_model.py:HarmonicInferenceModel._validate_and_load_forced_labels"]}
{"id": "C36", "title": "Branching factor is the smallest prefix reaching the target mass", "statement": "The number of chords (keys) branched on is the least number whose sorted probability mass reaches the target, limited to [1, max branching factor]; if the mass never reaches the target the maximum is used.", "quantifier": "all probability vectors and targets", "why_tests_cant": "Floating and degenerate vectors where the mass is never reached are outside test data.", "anchors": ["harmonic_inference/models/joint_model.py:HarmonicInferenceModel.beam_search", "harmonic_inference/models/joint_model.py:HarmonicInferenceModel.get_key_change_states"]}
{"id": "C37", "title": "Removing repeats leaves a single playable path", "statement": "After remove_repeats and remove_unreachable, each remaining measure has at most one next measure, the last has none, and the remaining measures are exactly those reachable from the first measure of each piece.", "quantifier": "all measure tables", "why_tests_cant": "Graph reachability over all tables, including cycles.", "anchors": ["harmonic_inference/utils/corpus_utils.py:remove_repeats", "harmonic_inference/utils/corpus_utils.py:remove_unmatched"]}
{"id": "C38", "title": "Note offsets are consistent with onsets and durations", "statement": "add_note_offsets places each note's offset so that the distance from onset to offset along the measure chain is its duration, normalised to a position inside a measure (or in the last measure).", "quantifier": "all measure tables, notes and durations", "why_tests_cant": "Durations may span any number of measures.", "anchors": ["harmonic_inference/utils/corpus_utils.py:add_note_offsets"]}
{"id": "C39", "title": "Merging ties conserves total sounding duration", "statement": "merge_ties keeps the total duration of tied chains: each chain becomes one note with the onset of the first, the offset of the last and the sum of the durations; untied and grace notes are untouched; no note is absorbed twice.", "quantifier": "all note tables", "why_tests_cant": "Chains are of any length and may be malformed.", "anchors": ["harmonic_inference/utils/corpus_utils.py:merge_ties"]}
{"id": "C40", "title": "Accuracies are proportions and respect leniency", "statement": "Chord and key accuracies lie in [0,1], equal 1 iff every positive-duration input is correct, do not decrease when inversions are ignored or chord types are reduced or only the tonic is compared, and the joint accuracy is at most each of the individual ones.", "quantifier": "all estimated and gold label sequences and durations", "why_tests_cant": "Inequalities between metrics over all label sequences.", "anchors": ["harmonic_inference/utils/eval_utils.py:evaluate_chords", "harmonic_inference/utils/eval_utils.py:evaluate_keys", "harmonic_inference/utils/eval_utils.py:evaluate_chords_and_keys_jointly"]}
{"id": "C41", "title": "Annotation tables are lossless", "statement": "The annotation table written for a state (a row where the key changes and a row where the chord changes) loses nothing: at every input that lasts, the last key row and the last chord row up to its position are the key and chord the state gives it; every row is the label of an input that lasts; and successive rows of a kind differ.", "quantifier": "all states", "why_tests_cant": "Run-length structure over arbitrary sequences.", "anchors": ["harmonic_inference/utils/eval_utils.py:get_annotation_df"]}
{"id": "C42", "title": "Data splits partition the corpus", "statement": "The train/valid/test split assigns each piece to exactly one split, whatever the proportions, and keeps file ids and pieces aligned.", "quantifier": "all corpora and split proportions", "why_tests_cant": "Rounding of boundaries for all sizes.", "anchors": ["harmonic_inference/data/datasets.py:get_split_file_ids_and_pieces"]}
{"id": "C43", "title": "Saving and loading a dataset gives back the same items", "statement": "A dataset written to h5 and read back yields the same inputs (cut to their stored length) and targets for every item.", "quantifier": "all datasets", "why_tests_cant": "Ragged lengths over arbitrary pieces.", "anchors": ["harmonic_inference/data/datasets.py:HarmonicDataset.to_h5", "harmonic_inference/data/datasets.py:h5_to_dataset", "harmonic_inference/data/datasets.py:HarmonicDataset.pad"]}
{"id": "C44", "title": "Dataset items do not depend on access history", "statement": "dataset[i] returns the same value however often and in whatever order items were read before (shuffling or several epochs do not change the data).", "quantifier": "all finite access sequences", "why_tests_cant": "History independence is a statement about all access orders.", "anchors": ["harmonic_inference/data/datasets.py:KeyHarmonicDataset.__getitem__", "harmonic_inference/data/datasets.py:HarmonicDataset.__getitem__"]}
{"id": "C45", "title": "Initial chord priors are probability distributions", "statement": "The priors estimated by the initial chord model are positive (with smoothing), sum to 1 for each mode, and reducing/removing inversions conserves total mass.", "quantifier": "all training sets and smoothing values > 0", "why_tests_cant": "Sums over arbitrary counts.", "anchors": ["harmonic_inference/models/initial_chord_models.py:train_icm", "harmonic_inference/models/initial_chord_models.py:SimpleInitialChordModel.__init__"]}
{"id": "C46", "title": "Removing repeated chords leaves no adjacent repeats and loses no change", "statement": "Filtering a chord (or key) list with get_reduction_mask keeps the first element of every maximal run of repeated elements, drops the others, and no two adjacent kept elements are repetitions of each other.", "quantifier": "all lists, with is_repeated over all options", "why_tests_cant": "Runs of arbitrary length; needs is_repeated to be an equivalence.", "anchors": ["harmonic_inference/data/piece.py:get_reduction_mask", "harmonic_inference/data/chord.py:Chord.is_repeated", "harmonic_inference/data/key.py:Key.is_repeated"]}
{"id": "C47", "title": "Chord changes point at the first note of each chord", "statement": "For each chord the recorded change index is the first note whose onset is not before the chord's onset (the last note if there is none), indexes never decrease, and looking up the chord(s) in a note range returns exactly the chords overlapping it.", "quantifier": "all pieces", "why_tests_cant": "Interleaving of arbitrary onsets.", "anchors": ["harmonic_inference/data/piece.py:get_score_piece_from_data_frames", "harmonic_inference/data/piece.py:Piece.get_chords_within_range", "harmonic_inference/data/piece.py:get_range_start"]}
{"id": "C48", "title": "Duration cache telescopes", "statement": "Summing the duration cache between two inputs gives the distance between their onsets, the last entry is the distance from the last input to the end of the last chord (or of the latest note), and entries are non-negative for onset-sorted pieces.", "quantifier": "all pieces, all index pairs", "why_tests_cant": "Sums over arbitrary ranges.", "anchors": ["harmonic_inference/data/piece.py:ScorePiece.get_duration_cache"]}
{"id": "C49", "title": "Score positions given by users are mapped to the first note there", "statement": "convert_score_positions returns the index of the first note at each given position; a position with no note is rejected with ValueError, never mapped to another note.", "quantifier": "all pieces and positions", "why_tests_cant": "Positions outside the piece are not tested.", "anchors": ["harmonic_inference/utils/forces.py:convert_score_positions_to_note_indexes"]}
{"id": "C50", "title": "User forced labels are parsed completely", "statement": "A forced chord label parses to the root, type and inversion it spells, for each chord type and inversion the label lists print.", "quantifier": "all chord labels", "why_tests_cant": "Regular-expression alternation order matters for all types.", "anchors": ["harmonic_inference/utils/forces.py:extract_forces_from_musescore", "harmonic_inference/utils/forces.py:CHORD_REGEX"]}
{"id": "C51", "title": "Chord changes strings split without loss", "statement": "split_changes_into_list splits a chord-tone change string into tokens which concatenate to the input, each ending in its digit; a pitch is added or removed as annotated for each token.", "quantifier": "all strings of changes", "why_tests_cant": "Arbitrary strings.", "anchors": ["harmonic_inference/utils/harmonic_utils.py:split_changes_into_list", "harmonic_inference/utils/harmonic_utils.py:get_added_and_removed_pitches"]}
{"id": "C52", "title": "Scores and annotations stay paired when loading pieces", "statement": "load_pieces pairs each score with the annotation of the same file, also when some annotation is missing.", "quantifier": "all directory contents", "why_tests_cant": "Subsets of missing files.", "anchors": ["harmonic_inference/utils/data_utils.py:load_pieces"]}
{"id": "C53", "title": "Input windows around a chord contain its notes", "statement": "The window of inputs given to the chord classifier for a range contains the notes of the range in order, padded with zeros to a fixed size on both sides, whatever the position of the range in the piece.", "quantifier": "all pieces, ranges and window sizes", "why_tests_cant": "Boundary padding at all combinations.", "anchors": ["harmonic_inference/data/piece.py:get_chord_note_input"]}
{"id": "C54", "title": "The score of a segmentation is that of its changes", "statement": "The log probabilities of the ranges of any segmentation of the piece add up to one change term for each onset where a chord ends and one no-change term for each other onset.", "quantifier": "all probability vectors, duration caches, thresholds and segmentations made of offered ranges", "why_tests_cant": "The sums depend on which onsets are skipped along each of exponentially many segmentations.", "anchors": ["harmonic_inference/models/joint_model.py:HarmonicInferenceModel.get_chord_ranges"]}
{"id": "C55", "title": "Joining two chords costs what not splitting them would have", "statement": "If (s,m), (m,e) and (s,e) are all offered, the log probabilities of the two parts plus the rejoin adjustment of the second equal the log probability of (s,e).", "quantifier": "all probability vectors, duration caches, thresholds and pairs of ranges", "why_tests_cant": "The same algebraic identity on all inputs.", "anchors": ["harmonic_inference/models/joint_model.py:HarmonicInferenceModel.get_chord_ranges", "harmonic_inference/utils/beam_search_utils.py:State.rejoin"]}
{"id": "C56", "title": "Every chord of the result fits its key", "statement": "In the harmony found, the root and the bass of each chord lie in the range of pitches relative to the tonic of its key that the relative vocabularies can express; chords outside it are only kept while their key can still change.", "quantifier": "all inputs, model outputs and forced labels", "why_tests_cant": "The range is enforced through a flag carried between transitions, rejoins and key changes.", "anchors": ["harmonic_inference/utils/beam_search_utils.py:State.chord_transition", "harmonic_inference/utils/beam_search_utils.py:State.key_transition", "harmonic_inference/utils/beam_search_utils.py:State.rejoin", "harmonic_inference/models/joint_model.py:HarmonicInferenceModel.beam_search"]}
{"id": "C57", "title": "A beam drops states only when it is full", "statement": "While a beam has room, no analysis reaching it is dropped; the result is the best state of the last beam, so offering more ranges never makes it worse as long as no beam overflows.", "quantifier": "all inputs and model outputs", "why_tests_cant": "Pruning decisions depend on scores of states added before.", "anchors": ["harmonic_inference/models/joint_model.py:HarmonicInferenceModel.beam_search", "harmonic_inference/utils/beam_search_utils.py:Beam.fits_in_beam"]}
{"id": "C58", "title": "Note positions in a range do not depend on the nearer end", "statement": "get_rhythmic_info_as_proportion_of_range gives onset, offset and duration as the note's position in the range divided by the length of the range, whether the code measured from the start or from the end, and whether or not the length was passed in; an empty range is an error.", "quantifier": "all measure tables, ranges, notes", "why_tests_cant": "Which end is used depends on measure numbers; equality of the two computations needs additivity for all tables.", "anchors": ["harmonic_inference/utils/rhythmic_utils.py:get_rhythmic_info_as_proportion_of_range"]}
{"id": "C59", "title": "Caching metrical levels changes nothing", "statement": "Reading notes or chords with a shared levels cache gives the same metrical levels as without, whatever was read before.", "quantifier": "every sequence of (beat, time signature) queries", "why_tests_cant": "History dependence over unbounded query sequences, equal fractions written differently.", "anchors": ["harmonic_inference/data/note.py:Note.from_series", "harmonic_inference/data/chord.py:Chord.from_series"]}
{"id": "C60", "title": "Chord durations fill the piece", "statement": "add_chord_metrical_data gives each chord the time from its onset to the onset of the next chord of the piece, and the last one the time to the end of the last measure, so the durations of the chords of a piece add up to the time from the first chord to its end; chords without positive duration are dropped by load_clean_corpus_dfs.", "quantifier": "all pieces whose measures form one path and whose chords are in measure order", "why_tests_cant": "Durations are accumulated by walking over arbitrarily many measures with offsets and skipped endings.", "anchors": ["harmonic_inference/utils/corpus_utils.py:add_chord_metrical_data", "harmonic_inference/data/corpus_reading.py:load_clean_corpus_dfs"]}
{"id": "C61", "title": "Cleaned notes have consistent times", "statement": "In the notes returned by load_clean_corpus_dfs every note starts inside a measure that is played, is one of the given notes, and ends exactly its duration after its onset, also when it stands for a chain of tied notes; the total duration of the notes that are not dropped is unchanged.", "quantifier": "all corpora whose measures have unique numbers and next pointers that lead forward on the path played", "why_tests_cant": "Composition of four passes (repeats, invalid onsets, offsets, ties) over all tables.", "anchors": ["harmonic_inference/data/corpus_reading.py:load_clean_corpus_dfs", "harmonic_inference/utils/corpus_utils.py:add_note_offsets", "harmonic_inference/utils/corpus_utils.py:merge_ties"]}
{"id": "C62", "title": "Key changes of a piece agree with its chords", "statement": "get_score_piece_from_data_frames returns keys and key change indexes such that the key in force at every chord (the last key change at or before it) is the key the chord was read in, key changes are strictly increasing and consecutive keys differ.", "quantifier": "all note and label tables that can be loaded", "why_tests_cant": "Three masks (repeated chords, key columns, repeated keys) are composed over arbitrary tables.", "anchors": ["harmonic_inference/data/piece.py:get_score_piece_from_data_frames", "harmonic_inference/data/piece.py:get_reduction_mask"]}
{"id": "C63", "title": "Notes keep their height", "statement": "The MIDI note number of a note read from a corpus row is the midi column of the row, whenever the spelling of the row fits that number.", "quantifier": "all rows, all pitch types", "why_tests_cant": "All rows and spellings.", "anchors": ["harmonic_inference/data/note.py:Note.from_series", "harmonic_inference/data/note.py:Note.get_midi_note_number"]}
{"id": "C64", "title": "Models are trained on the inputs the search gives them", "statement": "For a piece with known harmony, the rows of the chord sequence and key datasets are exactly the inputs that the search computes for the chord and key models when it holds the same chords and keys, and the training targets are the indexes the search looks up.", "quantifier": "all pieces, analyses and model outputs", "why_tests_cant": "Training and search compute their inputs in different modules; agreement is needed for every piece and position.", "anchors": ["harmonic_inference/data/datasets.py:ChordSequenceDataset", "harmonic_inference/data/datasets.py:KeyTransitionDataset", "harmonic_inference/utils/beam_search_utils.py:State.get_csm_input", "harmonic_inference/utils/beam_search_utils.py:State.get_ktm_input"]}
{"id": "C65", "title": "Transposed training items are transpositions", "statement": "Each index of the chord classification dataset is one (chord, transposition) pair; its item is the chord with its notes and its target transposed by that interval, or is marked as unusable exactly if the transposition leaves the range of pitches.", "quantifier": "all chords, note windows, reductions and transposition ranges", "why_tests_cant": "Index arithmetic and pitch ranges interact over all items.", "anchors": ["harmonic_inference/data/datasets.py:ChordClassificationDataset.__getitem__", "harmonic_inference/data/datasets.py:ChordClassificationDataset.reduce"]}
{"id": "C66", "title": "Items of the key datasets end at the key changes", "statement": "Every item of the key transition dataset covers the chords up to the next key change with target one there and zero at the chords where the key stays; every item of the key sequence dataset ends at a key change and has the change to the next key as its target. The chord at the change is seen from the key that ends.", "quantifier": "all pieces, items and access sequences", "why_tests_cant": "The rows are shared between items and overwritten when an item is read.", "anchors": ["harmonic_inference/data/datasets.py:KeyTransitionDataset", "harmonic_inference/data/datasets.py:KeySequenceDataset", "harmonic_inference/data/datasets.py:KeyHarmonicDataset.__getitem__"]}
{"id": "C67", "title": "Dataset items can be reduced", "statement": "Reducing the inputs of an item of the sequence datasets to fewer chord types or to no inversions gives the vectors of the reduced chords.", "quantifier": "all datasets, items and reductions", "why_tests_cant": "The width of the rows decides which branch is taken.", "anchors": ["harmonic_inference/data/datasets.py:ChordSequenceDataset.reduce", "harmonic_inference/data/datasets.py:KeyHarmonicDataset.reduce", "harmonic_inference/data/vector_decoding.py:reduce_chord_types", "harmonic_inference/data/vector_decoding.py:remove_chord_inversions"]}
{"id": "C68", "title": "Pitch-based chord targets are the pitches of the chord", "statement": "With pitch-based targets the target of a chord is the set of its pitches relative to the local tonic; it is measured at every chord but the first one and those at key changes; and the search weighs the outputs with the same set.", "quantifier": "all chords, vocabularies, reductions and states", "why_tests_cant": "Each of the hundreds of relative chords has its own offset.", "anchors": ["harmonic_inference/data/datasets.py:ChordSequenceDataset.reduce", "harmonic_inference/utils/beam_search_utils.py:State.add_csm_prior"]}
{"id": "C69", "title": "Contradictory forced labels are refused", "statement": "get_harmony accepts forced changes, non-changes and labels exactly if they do not contradict each other: changes at onsets inside the piece, different labels at changes, equal labels at non-changes, one label per input, and no key change without a chord change; otherwise it raises ArgumentError.", "quantifier": "all forced sets and dictionaries", "why_tests_cant": "All combinations of overlapping labels and change sets.", "anchors": ["harmonic_inference/models/joint_model.py:HarmonicInferenceModel._validate_and_load_forced_labels"]}
{"id": "C70", "title": "The harmony returned has the forced chord changes and chords", "statement": "In the harmony that get_harmony returns, chords change only at onsets, at every forced change and at no forced non-change, and every input has the chord it is forced to.", "quantifier": "all pieces, model outputs and accepted forced labels", "why_tests_cant": "Validation, range generation, rejoining and the search interact for every piece.", "anchors": ["harmonic_inference/models/joint_model.py:HarmonicInferenceModel.get_harmony", "harmonic_inference/models/joint_model.py:HarmonicInferenceModel._apply_forced_chord_changes", "harmonic_inference/models/joint_model.py:HarmonicInferenceModel.get_chord_ranges"]}
{"id": "C71", "title": "The table of results has the labels in force", "statement": "get_results_df writes a row for each input that lasts, in order, with its duration and the texts of the true and the estimated chord and key at that input, converted to the pitch type asked for; the accuracies reported by evaluate_chords, evaluate_keys and evaluate_chords_and_keys_jointly are the time of the rows whose texts agree divided by the time of all rows.", "quantifier": "all pieces, analyses and pitch types", "why_tests_cant": "Tables, label lists and accuracies are computed in different functions; agreement is needed for every piece and analysis.", "anchors": ["harmonic_inference/utils/eval_utils.py:get_results_df", "harmonic_inference/utils/eval_utils.py:evaluate_chords", "harmonic_inference/utils/eval_utils.py:evaluate_keys"]}
{"id": "C72", "title": "The table of true labels says what the score says", "statement": "get_labels_df writes for each input that lasts the root and tonic (as fifths from a chosen C and as MIDI pitches), type, inversion, mode and alterations of the chord and key in force there.", "quantifier": "all pieces and choices of C", "why_tests_cant": "Unbounded pieces; the alterations are rendered from text to text.", "anchors": ["harmonic_inference/utils/eval_utils.py:get_labels_df"]}
{"id": "C73", "title": "Coloured labels are right about the analysis", "statement": "get_label_df writes a row where the true or the estimated chord (or key) changes and nowhere else, with the estimated label (or -- if the estimate goes on), green iff it is right, yellow iff only the inversion or the seventh (or the mode) is wrong, red otherwise.", "quantifier": "all pieces and analyses", "why_tests_cant": "The table compares texts with those of the last row over unbounded pieces.", "anchors": ["harmonic_inference/utils/eval_utils.py:get_label_df"]}
{"id": "C74", "title": "Options in json files are read as the values they name", "statement": "load_kwargs_from_json returns every field under its name: a text that names a pitch type, chord type or reduction becomes that value, everything else stays as it is.", "quantifier": "all json objects", "why_tests_cant": "The texts are matched by substring and prefix; arbitrary fields.", "anchors": ["harmonic_inference/utils/data_utils.py:load_kwargs_from_json"]}
{"id": "C75", "title": "The search runs to its end", "statement": "beam_search returns (a state or None) and raises no exception, for every well-formed input: consistent sizes of the piece data, forced ids inside the vocabularies, non-empty ranges inside the piece, network outputs of the documented sizes.", "quantifier": "all pieces, ranges, forced chords and keys, parameters, and all outputs of the networks", "why_tests_cant": "Any lookup in the hot loop may raise; the calls made depend on all earlier ones.", "anchors": ["harmonic_inference/models/joint_model.py:HarmonicInferenceModel.beam_search", "harmonic_inference/utils/beam_search_utils.py:State.chord_transition", "harmonic_inference/utils/beam_search_utils.py:State.key_transition", "harmonic_inference/utils/beam_search_utils.py:State.rejoin"]}
{"id": "C76", "title": "A result is found exactly when the ranges lead through the piece", "statement": "For a well-formed input, beam_search returns a state (not None) if and only if the chord ranges contain a chain from the first input to the end of the piece.", "quantifier": "all pieces, ranges, forced chords and keys, parameters with min_key_change_prob <= max_no_key_change_prob, and all outputs of the networks", "why_tests_cant": "Pruning, key change thresholds and forced keys may empty a beam; this depends on every step of the search.", "anchors": ["harmonic_inference/models/joint_model.py:HarmonicInferenceModel.beam_search", "harmonic_inference/models/joint_model.py:HarmonicInferenceModel.get_key_change_states"]}
{"id": "C77", "title": "The cached key and chord objects of a search state are invisible", "statement": "Whatever states are made (State, chord_transition, key_transition, rejoin, copy) and whatever keys and chords are asked for before, get_key and get_chord of a state return its own tonic and mode, the global key of the first state of its path, and its own chord in its own key from the end of the state before to its own end: the same as if nothing was ever stored in key_obj and chord_obj.", "quantifier": "all sequences of calls with one pitch type, over any number of states sharing their past", "why_tests_cant": "Caches are filled at a first call, handed on to later states and shared with states that branch off; whether a stale object is ever seen depends on the order of all calls.", "anchors": ["harmonic_inference/utils/beam_search_utils.py:State.get_key", "harmonic_inference/utils/beam_search_utils.py:State.get_chord", "harmonic_inference/utils/beam_search_utils.py:State.chord_transition", "harmonic_inference/utils/beam_search_utils.py:State.key_transition", "harmonic_inference/utils/beam_search_utils.py:State.rejoin", "harmonic_inference/utils/beam_search_utils.py:State.copy"]}
{"id": "C78", "title": "The measure table of a MusicXML score is its time line", "statement": "get_measures_df_from_music21_score has one row for each measure not under a first ending, in order, each starting when the one before is over and lasting as long as in the score, with the time signature in force and the place in the bar where the measure starts; a pickup is the end of a bar. Every score with measures has such a table.", "quantifier": "all scores, repeat brackets, time signatures", "why_tests_cant": "Offsets and skipped endings accumulate over arbitrarily many measures.", "anchors": ["harmonic_inference/data/piece.py:get_measures_df_from_music21_score"]}
{"id": "C79", "title": "Labels of a csv file are placed at their times", "statement": "Chord.from_labels_csv_row puts onset and offset in the measure playing at the times of the row, at the same order and distance as the times, with the metrical levels of these positions.", "quantifier": "all scores, all labels", "why_tests_cant": "Times are turned into positions over tables with pickups and skipped endings.", "anchors": ["harmonic_inference/data/chord.py:Chord.from_labels_csv_row"]}
{"id": "C80", "title": "The notes of a MusicXML score are placed where the score has them", "statement": "get_notes_from_music_xml reads each note of each measure of the table once, in order, with its pitch, octave and duration, at its place in its measure; onset and offset are as far apart as the note is long; notes and labels at the same time get the same position.", "quantifier": "all scores", "why_tests_cant": "Notes tied over arbitrarily many measures of different lengths.", "anchors": ["harmonic_inference/data/piece.py:get_notes_from_music_xml", "harmonic_inference/data/note.py:Note.from_music21"]}
{"id": "C81", "title": "Pieces from MusicXML agree with their label files", "statement": "get_score_piece_from_music_xml gives one chord for each label that lies in the piece and lasts, at its times; change indexes and ranges point to the notes of the chord; the key in force at a chord is the one it was read in, neighbouring keys differ and the global key is the key of the first label.", "quantifier": "all scores and label files", "why_tests_cant": "Filters, masks and index lists are composed over arbitrary files.", "anchors": ["harmonic_inference/data/piece.py:get_score_piece_from_music_xml"]}
{"id": "C82", "title": "Labels of a csv file mean what they say", "statement": "Key.from_labels_csv_row and Chord.from_labels_csv_row read a key (letter, + and -), a degree with accidentals, possibly applied to a second degree, a chord type and an inversion as the tonic, mode, root, type, inversion and bass that they name on the line of fifths, and succeed exactly if these can be spelled.", "quantifier": "all keys, numbers of accidentals, degrees, types and inversions", "why_tests_cant": "Unboundedly many accidentals; degrees are rewritten by text replacement depending on the mode.", "anchors": ["harmonic_inference/data/key.py:Key.from_labels_csv_row", "harmonic_inference/data/chord.py:Chord.from_labels_csv_row"]}
{"id": "C83", "title": "The chord transition model is trained on the changes of the labels", "statement": "ChordTransitionDataset has one row per note: the plain vector of the note with its distance in time from the note before and to the note after. The target of a note is 1 exactly if a label starts there, 0 if the chord goes on, and -100 (not measured) for the first note and for notes that start together with the note before. Without labels the rows are the same (up to the last one) as those the search computes.", "quantifier": "all pieces", "why_tests_cant": "Masks, shifts and index writes are composed over arbitrary note and label lists.", "anchors": ["harmonic_inference/data/datasets.py:ChordTransitionDataset", "harmonic_inference/models/joint_model.py:HarmonicInferenceModel.get_chord_change_probs"]}
{"id": "C84", "title": "Notes, chords, keys and pieces come back from their dictionaries", "statement": "to_dict has the value of every field under its name; calling the class with it gives an equal object; equality is agreement in all fields and is an equivalence. to_pitch_type says every pitch in the new type and leaves everything else. A piece written with to_dict and read with get_score_piece_from_dict has equal notes, chords, keys, changes and ranges.", "quantifier": "all objects and pieces", "why_tests_cant": "Dictionaries are merged, filtered and compared field by field for every object.", "anchors": ["harmonic_inference/data/note.py:Note.to_dict", "harmonic_inference/data/chord.py:Chord.to_dict", "harmonic_inference/data/key.py:Key.to_dict", "harmonic_inference/data/chord.py:Chord.to_pitch_type", "harmonic_inference/data/piece.py:get_score_piece_from_dict", "harmonic_inference/data/piece.py:ScorePiece.to_dict"]}
{"id": "C85", "title": "Forced labels from a json file reach the piece they are meant for", "statement": "load_forces_from_json gives, for each object in the file, exactly the recognised fields: sets with the elements listed, and dictionaries in which a range written as \"(a, b)\" has its last label; names that say no numbers are refused. A file with such fields of its own is the default of all pieces. evaluate uses for a piece the entry whose key occurs in the name of the piece, or else the default, or nothing.", "quantifier": "all json values, all numbers, all piece names", "why_tests_cant": "Texts of unbounded length are taken apart character by character; the keys are gone through in the order of a hash set.", "anchors": ["test.py:load_forces_from_json", "test.py:evaluate"]}
{"id": "C86", "title": "Averages of a log are the means over the pieces", "statement": "average_results returns for every key that says accuracy, and no other, the mean of the values on the lines \"key = value\" of the file; for a log written by evaluate these are the means over the pieces of the eight accuracies. It fails if and only if such a value is not a number.", "quantifier": "all files and separators", "why_tests_cant": "Lines are split at a separator of any length; arbitrary other lines stand between.", "anchors": ["harmonic_inference/utils/eval_utils.py:average_results", "test.py:evaluate"]}
{"id": "C87", "title": "The models are trained on the questions of the pieces", "statement": "get_data_from_batch of the sequence models keeps each item and asks exactly its questions: the chord sequence model is asked, after every chord, for the next chord of the piece, except after the last one and at key changes; the chord transition model at every note with a known label, whether there the chord changes; the key transition model at every position of an item that has a target. Positions added by padding are never asked about.", "quantifier": "all datasets, batches, lengths", "why_tests_cant": "Masks, padding and a roll by one position interact for every mix of lengths in a batch.", "anchors": ["harmonic_inference/models/chord_sequence_models.py:ChordSequenceModel.get_data_from_batch", "harmonic_inference/models/chord_transition_models.py:ChordTransitionModel.get_data_from_batch", "harmonic_inference/models/key_transition_models.py:KeyTransitionModel.get_data_from_batch", "harmonic_inference/data/datasets.py:ChordSequenceDataset"]}
{"id": "C88", "title": "Evaluation reports the accuracy and loss over the whole dataset", "statement": "evaluate of each model returns the percentage of right answers and the mean loss over all questions of the dataset, whatever the batch size and however the questions are spread over the batches.", "quantifier": "all datasets, batch sizes and networks", "why_tests_cant": "The totals are put together from batches of different sizes, for every network and dataset.", "anchors": ["harmonic_inference/models/chord_sequence_models.py:ChordSequenceModel.evaluate", "harmonic_inference/models/chord_transition_models.py:ChordTransitionModel.evaluate", "harmonic_inference/models/chord_classifier_models.py:ChordClassifierModel.evaluate", "harmonic_inference/models/key_transition_models.py:KeyTransitionModel.evaluate", "harmonic_inference/models/key_sequence_models.py:KeySequenceModel.evaluate"]}
{"id": "C89", "title": "Batches do not matter at inference", "statement": "get_chord_classifications returns the output of the classifier for each range, in order; get_chord_change_probs that of the chord transition model for the notes of the piece; and the batched runs of the sequence models give each state the output for its own input (reduced as the model was trained) and its own hidden state; all independently of batch sizes and of what else is in the batch.", "quantifier": "all pieces, ranges, states, networks and batch sizes", "why_tests_cant": "The number of ranges and states of a search takes any value.", "anchors": ["harmonic_inference/models/joint_model.py:HarmonicInferenceModel.get_chord_classifications", "harmonic_inference/models/joint_model.py:HarmonicInferenceModel.get_chord_change_probs", "harmonic_inference/models/joint_model.py:HarmonicInferenceModel.run_csm_batched", "harmonic_inference/models/joint_model.py:HarmonicInferenceModel.get_key_change_states"]}
{"id": "C90", "title": "Each piece gets its own output files", "statement": "With --output, test.py writes for every piece that was processed its labels, results and midi results to files below the output directory that say the corpus and name of the piece, annotate.py the labels; no other files are written, none is overwritten by another piece, and without --output nothing is written.", "quantifier": "all lists of pieces, names, directories and results", "why_tests_cant": "Paths are made from names by splitting at spaces and replacing suffixes, for unbounded names and sets of pieces.", "anchors": ["test.py:evaluate", "annotate.py:annotate", "harmonic_inference/utils/data_utils.py:load_pieces"]}
{"id": "C91", "title": "A grid search runs every combination once", "statement": "grid_search.py prints one command per combination of the given parameter values; test.py, given the command, reads exactly the values of the combination, the same fixed options and an output directory that no other combination has.", "quantifier": "all lists of values of the searched parameters and all fixed options", "why_tests_cant": "The product of arbitrarily many lists of values; names are made from texts of values.", "anchors": ["grid_search.py", "test.py"]}
{"id": "C92", "title": "Aggregating annotations keeps every row of every piece", "statement": "aggregate_annotation_dfs writes to the aggregated tables exactly the rows of the tables of each piece found, under the index of the piece in files.tsv, in order; loading the result gives one piece per file.", "quantifier": "all directories of annotations", "why_tests_cant": "Quantifies over sets of files and tables, missing tables and earlier contents of the output directory.", "anchors": ["harmonic_inference/data/corpus_reading.py:aggregate_annotation_dfs", "harmonic_inference/utils/data_utils.py:load_pieces"]}
{"id": "C93", "title": "The checkpoints asked for are loaded", "statement": "load_models_from_argparse loads every model from the path given for it, or from the default place below --checkpoint, or from the given version there, by the first class that accepts the file; among several files it takes the latest; it exits with 2 if there is none for a model.", "quantifier": "all directories, arguments, versions and sets of files", "why_tests_cant": "Depends on every set of paths found and on replacing texts inside of other texts.", "anchors": ["harmonic_inference/utils/data_utils.py:load_models_from_argparse"]}
{"id": "C94", "title": "The debug log tells where the harmony is wrong", "statement": "log_state logs entries that follow each other through the whole piece; all inputs of an entry have the chord and key it gives, and a correction is given exactly if one of them is wrong and then gives the right ones; neighbouring entries differ; the lengths are the times between the positions given and add up to the piece, those of the entries without correction to the full accuracy. In verbose mode annotate.py writes the same labels.", "quantifier": "all pieces and analyses", "why_tests_cant": "Unbounded pieces with changes of four kinds of labels anywhere.", "anchors": ["harmonic_inference/utils/eval_utils.py:log_state", "annotate.py:annotate"]}
{"id": "C95", "title": "The data files hold the splits they are named after", "statement": "create_h5_data.py divides the files of the chosen corpora into three parts; afterwards, for every part that is not empty, the pickle file and the h5 file of every dataset class hold the pieces, the dataset and the ids of just that part, and no other file is changed. In a directory without files of that seed the splits have no id in common and together all of them. After any sequence of runs the pickle and h5 files of one seed and split come from the same part of the same run. train.py reads the datasets of its class for the first and second part, the initial chord model the pieces of the first, test.py those of the second or third, each with its own id.", "quantifier": "all inputs, corpora, proportions, seeds, sequences of runs, and constructors of datasets", "why_tests_cant": "Unbounded collections and sequences of runs with arbitrary parameters in one directory.", "anchors": ["create_h5_data.py", "harmonic_inference/data/datasets.py:get_dataset_splits", "train.py", "test.py"]}
{"id": "C96", "title": "Models the joint model accepts fit together", "statement": "The constructor of HarmonicInferenceModel returns exactly if the six models are given under their names, are of their classes, agree on the types of notes, chords and keys they exchange, and the thresholds are in order; otherwise it raises AssertionError. The object has the models, their types, the parameters, and labels for all chords, keys and key changes. The rows made for the networks in every state of a search have as many entries as the networks have inputs, the classes of the classifier are the chords of the labels, and the outputs are what beam_search needs: it returns, with a result if the ranges lead through the piece.", "quantifier": "all dictionaries of models, parameters, pieces, states and outputs of the networks of their sizes", "why_tests_cant": "The models come from files trained with any combination of options; tests use one set of checkpoints.", "anchors": ["harmonic_inference/models/joint_model.py:HarmonicInferenceModel.__init__", "harmonic_inference/models/joint_model.py:HarmonicInferenceModel.check_input_output_types", "harmonic_inference/models/chord_sequence_models.py", "harmonic_inference/models/key_transition_models.py", "harmonic_inference/models/key_sequence_models.py", "harmonic_inference/utils/beam_search_utils.py:State.get_csm_input"]}
{"id": "C97", "title": "Options and default tables reach the model", "statement": "Every option of the command line arrives at the parameter of its name. With --defaults or --fh-defaults and a known CSM version, the parameters are those of the table whatever else is given, are accepted by the constructor and can be searched with; with another version the script exits; without the flags the options are used as they are.", "quantifier": "all options, versions, flags and models", "why_tests_cant": "All combinations of twelve options, two flags and a version.", "anchors": ["annotate.py:set_default_args", "harmonic_inference/models/joint_model.py:from_args", "test.py", "README.md"]}
{"id": "C98", "title": "Accuracies of verbose runs", "statement": "In a verbose run on an annotated piece, the reported accuracies count what they name: chord changes and non-changes at inputs where a chord can change; ranges that are an annotated chord; states in the annotated key and chord. The items listed as wrong are exactly the wrong ones, and the messages never end the run.", "quantifier": "for all pieces, probabilities, classifications and states", "why_tests_cant": "The numbers are only written to a log that no code reads; a wrong count looks like a worse model. The cases that end a run need pieces of special shape (one chord, no unchanged input).", "anchors": ["harmonic_inference/models/joint_model.py:1419-1538", "harmonic_inference/models/joint_model.py:1540-1708", "harmonic_inference/models/joint_model.py:2045-2073", "harmonic_inference/models/joint_model.py:1710-1879", "harmonic_inference/models/joint_model.py:1881-1940", "harmonic_inference/models/joint_model.py:1942-2043", "harmonic_inference/models/joint_model.py:600-625", "harmonic_inference/models/joint_model.py:1083", "harmonic_inference/models/joint_model.py:1176"]}
{"id": "C99", "title": "Runs of the evaluation script", "statement": "A run of test.py over a list of pieces logs for each piece with a result its eight accuracies and writes its three tables to its own files; --average on the log of the run gives the averages of these accuracies over the pieces, up to the precision of the numbers written; of two questions the stricter has the lower accuracy, for each piece and on average; pieces without annotations are annotated and left out of the accuracies.", "quantifier": "for all lists of pieces, results of the search, forces and output directories", "why_tests_cant": "The log is only text between two runs of the script, with a format that no test pins; the averages depend on which lines look like accuracies, and on pieces that fail.", "anchors": ["test.py:185-360", "test.py:539-552", "harmonic_inference/utils/eval_utils.py:26-120", "harmonic_inference/utils/eval_utils.py:716-899", "harmonic_inference/utils/eval_utils.py:941-974"]}
{"id": "C100", "title": "Runs of the annotation script", "statement": "A run of annotate.py over a list of pieces, with models that the constructor accepts and that are of one kind, comes to its end and writes for each piece with a result one table, in its own file and nothing else. The table is an analysis of the piece: its notes are divided into chords and into keys that change only at onsets, neighbouring labels differ, and reading the table at the onset of any note gives the texts of its chord and its key. With pitches in semitones, changes allowed at every onset and no note longer than the longest chord, every piece has a table. A run that stops has written the tables of the pieces before.", "quantifier": "for all models and parameters the constructor accepts, all outputs of the networks, and all lists of pieces", "why_tests_cant": "End to end: needs that no step of range finding, search, labelling or writing fails for any outputs of the networks, and that the labels survive the way from ids over texts to the rows of a table.", "anchors": ["annotate.py:131-185", "harmonic_inference/models/joint_model.py:505-629", "harmonic_inference/utils/eval_utils.py:631-713", "harmonic_inference/utils/beam_search_utils.py:get_chords"]}
{"id": "C101", "title": "Labels written onto scores", "statement": "Writing the labels onto scores finds every file of labels below the output directory, each once and in the order of the paths, leaving out hidden files and directories; each is attempted with the score of the same directories and the same name below the annotations, and a failure is logged and does not keep the others from being attempted. The files found are those that the evaluation has written. Only the score with the name of the file of labels is taken.", "quantifier": "for all trees of files, output directories, annotation directories and failures of ms3", "why_tests_cant": "Depends on which entries glob matches and on what a name means as a regular expression; a test on one directory does not show names that contain each other.", "anchors": ["write_to_score.py:13-45", "harmonic_inference/utils/eval_utils.py:902-938", "test.py:150-182"]}
{"id": "C102", "title": "Data of the ML course script", "statement": "create_ml_course_data.py writes for each composer one line of key symbols per piece and the lines of its chords, and the vocabularies of the symbols written.", "quantifier": "for all corpora and all files that are there before", "why_tests_cant": "The script is not covered by any test; that it fails does not depend on the corpus, which one run on one corpus does not show.", "anchors": ["create_ml_course_data.py:14-98"]}
{"id": "C103", "title": "Rows of the datasets can be read back", "statement": "decode_key_change_vector reads the vector of a change of key as its interval and mode, and decode_chord_and_key_change_vector reads every row of the chord and key sequences of a piece: the chord at its distance from the tonic with its type, inversion and levels, and a change of key exactly at the first chord of each key but the first. A vector that says no interval is refused.", "quantifier": "for all pieces, keys, chords, both pitch types, with the type given for roots or for tonics", "why_tests_cant": "Composes slices and index arithmetic over every length of row; special to the combination of pitch types and padding.", "anchors": ["harmonic_inference/data/vector_decoding.py:decode_key_change_vector", "harmonic_inference/data/vector_decoding.py:decode_chord_and_key_change_vector", "harmonic_inference/data/key.py:Key.get_key_change_vector", "harmonic_inference/data/datasets.py:ChordSequenceDataset"]}
{"id": "C104", "title": "Cells of a corpus say what they are read as", "statement": "The converters used by read_dump read a cell as numbers exactly if it is numbers with \", \" between them, as a truth value exactly if it is a number (false if 0), and as a fraction exactly if it says one, as a ratio or as a decimal with an optional exponent; everything else is marked as missing. What is written as a list of numbers or as a fraction is read as the same. A cell that says no numbers is not taken for an empty one.", "quantifier": "for all texts, lists of numbers and fractions", "why_tests_cant": "The set of texts is infinite; signs, blanks, points, exponents and separators combine freely.", "anchors": ["harmonic_inference/data/corpus_constants.py:str2inttuple", "harmonic_inference/data/corpus_constants.py:int2bool", "harmonic_inference/data/corpus_constants.py:str2frac", "harmonic_inference/data/corpus_reading.py:read_dump"]}
{"id": "C105", "title": "Training and validation measure the questions of a batch", "statement": "For a batch of items of a dataset, training_step of each model returns the mean loss over the questions of the batch and validation_step logs that loss and the percentage of right answers: a question for each chord or key change that the items ask for, and for the classifier one for each item whose chord is in range after the transposition. Padding and items without a question are never counted, validation logs nothing if the classifier has no question, and evaluate leaves out the same items.", "quantifier": "for all batches, items, paddings and networks", "why_tests_cant": "The batches are made of sequences of any lengths with any paddings and targets, and the answers of the networks are arbitrary.", "anchors": ["harmonic_inference/models/chord_sequence_models.py:training_step", "harmonic_inference/models/chord_transition_models.py:validation_step", "harmonic_inference/models/key_transition_models.py:validation_step", "harmonic_inference/models/key_sequence_models.py:validation_step", "harmonic_inference/models/chord_classifier_models.py:validation_step", "harmonic_inference/models/chord_classifier_models.py:evaluate"]}
{"id": "C106", "title": "Runs of the training script", "statement": "In an epoch of training every item of the dataset is in exactly one batch, in whatever order the items are drawn; the batches are full except for the last one, every step comes to its end, and its loss is the mean over the questions of its batch. Validation goes through the items in order in the same way. The initial chord model that is written, when it is loaded again, gives each chord in its mode the share of the training pieces that begin with it, with smoothing by one.", "quantifier": "for all datasets, orders, networks and pieces", "why_tests_cant": "The order is random and the sizes of the datasets are arbitrary; failures depend on the remainder of the number of items by the batch size.", "anchors": ["train.py:main", "harmonic_inference/data/datasets.py:train_batch_size", "harmonic_inference/models/chord_classifier_models.py:training_step", "harmonic_inference/models/initial_chord_models.py:train_icm"]}
{"id": "C107", "title": "The transposition invariant classifier", "statement": "TranspositionInvariantCNNClassifier classifies a batch of pitch vectors, and does so independently of transposition: if a pitch vector is moved around the circle by k steps, the answers for each root are those given before for the root k steps away; every root is judged by the same feed-forward network. MusicScoreJointModel applies the stages that are asked for, the encoder first.", "quantifier": "for all weights, numbers of channels and layers, batches, transpositions and stages", "why_tests_cant": "Tests try a few shapes and weights; invariance is a statement about all weights and all transpositions.", "anchors": ["harmonic_inference/models/chord_classifier_models.py:TranspositionInvariantCNNClassifier.forward", "harmonic_inference/models/chord_classifier_models.py:TransformerEncoder.forward", "harmonic_inference/models/chord_classifier_models.py:MusicScoreJointModel.forward"]}
{"id": "C108", "title": "The recurrent models see the whole analysis", "statement": "Although the search runs the sequence models one step at a time and passes hidden states on from state to state, through chord changes, rejoined ranges, key changes and copies, every number it takes from them is the answer of the network to the complete analysis: the prior of a chord is that of the chord sequence model run from the start on all chords before it (the initial chord model for the first), the probability of a key change is that of the key transition model on all chords up to the new one, and the log priors of the new keys are those of the key sequence model on all chords up to the new one, although it is only given the chords since it was run last.", "quantifier": "for all networks, pieces, and all states that any run of the search can reach, whatever it branches on and keeps", "why_tests_cant": "The hidden states depend on the history of each state, including ranges that were rejoined and keys that were given up; tests can only follow a few of them.", "anchors": ["harmonic_inference/models/joint_model.py:run_csm_batched", "harmonic_inference/models/joint_model.py:get_key_change_probs", "harmonic_inference/models/joint_model.py:get_key_change_states", "harmonic_inference/utils/beam_search_utils.py:State.get_ksm_input", "harmonic_inference/utils/beam_search_utils.py:State.rejoin", "harmonic_inference/utils/beam_search_utils.py:State.key_transition"]}
{"id": "C109", "title": "Texts of notes, chords and keys", "statement": "repr() of a note, chord or key names its class and every field: two objects built by the constructors have the same repr exactly if they are equal with == (whose fractions and integers are compared by value), provided that no field but the suspension is a text and no suspension is the text None. str() tells exactly the shown part: two notes of one pitch type have the same str exactly if pitch class, octave, onset and offset agree; two chords, if root, type, inversion, bass, onset and offset agree; two keys, if tonic and mode of the (applied) key agree; MIDI pitches are compared modulo the octave. Neither raises on well-typed objects.", "quantifier": "for all objects that the constructors return, with any pitches (also outside the usual range), octaves, inversions and positions", "why_tests_cant": "Whether two different objects can look the same in a log is a statement about all pairs of objects; the parts of the texts are glued together without separators in places (pitch and octave, commas inside positions).", "anchors": ["harmonic_inference/data/note.py:__repr__", "harmonic_inference/data/note.py:__str__", "harmonic_inference/data/chord.py:__repr__", "harmonic_inference/data/chord.py:__str__", "harmonic_inference/data/key.py:__repr__", "harmonic_inference/data/key.py:__str__"]}
{"id": "C110", "title": "The published systems fit together and can be searched with", "statement": "With --checkpoint checkpoints-best or checkpoints-fh-best, and any of the published versions 0, 1, 2 of the chord sequence model or none given, the six models are found and loaded (version 2 if none is given), the joint model accepts them, also with the parameters of --defaults and --fh-defaults, the sizes of inputs and outputs match, and the search returns for every piece whose chords can be spelled, whatever the weights are; any other version ends the program with code 2. The options stored with the prior over first chords describe that prior, and the debug log reports the probability of the annotated first chord.", "quantifier": "for all names of checkpoint files and orders in which they are found, all weights and priors, all parameters in order, all pieces", "why_tests_cant": "The systems need checkpoints and scores to run; tests cannot go through all pieces and weights, and nothing compares the stored options of six models with each other.", "anchors": ["harmonic_inference/utils/data_utils.py:load_models_from_argparse", "harmonic_inference/models/joint_model.py:HarmonicInferenceModel", "harmonic_inference/models/initial_chord_models.py:SimpleInitialChordModel", "harmonic_inference/models/joint_model.py:debug_initial_chord_prior", "checkpoints-best", "checkpoints-fh-best"]}
{"id": "C111", "title": "Labels are written at the place of the note they start with", "statement": "In the tables of labels that annotate.py and test.py write, mc, mc_onset and mn_onset of a row are those of the note at which the label starts: for a corpus piece the columns of the row of the notes table, for a MusicXML score the measure of the note and its distance from the start of the measure and of the bar. The two onsets of a row name the same place if those of the notes do, and the rows are in the order of the notes.", "quantifier": "for all pieces, tables of notes, scores, durations and harmonies found", "why_tests_cant": "Pieces with upbeats, split measures and first endings are what makes the three columns differ; any note can start a label.", "anchors": ["harmonic_inference/utils/eval_utils.py:get_annotation_df", "harmonic_inference/utils/eval_utils.py:get_label_df", "harmonic_inference/data/note.py:from_series", "harmonic_inference/data/note.py:from_music21"]}
{"id": "C112", "title": "Uses of one model do not influence each other", "statement": "A HarmonicInferenceModel can be used for any number of pieces: each call of get_harmony returns (or raises) what it would on a new model with the same arguments, whatever calls were made before it, including refused ones and ones with other forced labels. The sets the caller passes are not changed.", "quantifier": "for all sequences of calls, pieces, networks and sets of forces, shared between calls or not", "why_tests_cant": "Needs all orders of calls on one object and all ways of sharing a set between arguments and calls.", "anchors": ["harmonic_inference/models/joint_model.py:HarmonicInferenceModel.get_harmony", "harmonic_inference/models/joint_model.py:HarmonicInferenceModel._validate_and_load_forced_labels"]}
{"id": "C113", "title": "A copied search state stands for the original", "statement": "State.copy returns a deep copy: all continuations of the copy (another chord, another key, the same chord for longer) have the scores, keys and ends that those of the original have.", "quantifier": "for all states, chords, keys, ranges and scores", "why_tests_cant": "A copy is made deep inside the search for states with both key possibilities; a lost field shows only in the scores of later continuations.", "anchors": ["harmonic_inference/utils/beam_search_utils.py:State.copy", "harmonic_inference/models/joint_model.py:HarmonicInferenceModel.beam_search"]}
{"id": "C114", "title": "A probability of zero only excludes what it applies to", "statement": "When a model gives probability 0 (log -inf), the analyses that use it score -inf and all others keep their scores: if the chord goes on, the charges of the models for its shorter version are taken back exactly, and the best analysis with a real score is found.", "quantifier": "for all scores, charges, probabilities including 0, and beams", "why_tests_cant": "Needs float infinities in rare places: a saturated network output, or a key forced inside the first chord; the search goes on silently with nan.", "anchors": ["harmonic_inference/utils/beam_search_utils.py:State.rejoin", "harmonic_inference/utils/beam_search_utils.py:Beam.add", "harmonic_inference/utils/beam_search_utils.py:Beam.get_top_state", "harmonic_inference/models/joint_model.py:HarmonicInferenceModel.beam_search"]}
{"id": "C115", "title": "Class numbers survive storage in half precision", "statement": "Datasets are padded, written to h5 files and loaded as np.float16, which holds all whole numbers only up to 2048. Every number that the chord, key and key change encoders give is stored as it is, and a dataset of binary vectors with chord numbers as targets comes back from its file unchanged.", "quantifier": "for all chords, keys, pitch types, reductions, inversion, relative and padding options, and all datasets", "why_tests_cant": "The largest classes occur only for rare chords; a vocabulary that grows past 2048 would silently merge classes in training data.", "anchors": ["harmonic_inference/data/datasets.py:pad_array", "harmonic_inference/data/datasets.py:h5_to_dataset", "harmonic_inference/utils/harmonic_utils.py:get_chord_one_hot_index"]}
