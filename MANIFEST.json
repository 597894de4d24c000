{
 "claims": [
  {
   "property": "C01",
   "status": "proved",
   "theorems": [
    "C01_chord_index_roundtrip",
    "C01_chord_object_roundtrip",
    "C01_default_pad_refuted"
   ],
   "note": "With one set of explicit options. Finding: the default values of pad differ between encoder and decoder, so the round trip fails with default arguments (C01_default_pad_refuted)."
  },
  {
   "property": "C02",
   "status": "proved",
   "theorems": [
    "C02_index_in_range",
    "C02_index_surjective"
   ],
   "note": ""
  },
  {
   "property": "C03",
   "status": "proved",
   "theorems": [
    "C03_encoder_rejects_exactly"
   ],
   "note": ""
  },
  {
   "property": "C04",
   "status": "proved",
   "theorems": [
    "C04_key_roundtrip",
    "C04_key_inverse",
    "C04_key_rejects_exactly",
    "C04_key_change_label",
    "C04_key_change_accepts",
    "C04_label_count"
   ],
   "note": ""
  },
  {
   "property": "C05",
   "status": "proved",
   "theorems": [
    "C05_chord_labels_aligned",
    "C05_key_labels_aligned"
   ],
   "note": ""
  },
  {
   "property": "C06",
   "status": "proved",
   "theorems": [
    "C06_tpc_string_roundtrip",
    "C06_midi_string_roundtrip",
    "C06_tpc_spelling",
    "C06_midi_spelling",
    "C06_tpc_accepts_only_spellings"
   ],
   "note": ""
  },
  {
   "property": "C07",
   "status": "partial",
   "theorems": [
    "C07_accidentals_ok",
    "C07_accidentals_complete",
    "C07_back_is_mirror",
    "C07_errors",
    "C07_no_accidental_left_refuted"
   ],
   "note": "The accepted inputs and results are characterised completely. Two parts of the claim are false in the code: accidental-only strings raise IndexError (C07_errors) and a flat behind a sharp is left over (C07_no_accidental_left_refuted)."
  },
  {
   "property": "C08",
   "status": "proved",
   "theorems": [
    "C08_transpose_compose",
    "C08_transpose_identity",
    "C08_transpose_inverse",
    "C08_transpose_value",
    "C08_midi_octave_irrelevant",
    "C08_vector_moves",
    "C08_chord_vector",
    "C08_bass_note"
   ],
   "note": ""
  },
  {
   "property": "C09",
   "status": "proved",
   "theorems": [
    "C09_relative_value",
    "C09_relative_in_range",
    "C09_relative_injective",
    "C09_transposition_invariant"
   ],
   "note": ""
  },
  {
   "property": "C10",
   "status": "partial",
   "theorems": [
    "C10_tpc_to_midi",
    "C10_enharmonic_classes",
    "C10_midi_tpc_midi_partial",
    "C10_midi_tpc_midi_refuted",
    "C10_intervals"
   ],
   "note": "TPC to MIDI proved; MIDI to TPC to MIDI holds only on white keys, KeyError on every black key (refuted)."
  },
  {
   "property": "C11",
   "status": "proved",
   "theorems": [
    "C11_degree_roundtrip_tpc",
    "C11_degree_roundtrip_midi",
    "C11_degree_text",
    "C11_numeral_interval"
   ],
   "note": ""
  },
  {
   "property": "C12",
   "status": "proved",
   "theorems": [
    "C12_applied_keys",
    "C12_empty_path_rejected"
   ],
   "note": ""
  },
  {
   "property": "C13",
   "status": "proved",
   "theorems": [
    "C13_reduce_after_is_reduce_before",
    "C13_identity",
    "C13_all_indices",
    "C13_total_refuted",
    "C13_triads"
   ],
   "note": "For every accepted index list and every combination of options. When the reduced chord has no symbol (e.g. third inversion of a seventh chord in a triad vocabulary with inversions) the function raises ValueError for the whole list (C13_total_refuted)."
  },
  {
   "property": "C14",
   "status": "partial",
   "theorems": [
    "C14_reduce_types_partial",
    "C14_kept_types_refuted",
    "C14_remove_inversions_partial",
    "C14_bass_refuted"
   ],
   "note": "Proved for types the reduction changes, and for the inversion field. False otherwise: a type mapped to itself is erased (C14_kept_types_refuted), and the bass keeps its old value when inversions are removed (C14_bass_refuted)."
  },
  {
   "property": "C15",
   "status": "proved",
   "theorems": [
    "C15_chord_vector_roundtrip",
    "C15_accepts"
   ],
   "note": "Decoding returns every field but the duration, which the theorem reads from the second last entry. C15_accepts says exactly which chords get a vector."
  },
  {
   "property": "C16",
   "status": "partial",
   "theorems": [
    "C16_transpose_partial",
    "C16_refuses_refuted",
    "C16_decode_note_refuted"
   ],
   "note": "Proved when the transposed pitch is in range. False otherwise: out of range results are not refused (C16_refuses_refuted)."
  },
  {
   "property": "C17",
   "status": "proved",
   "theorems": [
    "C17_plain_size",
    "C17_hashed_size",
    "C17_size_zero"
   ],
   "note": "Beam sizes below 1 raise IndexError on the first unforced addition (C17_size_zero)."
  },
  {
   "property": "C18",
   "status": "proved",
   "theorems": [
    "C18_k_best",
    "C18_forced_mix",
    "C18_top",
    "C18_ties_keep_earlier"
   ],
   "note": ""
  },
  {
   "property": "C19",
   "status": "proved",
   "theorems": [
    "C19_content",
    "C19_replacement",
    "C19_best_of_hash"
   ],
   "note": ""
  },
  {
   "property": "C20",
   "status": "proved",
   "theorems": [
    "C20_best_retained",
    "C20_absent_dominated",
    "C20_absent_unforced"
   ],
   "note": ""
  },
  {
   "property": "C21",
   "status": "proved",
   "theorems": [
    "C21_plain_fits",
    "C21_hashed_fits"
   ],
   "note": ""
  },
  {
   "property": "C22",
   "status": "partial",
   "theorems": [
    "C22_plain_reuse",
    "C22_hashed_reuse_refuted"
   ],
   "note": "Proved for Beam. False for HashedBeam: after empty() every add raises (C22_hashed_reuse_refuted)."
  },
  {
   "property": "C23",
   "status": "proved",
   "theorems": [
    "C23_distance",
    "C23_clock_exists",
    "C23_antisymmetric",
    "C23_additive",
    "C23_zero_means_equal",
    "C23_only_when_connected"
   ],
   "note": ""
  },
  {
   "property": "C24",
   "status": "proved",
   "theorems": [
    "C24_levels",
    "C24_downbeat",
    "C24_periodic"
   ],
   "note": ""
  },
  {
   "property": "C25",
   "status": "proved",
   "theorems": [
    "C25_succeeds",
    "C25_empty",
    "C25_tiles"
   ],
   "note": ""
  },
  {
   "property": "C26",
   "status": "proved",
   "theorems": [
    "C26_exact",
    "C26_not_crossed",
    "C26_forced"
   ],
   "note": "Complete characterisation of the offered ranges. The claim on forced non-changes needs min_chord_change_prob > 0 and that on forced changes max_no_chord_change_prob < 1, as stated."
  },
  {
   "property": "C27",
   "status": "partial",
   "theorems": [
    "C27_length_partial",
    "C27_complete_partial",
    "C27_end_refuted",
    "C27_start_refuted"
   ],
   "note": "Proved for ranges ending before the end of the piece and not starting at 0. False otherwise: the duration of the last input is ignored (C27_end_refuted), the first duration is counted twice (C27_start_refuted)."
  },
  {
   "property": "C28",
   "status": "partial",
   "theorems": [
    "C28_one_label_partial",
    "C28_refuted"
   ],
   "note": "Proved for labels on the last input of an onset other than the final onset; false in general (C28_refuted)."
  },
  {
   "property": "C29",
   "status": "proved",
   "theorems": [
    "C29_chords",
    "C29_intervals",
    "C29_keys"
   ],
   "note": ""
  },
  {
   "property": "C30",
   "status": "partial",
   "theorems": [
    "C30_partial",
    "C30_refuted"
   ],
   "note": "Proved when no key change probability lies between min_key_change_prob and max_no_key_change_prob. False otherwise (C30_refuted): the branch that keeps its key is not charged, the other is charged twice and a later rejoin takes back only one of the two."
  },
  {
   "property": "C31",
   "status": "proved",
   "theorems": [
    "C31_hash",
    "C31_equal",
    "C31_none"
   ],
   "note": ""
  },
  {
   "property": "C32",
   "status": "proved",
   "theorems": [
    "C32_key_changes"
   ],
   "note": ""
  },
  {
   "property": "C33",
   "status": "partial",
   "theorems": [
    "C33_partial",
    "C33_refuted"
   ],
   "note": "Proved for states with one possibility. False for states with both (C33_refuted holds for every such state)."
  },
  {
   "property": "C34",
   "status": "partial",
   "theorems": [
    "C34_ignored",
    "C34_change_refuted",
    "C34_non_change_refuted"
   ],
   "note": "False: forced key changes and non-changes are only validated (C34_change_refuted, C34_non_change_refuted); two accepted requests that differ only in them give the same harmony (C34_ignored)."
  },
  {
   "property": "C35",
   "status": "partial",
   "theorems": [
    "C35_loaded",
    "C35_chords",
    "C35_keys_partial",
    "C35_first_key",
    "C35_keys_refuted"
   ],
   "note": "Forced chords proved when the offered ranges around the input are forced to one chord. Forced keys: a chord gets one of the keys forced during it; rejoining can merge inputs forced to different keys (C35_keys_refuted). The arrays of forced ids hold exactly the labels given (C35_loaded)."
  },
  {
   "property": "C36",
   "status": "partial",
   "theorems": [
    "C36_reached",
    "C36_bounds",
    "C36_unreached_refuted",
    "C36_chords"
   ],
   "note": "Proved when the target is reached. If it is not, one option is taken instead of the maximum (C36_unreached_refuted)."
  },
  {
   "property": "C37",
   "status": "partial",
   "theorems": [
    "C37_single_next",
    "C37_kept_iff_played",
    "C37_played_kept",
    "C37_one_path",
    "C37_one_file_refuted",
    "C37_loop_refuted"
   ],
   "note": "Proved for corpora with several files whose next pointers do not loop. False for a corpus with one file, whose measures are all removed (C37_one_file_refuted), and for loops of measures that are not played, which are kept (C37_loop_refuted)."
  },
  {
   "property": "C38",
   "status": "proved",
   "theorems": [
    "C38_offset",
    "C38_distance_is_duration"
   ],
   "note": ""
  },
  {
   "property": "C39",
   "status": "partial",
   "theorems": [
    "C39_chains",
    "C39_duration",
    "C39_complete",
    "C39_same_voice",
    "C39_orphan_refuted"
   ],
   "note": "Proved: conservation, the structure of every merged note, complete unambiguous chains become one untied note. Row order of joins is arbitrary. False for chains whose beginning is missing: they go on past their tie end (C39_orphan_refuted). Notes with a tied value outside -1, 0, 1 would vanish; excluded by hypothesis."
  },
  {
   "property": "C40",
   "status": "partial",
   "theorems": [
    "C40_bounds",
    "C40_chords",
    "C40_chords_one",
    "C40_keys",
    "C40_keys_one",
    "C40_joint",
    "C40_lenient_chords",
    "C40_lenient_keys",
    "C40_joint_least",
    "C40_loaded",
    "C40_defined",
    "C40_pickup_refuted",
    "C40_applied_refuted",
    "C40_midi_refuted"
   ],
   "note": "Proved: accuracies lie in [0,1], are the share of the time in which the estimate is right, are 1 iff it is right at every input that lasts, leniency, joint accuracy, and that they exist. Hypotheses: the piece starts with a chord (C40_loaded) and is evaluated with spelled pitches; without them false: C40_pickup_refuted, C40_midi_refuted. The true key is the applied key of the first chord of a section (C40_applied_refuted). Floats are rationals here."
  },
  {
   "property": "C41",
   "status": "proved",
   "theorems": [
    "C41_lossless",
    "C41_rows",
    "C41_differ",
    "C41_every_input",
    "C41_defined",
    "C41_zero_duration_refuted"
   ],
   "note": "For inputs that last; the others have the label of the next input that does (C41_every_input with C70_onsets). Positions are those of the notes; mc_onset is not modelled."
  },
  {
   "property": "C42",
   "status": "partial",
   "theorems": [
    "C42_splits",
    "C42_exact",
    "C42_negative_refuted"
   ],
   "note": "Proved for non-negative proportions, for every rounding that is monotone (C42_splits) and exactly (C42_exact). Negative proportions are accepted and put a file into two splits (C42_negative_refuted)."
  },
  {
   "property": "C43",
   "status": "partial",
   "theorems": [
    "C43_roundtrip",
    "C43_csd",
    "C43_empty_refuted",
    "C43_key_refuted"
   ],
   "note": "Proved for the chord sequence dataset and every well-formed dataset whose values survive float16. False for empty datasets (C43_empty_refuted) and the key datasets, whose inputs are cut by the lengths of other items (C43_key_refuted)."
  },
  {
   "property": "C44",
   "status": "partial",
   "theorems": [
    "C44_items",
    "C44_reads",
    "C44_key_partial",
    "C44_key_refuted"
   ],
   "note": "Proved for HarmonicDataset, and for the key datasets except for items of pieces of maximal length of which another item was read before (C44_key_partial); there it is false (C44_key_refuted)."
  },
  {
   "property": "C45",
   "status": "partial",
   "theorems": [
    "C45_prior",
    "C45_defined",
    "C45_no_smoothing_refuted",
    "C45_reduce_refuted",
    "C45_reduce_raises_refuted",
    "C45_option_refuted",
    "C45_evaluate"
   ],
   "note": "Proved for the model as trained, with smoothing above 0: each prior is the smoothed relative frequency of the chord, positive, summing to 1, and the evaluation counts pieces that begin with the likeliest chord. False for reductions: asking for a reduction or for no inversions always raises a TypeError (C45_reduce_refuted, C45_reduce_raises_refuted), and use_inversions in the saved file changes the flag but not the prior (C45_option_refuted). Without smoothing, a mode without chords divides 0 by 0 (C45_no_smoothing_refuted)."
  },
  {
   "property": "C46",
   "status": "partial",
   "theorems": [
    "C46_chord_repetition",
    "C46_key_repetition",
    "C46_chord_runs",
    "C46_key_runs",
    "C46_piece_chords",
    "C46_time",
    "C46_gap_refuted",
    "C46_label_chord"
   ],
   "note": "The masks, the merged chords and their times are proved. False that merged chords last as long as the time they span when a label between them cannot be read (C46_gap_refuted)."
  },
  {
   "property": "C47",
   "status": "partial",
   "theorems": [
    "C47_changes",
    "C47_changes_monotone",
    "C47_ranges",
    "C47_lookup",
    "C47_lookup_refuted"
   ],
   "note": "Changes, ranges and lookups from the first change on are proved. False for lookups that start before the first chord: the last chord is looked at instead (C47_lookup_refuted)."
  },
  {
   "property": "C48",
   "status": "proved",
   "theorems": [
    "C48_telescopes"
   ],
   "note": ""
  },
  {
   "property": "C49",
   "status": "partial",
   "theorems": [
    "C49_first",
    "C49_accepts",
    "C49_refuses_partial",
    "C49_after_refuted"
   ],
   "note": "Proved for pieces in score order. A position after the last note is an IndexError instead of a ValueError (C49_after_refuted). The function is not called in the repository."
  },
  {
   "property": "C50",
   "status": "partial",
   "theorems": [
    "C50_marks_partial",
    "C50_parse",
    "C50_sevenths_refuted",
    "C50_plain_refuted"
   ],
   "note": "Triads and half-diminished sevenths with an explicit inversion are read, as are keys and change marks. False otherwise: the shorter type is tried first, so all other sevenths stop with TypeError (C50_sevenths_refuted), and so does a chord without inversion (C50_plain_refuted). Reading the score file is not modelled."
  },
  {
   "property": "C51",
   "status": "partial",
   "theorems": [
    "C51_alterations",
    "C51_no_tone",
    "C51_plus_refuted",
    "C51_two_additions_refuted",
    "C51_last_digit",
    "C51_tens_refuted",
    "C51_changes_split"
   ],
   "note": "Splitting proved. The pitches added and replaced are proved for all alterations without \"+\", with marks on 2, 4 and 6 and numbers from 2 to 19; entries with the same replaced note overwrite each other. False with \"+\", which shifts all later entries (C51_plus_refuted), and for two additions, of which one is lost (C51_two_additions_refuted). A mark before a number of two digits replaces the tone for the last digit (C51_last_digit, C51_tens_refuted)."
  },
  {
   "property": "C52",
   "status": "partial",
   "theorems": [
    "C52_paired",
    "C52_missing_refuted",
    "C52_unlabelled_refuted",
    "C52_dataset_ids_refuted",
    "C52_dataset_ids",
    "C52_order",
    "C52_specific",
    "C52_saved",
    "C52_frames",
    "C52_no_pickle_refuted",
    "C52_one_file",
    "C52_str_refuted"
   ],
   "note": "Pairing, order, selection by id and reading back of saved pieces are proved when no annotation is missing. When one is missing, the later annotations move up (C52_missing_refuted, C52_unlabelled_refuted) and the ids of the datasets differ from those of the loader (C52_dataset_ids_refuted). A missing pickle file is an UnboundLocalError, and a single score given as str an AttributeError."
  },
  {
   "property": "C53",
   "status": "proved",
   "theorems": [
    "C53_candidates",
    "C53_piece",
    "C53_high_refuted"
   ],
   "note": "For the candidate ranges of the search (C53_candidates) and the labelled chords of a loaded piece with a window of at least 1 (C53_piece). Notes with MIDI numbers 120 to 127 are an IndexError (C53_high_refuted)."
  },
  {
   "property": "C54",
   "status": "proved",
   "theorems": [
    "C54_segmentation_log"
   ],
   "note": ""
  },
  {
   "property": "C55",
   "status": "proved",
   "theorems": [
    "C55_rejoin_log"
   ],
   "note": ""
  },
  {
   "property": "C56",
   "status": "proved",
   "theorems": [
    "C56_in_range"
   ],
   "note": ""
  },
  {
   "property": "C57",
   "status": "partial",
   "theorems": [
    "C57_top_partial",
    "C57_sizes_partial",
    "C57_kept_partial",
    "C57_best_partial",
    "C57_room_refuted"
   ],
   "note": "The result is the best state of the last beam, and the best of all whole-piece states the search ever added (C57_best_partial); the same holds at every position (C57_kept_partial). False that states are only dropped from full beams: the quick exit compares with the worst state of a beam which has room (C57_room_refuted)."
  },
  {
   "property": "C58",
   "status": "proved",
   "theorems": [
    "C58_proportions",
    "C58_empty_range"
   ],
   "note": ""
  },
  {
   "property": "C59",
   "status": "proved",
   "theorems": [
    "C59_cache_transparent"
   ],
   "note": ""
  },
  {
   "property": "C60",
   "status": "proved",
   "theorems": [
    "C60_durations",
    "C60_fill",
    "C60_positive"
   ],
   "note": "For the chords of one piece with exactly one path of measures; NaN cases (chord in a measure that is not in the table) are outside the model."
  },
  {
   "property": "C61",
   "status": "proved",
   "theorems": [
    "C61_clean_notes"
   ],
   "note": "Covers the notes part of load_clean_corpus_dfs from remove_repeats to merge_ties."
  },
  {
   "property": "C62",
   "status": "partial",
   "theorems": [
    "C62_keys_in_force",
    "C62_keys_differ",
    "C62_pivot_refuted",
    "C62_single_refuted",
    "C62_minor_refuted",
    "C62_label_key"
   ],
   "note": "Proved for every piece that loads. Three defects: the column localkey_is_minor is ignored (C62_minor_refuted), a key change on a repeated chord is delayed to the next chord (C62_pivot_refuted), and a piece with one chord or one note cannot be loaded (C62_single_refuted)."
  },
  {
   "property": "C63",
   "status": "partial",
   "theorems": [
    "C63_midi_number",
    "C63_octave",
    "C63_midi_type_refuted"
   ],
   "note": "Proved for tonal pitch classes, the type every corpus piece is read with. False for the MIDI type: 35 is used for the size of an octave (C63_midi_type_refuted)."
  },
  {
   "property": "C64",
   "status": "partial",
   "theorems": [
    "C64_rows",
    "C64_csd",
    "C64_ktd",
    "C64_first_key_refuted"
   ],
   "note": "Proved when the first chord keeps its key. If the first chord of the analysis changes its key the rows differ (C64_first_key_refuted)."
  },
  {
   "property": "C65",
   "status": "partial",
   "theorems": [
    "C65_index",
    "C65_items_partial",
    "C65_notes_refuted",
    "C65_midi_refuted"
   ],
   "note": "Proved for chords and note rows whose transposition stays in range. False in general: notes that leave the range are not refused (C65_notes_refuted), MIDI roots that wrap around an octave are refused (C65_midi_refuted)."
  },
  {
   "property": "C66",
   "status": "partial",
   "theorems": [
    "C66_ktd",
    "C66_ktd_all",
    "C66_ksd_partial",
    "C66_ksd_refuted",
    "C66_far_refuted"
   ],
   "note": "Key transition items: all of them. Key sequence items: all but the one of the last key change of all pieces, which cannot be read (C66_ksd_refuted). A key change of more than 14 fifths in any piece keeps the key sequence dataset from being made at all (C66_far_refuted)."
  },
  {
   "property": "C67",
   "status": "partial",
   "theorems": [
    "C67_csd_refuted",
    "C67_key_refuted"
   ],
   "note": "False: no reduction of an item of the sequence datasets succeeds, because the pitch type is inferred from the width of rows that include the key change (C67_csd_refuted, C67_key_refuted)."
  },
  {
   "property": "C68",
   "status": "partial",
   "theorems": [
    "C68_row",
    "C68_accepts",
    "C68_targets",
    "C68_inference_midi",
    "C68_inference_refuted",
    "C68_lost_refuted"
   ],
   "note": "Targets proved. False that all pitches are kept: pitches below -14 are lost (C68_lost_refuted), pitches above 14 stop the item (C68_accepts). The search uses the same vector for MIDI (C68_inference_midi) and never for spelled pitches (C68_inference_refuted)."
  },
  {
   "property": "C69",
   "status": "partial",
   "theorems": [
    "C69_sound",
    "C69_complete_partial",
    "C69_complete_refuted",
    "C69_zero_refuted",
    "C69_errors"
   ],
   "note": "Every contradictory request is refused, with TypeError, AttributeError or KeyError instead of ArgumentError (C69_errors). Consistent requests are accepted under two conditions (C69_complete_partial) and refused in two cases (C69_complete_refuted, C69_zero_refuted)."
  },
  {
   "property": "C70",
   "status": "partial",
   "theorems": [
    "C70_onsets",
    "C70_non_changes",
    "C70_changes_partial",
    "C70_changes_refuted",
    "C70_chords_partial",
    "C70_chords_refuted"
   ],
   "note": "Onsets and non-changes proved. A chord can last over a forced change if both sides are the same chord (C70_changes_partial describes when, C70_changes_refuted shows one). Forced chords proved when notes sounding together are forced alike and the last onset is not forced; false for the last onset (C70_chords_refuted)."
  },
  {
   "property": "C71",
   "status": "partial",
   "theorems": [
    "C71_results",
    "C71_accuracy",
    "C71_defined",
    "C71_black_key_refuted"
   ],
   "note": "Proved for all pitch types, for pieces that start with a chord; the table exists for every loaded piece unless the estimate has MIDI pitches and the table spelled ones: then black keys are a KeyError (C71_black_key_refuted)."
  },
  {
   "property": "C72",
   "status": "partial",
   "theorems": [
    "C72_labels",
    "C72_alterations",
    "C72_no_alterations",
    "C72_defined",
    "C72_pickup_refuted"
   ],
   "note": "Proved for pieces that start with a chord; alterations as in C51. A note before the first label gets a row with F-three-flats major (C72_pickup_refuted)."
  },
  {
   "property": "C73",
   "status": "partial",
   "theorems": [
    "C73_labels",
    "C73_pickup_refuted",
    "C73_defined"
   ],
   "note": "Proved with spelled pitches for pieces that start with a chord. Notes before the first label are compared with the last chord of the vocabulary (C73_pickup_refuted)."
  },
  {
   "property": "C74",
   "status": "partial",
   "theorems": [
    "C74_options",
    "C74_piece_type_refuted"
   ],
   "note": "Proved for pitch types, chord types, reductions and plain values. PieceType texts contain no handled name: SCORE and AUDIO are a KeyError, MIDI becomes a pitch type (C74_piece_type_refuted)."
  },
  {
   "property": "C75",
   "status": "partial",
   "theorems": [
    "C75_returns",
    "C75_spelling_refuted",
    "C75_inversion_refuted",
    "C75_empty_refuted"
   ],
   "note": "Proved when, besides, every chord tried has a bass note in the range of spelled pitches and the vocabulary of the chord sequence model has the inversions of the chords. Both are needed: a forced TPC chord whose bass leaves the range is a ValueError (C75_spelling_refuted), as is a third inversion with a model of triads (C75_inversion_refuted). A piece without inputs is an IndexError (C75_empty_refuted)."
  },
  {
   "property": "C76",
   "status": "partial",
   "theorems": [
    "C76_found_partial",
    "C76_given",
    "C76_fifths_refuted"
   ],
   "note": "Proved as an equivalence for pitches in semitones (MIDI). On the line of fifths (TPC) it holds if the keys are given and every chord tried is at most 14 fifths from each of them (C76_given). Without that a chord too far from the key is dropped and nothing may be found (C76_fifths_refuted)."
  },
  {
   "property": "C77",
   "status": "proved",
   "theorems": [
    "C77_transparent",
    "C77_asking",
    "C77_pitch_type_refuted"
   ],
   "note": "Proved for all traces that use one pitch type, as the search does when chords and keys have the same pitch type. Asked with a second pitch type a state answers with the object of the first (C77_pitch_type_refuted)."
  },
  {
   "property": "C78",
   "status": "partial",
   "theorems": [
    "C78_exists",
    "C78_rows",
    "C78_consecutive",
    "C78_times",
    "C78_offsets",
    "C78_pickup",
    "C78_downbeats",
    "C78_playable",
    "C78_single_refuted",
    "C78_brackets_refuted"
   ],
   "note": "Proved for all scores that can be read; C78_exists says which. Not among them: scores of a single measure (IndexError, C78_single_refuted) and scores with a bracket over two endings (ValueError, C78_brackets_refuted). Times equal to the score are proved for scores without gaps between the measures. music21 itself is not modelled."
  },
  {
   "property": "C79",
   "status": "proved",
   "theorems": [
    "C79_times",
    "C79_within",
    "C79_order",
    "C79_levels"
   ],
   "note": "Positions, distances, order and metrical levels, for all tables made from a score; within the measure when the time is before the end of the piece."
  },
  {
   "property": "C80",
   "status": "partial",
   "theorems": [
    "C80_notes",
    "C80_exists",
    "C80_levels",
    "C80_length_partial",
    "C80_pickup_refuted",
    "C80_numbers_refuted",
    "C80_labels"
   ],
   "note": "Pitch, octave, duration, onset and order are proved. Onset and offset are as far apart as the note is long only if both measures start at the same place in the bar (C80_length_partial): the code subtracts the offset of the first measure and adds that of the last one twice, so a note tied out of a pickup ends too early (C80_pickup_refuted). Notes of a measure whose number occurred before are put into the earlier measure (C80_numbers_refuted)."
  },
  {
   "property": "C81",
   "status": "partial",
   "theorems": [
    "C81_chords",
    "C81_changes",
    "C81_ranges",
    "C81_keys",
    "C81_unlabelled_refuted"
   ],
   "note": "Proved for all pieces that can be read. Without a usable label the piece cannot be read although its notes can (C81_unlabelled_refuted)."
  },
  {
   "property": "C82",
   "status": "proved",
   "theorems": [
    "C82_chords",
    "C82_exists"
   ],
   "note": "For all labels of the documented form; the degree may have a trailing plus up to 5. Augmented sixth chords are read as major triads in root position, as the code documents."
  },
  {
   "property": "C83",
   "status": "partial",
   "theorems": [
    "C83_targets",
    "C83_labels",
    "C83_unlabelled_refuted",
    "C83_inputs",
    "C83_dummy",
    "C83_without_labels"
   ],
   "note": "Rows and targets for all pieces with in-order notes and labels; a label after the last onset marks the last note. A piece without labels marks every measured note as a change (C83_unlabelled_refuted). Rounding to float16 is not modelled."
  },
  {
   "property": "C84",
   "status": "partial",
   "theorems": [
    "C84_fields",
    "C84_constructs",
    "C84_round_trip",
    "C84_equal",
    "C84_equivalence",
    "C84_pitch_type",
    "C84_to_midi",
    "C84_piece",
    "C84_unlabelled_refuted"
   ],
   "note": "Fields, round trip, equality, pitch types and labelled pieces are proved for all objects. A piece without labels cannot be written: TypeError (C84_unlabelled_refuted). Floats are not modelled."
  },
  {
   "property": "C85",
   "status": "partial",
   "theorems": [
    "C85_range",
    "C85_range_text",
    "C85_fields",
    "C85_accepts",
    "C85_documented",
    "C85_file",
    "C85_choice",
    "C85_default_for_all",
    "C85_order_refuted"
   ],
   "note": "Reading is proved for all json values and the choice for all names and orders if at most one key occurs in the name. If several do (sonata_1 and sonata_10), the entry used depends on the order of a set of texts, which changes from run to run (C85_order_refuted)."
  },
  {
   "property": "C86",
   "status": "proved",
   "theorems": [
    "C86_average",
    "C86_readable",
    "C86_empty_separator",
    "C86_log"
   ],
   "note": "float() is a function given from outside (any function from texts to rationals or ValueError); means are rationals."
  },
  {
   "property": "C87",
   "status": "partial",
   "theorems": [
    "C87_csm",
    "C87_ctm",
    "C87_ktm",
    "C87_key_refuted",
    "C87_pitch_refuted"
   ],
   "note": "Chord sequence model: from the pieces to the targets of the batch, for all pieces. Chord and key transition models: for all items of one width. False: items of a key dataset in memory cannot form a batch if one comes from the longest piece and one from a shorter piece (C87_key_refuted); the pitch-based model never measures a chord with the first pitch, for MIDI every chord that contains the tonic (C87_pitch_refuted)."
  },
  {
   "property": "C88",
   "status": "partial",
   "theorems": [
    "C88_csm",
    "C88_ctm",
    "C88_ktm",
    "C88_ccm",
    "C88_ccm_refuted",
    "C88_ksm_partial",
    "C88_ksm_refuted",
    "C88_nan_refuted",
    "C88_pitch_refuted",
    "C88_pitch_why"
   ],
   "note": "Proved for the chord sequence, chord transition and key transition models when each batch has a question (a batch without one makes both numbers NaN: C88_nan_refuted), and for the chord classifier when no item is left alone in the last batch (then it raises: C88_ccm_refuted). The key sequence model gives the mean of the means of the batches (C88_ksm_partial), because len(batch) counts the fields of a dictionary; 64 right and one wrong answer give 50 percent (C88_ksm_refuted). The pitch-based model cannot be evaluated (C88_pitch_refuted). Losses, networks: any functions."
  },
  {
   "property": "C89",
   "status": "partial",
   "theorems": [
    "C89_classifier",
    "C89_classifier_refuted",
    "C89_changes",
    "C89_steps",
    "C89_reduction_refuted"
   ],
   "note": "Proved for the classifier unless one range is left over for the last batch, for instance for a piece with a single range (then it raises: C89_classifier_refuted), for the chord change probabilities and for the batched steps of the sequence models. False that inputs are reduced as in training: the options of the model are passed as another argument and never used (C89_reduction_refuted)."
  },
  {
   "property": "C90",
   "status": "partial",
   "theorems": [
    "C90_evaluate",
    "C90_frames",
    "C90_annotate",
    "C90_nothing",
    "C90_spaces_refuted",
    "C90_results_refuted",
    "C90_outside_refuted",
    "C90_score_refuted",
    "C90_annotate_refuted"
   ],
   "note": "Proved for pieces whose corpora and file names have no spaces or slashes, have one suffix, and do not collide (well_named). False otherwise: only the text after the last space of a name is used, so files are lost (C90_spaces_refuted) or go to the root directory (C90_outside_refuted); a piece called x_results overwrites the results of x (C90_results_refuted); annotate.py drops the corpus (C90_annotate_refuted); for scores the labels file is called .mxl and overwrites the score if output and input directory agree (C90_score_refuted). mkdir and to_csv are assumed to succeed."
  },
  {
   "property": "C91",
   "status": "partial",
   "theorems": [
    "C91_commands",
    "C91_directories",
    "C91_spaces_refuted",
    "C91_twice_refuted"
   ],
   "note": "Proved for arguments without spaces and values without commas, equals signs or spaces (plain_args). False: nothing is quoted, so a directory with a space gives a command that test.py refuses (C91_spaces_refuted); a value given twice gives a command twice (C91_twice_refuted). How test.py reads options is modelled by read_args (option, then its value)."
  },
  {
   "property": "C92",
   "status": "partial",
   "theorems": [
    "C92_files",
    "C92_chords",
    "C92_notes",
    "C92_measures",
    "C92_stale_refuted",
    "C92_nothing",
    "C92_same_refuted",
    "C92_load",
    "C92_missing_refuted"
   ],
   "note": "Proved for chords, notes and measures, when at least one piece has the table. False: if no piece has it, the table of an earlier run stays in the output directory (C92_stale_refuted); the same corpus and file name in two places cannot be told apart (C92_same_refuted); one piece without chords makes loading the whole corpus fail (C92_missing_refuted)."
  },
  {
   "property": "C93",
   "status": "partial",
   "theorems": [
    "C93_pattern",
    "C93_models",
    "C93_exit",
    "C93_complete",
    "C93_latest",
    "C93_latest_refuted",
    "C93_ignored",
    "C93_pattern_refuted"
   ],
   "note": "Proved for directories without the text _*: the pattern, the choice (last in dictionary order), the class, the exit. It is the latest version if the numbers have as many digits (C93_latest); version 9 is preferred to version 10 (C93_latest_refuted). With _* in the directory the version is also written there (C93_pattern_refuted). glob and load_from_checkpoint are any functions."
  },
  {
   "property": "C94",
   "status": "partial",
   "theorems": [
    "C94_log",
    "C94_accuracy",
    "C94_defined",
    "C94_same_table",
    "C94_span",
    "C94_last_end_refuted",
    "C94_unannotated_refuted",
    "C94_midi_refuted"
   ],
   "note": "Proved for spelled (TPC) chords and keys: entries, corrections, lengths, accuracy, definedness. False: the last entry gives the end of the last note but the length up to the end of the last chord (C94_last_end_refuted); an unannotated score cannot be annotated in verbose mode, log_state raises TypeError (C94_unannotated_refuted); with MIDI chords the true labels are looked up in the wrong list (C94_midi_refuted)."
  },
  {
   "property": "C95",
   "status": "partial",
   "theorems": [
    "C95_files",
    "C95_exact",
    "C95_exit",
    "C95_disjoint",
    "C95_history",
    "C95_train",
    "C95_read",
    "C95_stale_refuted",
    "C95_absent_refuted"
   ],
   "note": "Proved for texts of --corpus without characters that are special in regular expressions. False: a split that is empty leaves the file of an earlier run with the same seed, so that test data can be among the training data (C95_stale_refuted); without files for the split the evaluation fails with UnboundLocalError (C95_absent_refuted)."
  },
  {
   "property": "C96",
   "status": "partial",
   "theorems": [
    "C96_accepts",
    "C96_object",
    "C96_notes",
    "C96_rows",
    "C96_classes",
    "C96_well_formed",
    "C96_search",
    "C96_ktm_refuted",
    "C96_kinds_refuted",
    "C96_inversions_refuted",
    "C96_pitch_based_refuted",
    "C96_notes_refuted"
   ],
   "note": "The constructor is characterised completely and the rows fit exactly if chords and keys are of one kind for all models (C96_rows). False: the chord type of the key transition model is not checked (C96_ktm_refuted), different types for chords and keys are accepted (C96_kinds_refuted), the classes of a classifier without inversions are read as other chords (C96_inversions_refuted), a pitch-based model for MIDI pitches has the wrong number of outputs (C96_pitch_based_refuted), the pitch type of the notes of a piece is not checked (C96_notes_refuted). That a result is found is proved for MIDI pitches and for given keys, as C76."
  },
  {
   "property": "C97",
   "status": "partial",
   "theorems": [
    "C97_options",
    "C97_search",
    "C97_defaults",
    "C97_test",
    "C97_exit",
    "C97_builtin",
    "C97_annotate_refuted",
    "C97_given_refuted"
   ],
   "note": "Proved for test.py. False: annotate.py has the two flags and never uses them, so that the command of the README is run with another branching parameter than the evaluation (C97_annotate_refuted); options given together with a flag are lost (C97_given_refuted)."
  },
  {
   "property": "C98",
   "status": "partial",
   "theorems": [
    "C98_changes",
    "C98_classes",
    "C98_own",
    "C98_last_refuted",
    "C98_one_chord_refuted",
    "C98_plain",
    "C98_keys",
    "C98_keys_refuted",
    "C98_index_refuted",
    "C98_next",
    "C98_next_refuted",
    "C98_next_key",
    "C98_no_next_key",
    "C98_next_key_refuted",
    "C98_start_refuted",
    "C98_first"
   ],
   "note": "What each accuracy counts is proved for all inputs, and unannotated pieces never stop the run. False: division by zero if no input changes or none stays (C98_changes) or no range is an annotated chord (C98_classes), always for a piece with one chord (C98_one_chord_refuted); the last chord is never counted (C98_last_refuted); at a chord change the key transition accuracy leaves out the states with the right chord (C98_keys_refuted); all states are measured at the index of the first (C98_index_refuted); a prior over pitches gives an IndexError (C98_next_refuted); an annotated key change outside the vocabulary stops the run (C98_next_key_refuted); at the beginning of the piece the last key is taken as the one before (C98_start_refuted)."
  },
  {
   "property": "C99",
   "status": "partial",
   "theorems": [
    "C99_model",
    "C99_run",
    "C99_logged",
    "C99_files",
    "C99_average",
    "C99_graded",
    "C99_defined",
    "C99_stops",
    "C99_unannotated_refuted",
    "C99_no_result_refuted",
    "C99_verbose_refuted",
    "C99_log_refuted"
   ],
   "note": "Files, averages and their order are proved for all runs, with the search given as a function; for corpus pieces with annotations the run comes to its end (C99_defined), and with models that the constructor accepts, from the constructor to the files (C99_model). False: a piece without annotations ends the run with a TypeError after the message that its accuracy is unknown (C99_unannotated_refuted); pieces without a result are left out of the averages (C99_no_result_refuted); in a verbose log each count of states becomes an accuracy of its own (C99_verbose_refuted); --average with --log on the same file empties it first (C99_log_refuted)."
  },
  {
   "property": "C100",
   "status": "partial",
   "theorems": [
    "C100_run",
    "C100_logged",
    "C100_files",
    "C100_stops",
    "C100_model",
    "C100_found",
    "C100_verbose_refuted"
   ],
   "note": "Proved for runs without --verbose, from the constructor of the joint model to the files, with the networks as arbitrary functions of the right sizes; that every piece has a result is proved for MIDI pitches, as C76. False: with --verbose, a piece without annotations (the usual input of annotate.py) ends the run with a TypeError as soon as it has a result (C100_verbose_refuted)."
  },
  {
   "property": "C101",
   "status": "partial",
   "theorems": [
    "C101_run",
    "C101_own",
    "C101_searched",
    "C101_suffix_refuted",
    "C101_dot_refuted",
    "C101_evaluate",
    "C101_scores_refuted",
    "C101_annotate_refuted"
   ],
   "note": "The files found, their order and the operations with ms3 are proved for all trees of files, with the failures of ms3 given as an arbitrary function (C101_run); the files found below the output of an evaluation are exactly its tables (C101_evaluate). False: a score whose name ends with the name looked for is taken too (C101_suffix_refuted), and a dot in the name stands for any character (C101_dot_refuted); tables of scores that are not .tsv files are not found, only the tables of results are (C101_scores_refuted); files written by annotate.py have lost their directories, so that their scores are looked for in the topmost directory (C101_annotate_refuted)."
  },
  {
   "property": "C102",
   "status": "partial",
   "theorems": [
    "C102_data_refuted",
    "C102_kept",
    "C102_stops_refuted",
    "C102_empty"
   ],
   "note": "False for every corpus: a list is added to a set (line 68), which is a TypeError before anything is written. Whatever the corpus, the script writes empty files only, after it has deleted the data that was there (C102_data_refuted), and one piece is enough to end it with an exception (C102_stops_refuted). Proved: all other files are kept (C102_kept); without any piece it comes to its end with empty vocabularies (C102_empty)."
  },
  {
   "property": "C103",
   "status": "partial",
   "theorems": [
    "C103_key",
    "C103_far_refuted",
    "C103_rows"
   ],
   "note": "Proved for every change of key the vectors have a place for (C103_key) and every row of every piece (C103_rows). False: a change of key outside of these, whose vector says no interval, is not refused but read as one of 15 fifths to a major key or 16 fifths to a minor key (C103_far_refuted)."
  },
  {
   "property": "C104",
   "status": "partial",
   "theorems": [
    "C104_tuple",
    "C104_tuple_written",
    "C104_malformed_refuted",
    "C104_python_refuted",
    "C104_next_refuted",
    "C104_bool",
    "C104_fraction",
    "C104_fraction_written"
   ],
   "note": "What is read, and that it is read exactly from the texts that say it, is proved for all texts. False: a text that says no numbers gives an empty tuple like an empty cell (C104_malformed_refuted), also a tuple as Python itself writes it (C104_python_refuted); in the column next the measure then counts as the last one of its piece (C104_next_refuted)."
  },
  {
   "property": "C105",
   "status": "partial",
   "theorems": [
    "C105_csm",
    "C105_pitch",
    "C105_ctm",
    "C105_ktm",
    "C105_ksm",
    "C105_ccm",
    "C105_items",
    "C105_single_refuted",
    "C105_evaluate_refuted"
   ],
   "note": "The loss of training and the loss and accuracy of validation are proved for all batches of all five models and of the pitch-based chord sequence model (C105_pitch). False: the classifier raises on a batch of one item, in training as in evaluation (C105_single_refuted); evaluate does not leave out the items that a transposition moves out of range, one of them ends it with an exception (C105_evaluate_refuted)."
  },
  {
   "property": "C106",
   "status": "partial",
   "theorems": [
    "C106_csm",
    "C106_ctm",
    "C106_ktm",
    "C106_ksm",
    "C106_ccm",
    "C106_ccm_refuted",
    "C106_nan_refuted",
    "C106_validation",
    "C106_valid_csm",
    "C106_valid_ctm",
    "C106_valid_ktm",
    "C106_valid_ksm",
    "C106_icm"
   ],
   "note": "Proved for all five models and the initial chord model, with the order of the items and the weights before each step arbitrary. False: if the number of items is 1 modulo 256, every training epoch of the classifier ends with an IndexError (C106_ccm_refuted); a piece with a single chord can get a batch of its own, whose loss is NaN (C106_nan_refuted)."
  },
  {
   "property": "C107",
   "status": "partial",
   "theorems": [
    "C107_copies",
    "C107_transposed_partial",
    "C107_never",
    "C107_refuted",
    "C107_joint",
    "C107_joint_refuted"
   ],
   "note": "Proved for the two parts of the network: the convolution followed by the layers is invariant (C107_transposed_partial), the layers treat all rows alike (C107_copies), and the joint model does its stages in order (C107_joint). False for the whole: forward never returns a value (C107_never), and for data of the documented kind it raises RuntimeError, because the padding gives 2 * width + 1 positions instead of 12 (C107_refuted); the encoder returns None (C107_joint_refuted)."
  },
  {
   "property": "C108",
   "status": "proved",
   "theorems": [
    "C108_csm",
    "C108_csm_kept",
    "C108_ktm",
    "C108_ksm"
   ],
   "note": "A network is a step on hidden states and an output (the LSTMs are not bidirectional); the search is a relation that allows every choice of chords, keys and beams. Equality of hidden states is taken to be exact; torch.equal says that tensors with NaN differ."
  },
  {
   "property": "C109",
   "status": "proved",
   "theorems": [
    "C109_repr",
    "C109_str",
    "C109_none"
   ],
   "note": "Positions in seconds (floats) are not modelled. C109_none shows that the condition on the suspension is needed."
  },
  {
   "property": "C110",
   "status": "partial",
   "theorems": [
    "C110_system",
    "C110_flags",
    "C110_exit",
    "C110_search",
    "C110_prior_refuted",
    "C110_debug_refuted"
   ],
   "note": "Loading, sizes and the search are proved for both directories and all three versions. Refuted: the options in checkpoints-best/icm/initial_chord_prior.json say that the prior is over triads without inversions while it has all 1276 chords in it (C110_prior_refuted; the search is not misled, it always reads it as the full list), and so the debug log gives the probability and the rank of another chord as those of the annotated first chord (C110_debug_refuted). Assumed: each checkpoint can be read and has the options of the hparams.yaml beside it; most of the binary files are not in the checkout."
  },
  {
   "property": "C111",
   "status": "partial",
   "theorems": [
    "C111_tables",
    "C111_defined",
    "C111_agree",
    "C111_order",
    "C111_coloured",
    "C111_xml",
    "C111_endings_refuted"
   ],
   "note": "Proved for corpus pieces (both tables) and for MusicXML scores. Refuted for MusicXML scores with a first ending: its measures are not counted, so later labels name an earlier measure (C111_endings_refuted)."
  },
  {
   "property": "C112",
   "status": "partial",
   "theorems": [
    "C112_session_partial",
    "C112_sets",
    "C112_held",
    "C112_again",
    "C112_test",
    "C112_test_all",
    "C112_sets_refuted",
    "C112_shared_refuted"
   ],
   "note": "Proved for sessions in which no set is passed both for changes and for non-changes; C112_sets says all that can happen to the sets. Repeating a call gives the same result for any sets (C112_again). In runs of test.py with a file of forces every piece gets what it gets by itself (C112_test, C112_test_all). Refuted: get_harmony removes 0 from the caller's sets of changes (C112_sets_refuted), so that a set used for changes first and for non-changes later gives another result than alone (C112_shared_refuted). After any exception the model keeps the piece (C112_held)."
  },
  {
   "property": "C113",
   "status": "partial",
   "theorems": [
    "C113_built",
    "C113_search",
    "C113_fields",
    "C113_go_on",
    "C113_rejoin",
    "C113_refuted"
   ],
   "note": "Proved for all states that the search copies (C113_search: the copy agrees in every field) and for other chords and keys from any state (C113_go_on). Refuted for states that were charged already: the copy has lost the charges that a rejoin takes back (C113_refuted; C113_rejoin says by how much the scores differ)."
  },
  {
   "property": "C114",
   "status": "partial",
   "theorems": [
    "C114_restored",
    "C114_lost",
    "C114_first_chord",
    "C114_refuted",
    "C114_blocked",
    "C114_best",
    "C114_top_refuted"
   ],
   "note": "Finite charges are taken back exactly (C114_restored) and without nan the best is found (C114_best). Refuted: a charge of -inf is never taken back, the score becomes nan (C114_lost, C114_refuted); a key forced inside the first chord is charged with log 0 (C114_first_chord); nan on top of a full beam blocks it and is returned as the best (C114_blocked, C114_top_refuted). Finite scores are exact integers."
  },
  {
   "property": "C115",
   "status": "proved",
   "theorems": [
    "C115_exact",
    "C115_limit",
    "C115_nearest",
    "C115_vocabulary",
    "C115_chords",
    "C115_keys",
    "C115_files"
   ],
   "note": "float16 is modelled for whole numbers: rounding to nearest, ties to even, infinity beyond 65504. Fractions (positions and durations in the vectors of notes) are not covered."
  }
 ]
}