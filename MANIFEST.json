{
 "claims": [
  {
   "property": "C01",
   "status": "proved",
   "theorems": [
    "C01_base64_roundtrip"
   ],
   "note": ""
  },
  {
   "property": "C02",
   "status": "proved",
   "theorems": [
    "C02_base64_rfc4648"
   ],
   "note": ""
  },
  {
   "property": "C03",
   "status": "proved",
   "theorems": [
    "C03_base64_text"
   ],
   "note": ""
  },
  {
   "property": "C04",
   "status": "partial",
   "theorems": [
    "C04_decode_refuted",
    "C04_decode_safe_partial",
    "C04_decode_exact_partial"
   ],
   "note": "False in the code: decode reads out of bounds (C04_decode_refuted). Proved: safe on every non-empty text of length 4k (C04_decode_safe_partial), and for texts without padding exactly on these (C04_decode_exact_partial). C118 characterises exactly all texts decode reads safely."
  },
  {
   "property": "C05",
   "status": "proved",
   "theorems": [
    "C05_bininput_set_get"
   ],
   "note": ""
  },
  {
   "property": "C06",
   "status": "proved",
   "theorems": [
    "C06_bininput_of_list",
    "C06_bininput_of_size"
   ],
   "note": "Hypotheses beyond the statement: at most 2^34 pixels (the byte count is kept in an int)."
  },
  {
   "property": "C07",
   "status": "proved",
   "theorems": [
    "C07_bininput_out_of_range",
    "C07_bininput_range"
   ],
   "note": ""
  },
  {
   "property": "C08",
   "status": "proved",
   "theorems": [
    "C08_bininput_roundtrip"
   ],
   "note": ""
  },
  {
   "property": "C09",
   "status": "partial",
   "theorems": [
    "C09_set_refuted",
    "C09_set_any_partial"
   ],
   "note": "False as stated: set does not mask its value (refuted). The partial theorem gives the exact effect of set for any int."
  },
  {
   "property": "C10",
   "status": "proved",
   "theorems": [
    "C10_dataset_adds",
    "C10_dataset_add_list",
    "C10_dataset_calls"
   ],
   "note": "Hypotheses beyond the statement: at most INT_MAX entries."
  },
  {
   "property": "C11",
   "status": "proved",
   "theorems": [
    "C11_dataset_roundtrip"
   ],
   "note": "Hypotheses beyond the statement: at most INT_MAX entries, images of at most 2^32 pixels, labels of at most 2^29 bytes (lengths are written as 32-bit numbers), a path that can be written and is shorter than 2^64 bytes."
  },
  {
   "property": "C12",
   "status": "partial",
   "theorems": [
    "C12_dataset_refuted",
    "C12_dataset_partial",
    "C12_saved_over_partial"
   ],
   "note": "False as stated (C12_dataset_refuted). Exact outcome of reloading a data set saved to a fresh path (C12_dataset_partial: back iff non-empty and fully labelled, undefined otherwise) and of saving a second data set to the same path (C12_saved_over_partial: never both back; which damage depends on the Base64 padding at the border)."
  },
  {
   "property": "C13",
   "status": "proved",
   "theorems": [
    "C13_handle_roundtrip",
    "C13_handle_file"
   ],
   "note": "Hypotheses beyond the statement: at most INT_MAX RAMs and a text of at most INT_MAX bytes (it is scanned with an int); in files the text length is not bounded."
  },
  {
   "property": "C14",
   "status": "proved",
   "theorems": [
    "C14_handle_set_get"
   ],
   "note": ""
  },
  {
   "property": "C15",
   "status": "proved",
   "theorems": [
    "C15_handle_compare",
    "C15_handle_compare_equivalence"
   ],
   "note": ""
  },
  {
   "property": "C16",
   "status": "partial",
   "theorems": [
    "C16_handle_get_refuted",
    "C16_handle_get_partial",
    "C16_handle_get_effect_partial"
   ],
   "note": "False as stated: get inserts missing entries and data() can hang afterwards (refuted)."
  },
  {
   "property": "C17",
   "status": "proved",
   "theorems": [
    "C17_ipow"
   ],
   "note": "Hypotheses beyond the statement: the exponent is an int (at most INT_MAX); b may be any integer."
  },
  {
   "property": "C18",
   "status": "proved",
   "theorems": [
    "C18_seeded",
    "C18_default_wiring"
   ],
   "note": "Hypotheses beyond the statement: parameters the constructor accepts (C21), entrySize+addressSize <= INT_MAX, and base^addressSize within 64 bits (C22 says what happens otherwise)."
  },
  {
   "property": "C19",
   "status": "proved",
   "theorems": [
    "C19_seeded",
    "C19_index_wiring"
   ],
   "note": "Hypotheses beyond the statement: parameters the constructor accepts (C21), at most INT_MAX indexes, base^addressSize within 64 bits (C22)."
  },
  {
   "property": "C20",
   "status": "proved",
   "theorems": [
    "C20_seeded",
    "C20_mapping_wiring",
    "C20_jsonConfig_mapping",
    "C20_json_mapping"
   ],
   "note": "Hypotheses beyond the statement: a mapping the constructor accepts (C21), rows of at most INT_MAX positions, base^length within 64 bits (C22)."
  },
  {
   "property": "C21",
   "status": "proved",
   "theorems": [
    "C21_validation"
   ],
   "note": "Hypotheses beyond the statement: lists of at most INT_MAX elements and entrySize+addressSize <= INT_MAX."
  },
  {
   "property": "C22",
   "status": "partial",
   "theorems": [
    "C22_limit_refuted",
    "C22_limit_partial",
    "C22_limit_outcome_partial",
    "C22_mapping_outcome_partial"
   ],
   "note": "False for base <> 2: the limit check itself overflows (UB) instead of throwing. Proved: every discriminator returned respects the limit, and the exact outcome for every base and address size (base 2: exception above 64 inputs; other bases: accepted below 2^63 addresses, undefined from there), also for mappings (the widest RAM decides)."
  },
  {
   "property": "C23",
   "status": "partial",
   "theorems": [
    "C23_negative_index_refuted",
    "C23_indexes_partial",
    "C23_acceptance_partial"
   ],
   "note": "False: negative indexes are accepted. Proved: what acceptance guarantees otherwise, and exactly which lists are accepted (C23_acceptance_partial: entrySize entries, all below entrySize, no duplicates; negative entries are never looked at)."
  },
  {
   "property": "C24",
   "status": "partial",
   "theorems": [
    "C24_mapping_refuted",
    "C24_bininput_safe_partial",
    "C24_list_outcome_partial"
   ],
   "note": "False for list images (out-of-bounds read). Proved for BinInput images: exception, never an out-of-bounds access; for list images exactly when it happens (C24_list_outcome_partial: as soon as one position lies outside)."
  },
  {
   "property": "C25",
   "status": "proved",
   "theorems": [
    "C25_addresses_injective"
   ],
   "note": ""
  },
  {
   "property": "C26",
   "status": "proved",
   "theorems": [
    "C26_votes_count_matching"
   ],
   "note": "Hypotheses beyond the statement: at most INT_MAX training and untraining calls (counters are ints) and images whose read pixels are in 0..base-1."
  },
  {
   "property": "C27",
   "status": "proved",
   "theorems": [
    "C27_votes_history"
   ],
   "note": "Hypotheses beyond the statement: at most INT_MAX training and untraining calls (counters are ints) and images whose read pixels are in 0..base-1."
  },
  {
   "property": "C28",
   "status": "proved",
   "theorems": [
    "C28_untrain_undoes_train"
   ],
   "note": "Hypotheses beyond the statement: at most INT_MAX training and untraining calls (counters are ints); for the mental image also positions inside the entry and no overflow of its ints (calls times inputs <= INT_MAX)."
  },
  {
   "property": "C29",
   "status": "proved",
   "theorems": [
    "C29_training_order"
   ],
   "note": "Hypotheses beyond the statement: at most INT_MAX training and untraining calls (counters are ints) and images whose read pixels are in 0..base-1."
  },
  {
   "property": "C30",
   "status": "proved",
   "theorems": [
    "C30_votes_bounded"
   ],
   "note": "Hypotheses beyond the statement: at most INT_MAX training and untraining calls (counters are ints) and images whose read pixels are in 0..base-1."
  },
  {
   "property": "C31",
   "status": "proved",
   "theorems": [
    "C31_entry_size_guard"
   ],
   "note": "Sizes are compared as ints: an image of more than 2^31-1 pixels counts with its length modulo 2^32."
  },
  {
   "property": "C32",
   "status": "proved",
   "theorems": [
    "C32_pixel_guard",
    "C32_reachable_unsaturated"
   ],
   "note": "Hypotheses beyond the statement: no counter at INT_MAX (C32_reachable_unsaturated: true of every state reached by fewer than INT_MAX calls) and positions inside the image."
  },
  {
   "property": "C33",
   "status": "partial",
   "theorems": [
    "C33_reject_traceless_refuted",
    "C33_reject_effect_partial"
   ],
   "note": "False: a rejected pixel leaves the counter incremented and earlier RAMs trained (refuted). Proved: the exact effect of the rejected call; for wrong lengths nothing changes (C31)."
  },
  {
   "property": "C34",
   "status": "partial",
   "theorems": [
    "C34_negative_exact_partial",
    "C34_negative_proper_partial",
    "C34_negative_pixel_refuted",
    "C34_big_pixel_partial"
   ],
   "note": "False: negative pixels are accepted and alias other images (C34_negative_pixel_refuted). Proved: values >= base are rejected (C34_big_pixel_partial); exactly what accepted images do, negative pixels included (C34_negative_exact_partial: each RAM votes with the number of trained images of the same weight modulo 2^64; C34_negative_proper_partial: which proper images an image with negative pixels is taken for)."
  },
  {
   "property": "C35",
   "status": "proved",
   "theorems": [
    "C35_training_counter"
   ],
   "note": "Hypotheses beyond the statement: at most INT_MAX training and untraining calls (counters are ints) and images whose read pixels are in 0..base-1."
  },
  {
   "property": "C36",
   "status": "proved",
   "theorems": [
    "C36_mental_image",
    "C36_mental_image_history"
   ],
   "note": "Hypotheses beyond the statement: at most 2^31 addresses per RAM (C37), positions inside the entry, calls times inputs <= INT_MAX (no overflow of the accumulated ints)."
  },
  {
   "property": "C37",
   "status": "partial",
   "theorems": [
    "C37_mental_wide_refuted",
    "C37_mental_small_partial",
    "C37_mental_exact_partial",
    "C37_mental_binary_partial"
   ],
   "note": "False from 32 address bits on (address truncated to int, C37_mental_wide_refuted). Proved: the law up to 2^31 addresses per RAM (C37_mental_small_partial), and the exact mental image for every accepted size and base (C37_mental_exact_partial; base 2: inputs from the 32nd on show nothing and an image whose 32nd pixel is on shows nothing in that RAM, C37_mental_binary_partial)."
  },
  {
   "property": "C38",
   "status": "proved",
   "theorems": [
    "C38_images_interchangeable"
   ],
   "note": "Hypotheses beyond the statement: positions inside the entry, lists of at most INT_MAX pixels."
  },
  {
   "property": "C39",
   "status": "partial",
   "theorems": [
    "C39_overflow_refuted",
    "C39_no_overflow_partial"
   ],
   "note": "False: the INT_MAX+1-st training overflows (UB). Proved: up to INT_MAX trainings nothing overflows."
  },
  {
   "property": "C40",
   "status": "proved",
   "theorems": [
    "C40_least_threshold",
    "C40_determined",
    "C40_overflow_at_int_max",
    "C40_wisard"
   ],
   "note": ""
  },
  {
   "property": "C41",
   "status": "proved",
   "theorems": [
    "C41_without_bleaching",
    "C41_wisard"
   ],
   "note": ""
  },
  {
   "property": "C42",
   "status": "proved",
   "theorems": [
    "C42_winner",
    "C42_wisard",
    "C42_ties"
   ],
   "note": ""
  },
  {
   "property": "C43",
   "status": "proved",
   "theorems": [
    "C43_decided_unique",
    "C43_wisard"
   ],
   "note": "Proved for every confidence >= 1, for votes below 2^31-2 (C40); C43_wisard says it of Wisard::classify and the counts of returnClassesDegrees."
  },
  {
   "property": "C44",
   "status": "partial",
   "theorems": [
    "C44_margin_refuted",
    "C44_margin_partial",
    "C44_wisard_partial"
   ],
   "note": "False as stated: the ambiguity test compares the winner only with labels that come after it in the map, so a label before it can be within the margin (refuted). Proved: the margin over labels after the winner, for Bleaching and (C44_wisard_partial) for Wisard::classify with the confidence it was configured with."
  },
  {
   "property": "C45",
   "status": "proved",
   "theorems": [
    "C45_searchBest_irrelevant"
   ],
   "note": ""
  },
  {
   "property": "C46",
   "status": "proved",
   "theorems": [
    "C46_wisard_law"
   ],
   "note": "Hypotheses beyond the statement: a configuration that can learn images of n pixels (parameters of C18-C20, mapping inside the image, confidence not above the number of RAMs), images of that shape, at most INT_MAX-2 examples."
  },
  {
   "property": "C47",
   "status": "proved",
   "theorems": [
    "C47_labels_isolated"
   ],
   "note": ""
  },
  {
   "property": "C48",
   "status": "proved",
   "theorems": [
    "C48_batches_irrelevant"
   ],
   "note": "Hypotheses beyond the statement: as C46; labels not yet known must have configured wiring, as the statement says."
  },
  {
   "property": "C49",
   "status": "proved",
   "theorems": [
    "C49_train_guards",
    "C49_leave_guard"
   ],
   "note": "Hypotheses beyond the statement: batches and images of at most INT_MAX elements and address size at least 1."
  },
  {
   "property": "C50",
   "status": "proved",
   "theorems": [
    "C50_failing_batch",
    "C50_failing_first"
   ],
   "note": "For a label already known at that point; unknown labels are the subject of C52."
  },
  {
   "property": "C51",
   "status": "partial",
   "theorems": [
    "C51_empty_batch_refuted",
    "C51_no_out_of_bounds_partial",
    "C51_reachable_wired"
   ],
   "note": "False as stated: train([],[]) reads images[0] (refuted). Proved: a non-empty batch makes no out-of-bounds access from any state wired inside its entry, and reachable states are."
  },
  {
   "property": "C52",
   "status": "partial",
   "theorems": [
    "C52_ghost_refuted",
    "C52_rejected_creation_partial",
    "C52_rejected_batch_partial"
   ],
   "note": "False as stated for C++14 evaluation orders that create the map entry first (refuted: later classify throws). Proved: the exact effect for both orders; nothing changes when the right-hand side is evaluated first."
  },
  {
   "property": "C53",
   "status": "proved",
   "theorems": [
    "C53_leave_unknown"
   ],
   "note": "Hypotheses beyond the statement: as C46 for the calls before it."
  },
  {
   "property": "C54",
   "status": "proved",
   "theorems": [
    "C54_mental_images"
   ],
   "note": "Hypotheses beyond the statement: as C46, and C36's bounds for each label."
  },
  {
   "property": "C55",
   "status": "proved",
   "theorems": [
    "C55_queries_pure"
   ],
   "note": ""
  },
  {
   "property": "C56",
   "status": "proved",
   "theorems": [
    "C56_train_dataset",
    "C56_classify_dataset"
   ],
   "note": "Hypotheses beyond the statement: positions inside the images (mapping and index list), at most INT_MAX entries."
  },
  {
   "property": "C57",
   "status": "proved",
   "theorems": [
    "C57_roundtrip"
   ],
   "note": "Hypotheses beyond the statement: positions that are ints, at most INT_MAX calls, at least one of them a training, and a saved text below 2^31 bytes."
  },
  {
   "property": "C58",
   "status": "partial",
   "theorems": [
    "C58_untrained_refuted",
    "C58_trained_once_partial"
   ],
   "note": "False in the code: reloading an untrained discriminator always throws out_of_range (C58_untrained_refuted). Proved: after one training the round trip works (C58_trained_once_partial)."
  },
  {
   "property": "C59",
   "status": "partial",
   "theorems": [
    "C59_discriminator_refuted",
    "C59_wisard_refuted",
    "C59_untrained_wisard_partial"
   ],
   "note": "False in the code: reloading jsonConfig() of any discriminator or of any trained Wisard throws (C59_*_refuted). Proved: untrained Wisards reload (C59_untrained_wisard_partial)."
  },
  {
   "property": "C60",
   "status": "proved",
   "theorems": [
    "C60_roundtrip",
    "C60_same_classes",
    "C60_same_future"
   ],
   "note": "Hypotheses beyond the statement: as C46, integer options, and saved texts of each label below 2^31 bytes."
  },
  {
   "property": "C61",
   "status": "partial",
   "theorems": [
    "C61_mapping_refuted",
    "C61_unmapped_labels_partial"
   ],
   "note": "False in the code: mapping and searchBestConfidence are lost (C61_mapping_refuted). Proved: labels without configured mapping keep their wiring (C61_unmapped_labels_partial); C60_roundtrip states exactly what survives."
  },
  {
   "property": "C62",
   "status": "proved",
   "theorems": [
    "C62_huge_discriminator",
    "C62_huge_wisard"
   ],
   "note": "Hypotheses beyond the statement: as C57, and a file name that is UTF-8 and shorter than 2^64 bytes."
  },
  {
   "property": "C63",
   "status": "partial",
   "theorems": [
    "C63_lost_refuted",
    "C63_stale_refuted",
    "C63_new_file_partial",
    "C63_existing_file_partial",
    "C63_read_only_partial"
   ],
   "note": "False in the code: an unwritable file loses the RAMs silently, an existing one yields stale contents (C63_lost_refuted, C63_stale_refuted). Proved, the outcome in each file system case: new writable file, everything reloads (C63_new_file_partial); no file and not writable, the RAMs are lost (C63_lost_refuted); file already holding a saved discriminator and writable: the first one's contents, with the border RAM merged, then the second's (C63_existing_file_partial); existing and no longer writable: the second's wiring over the first's contents (C63_read_only_partial)."
  },
  {
   "property": "C64",
   "status": "proved",
   "theorems": [
    "C64_cluswisard",
    "C64_cluswisard_keeps",
    "C64_cluster_size_limit"
   ],
   "note": "Hypotheses beyond the statement: a limit that is an int; for a lone cluster, one within its limit at the start (C64_cluster_size_limit). C64_cluswisard: a ClusWisard from its constructor through any calls, failing ones included, for every label and the unsupervised cluster; C64_cluswisard_keeps: from any state, discriminators are never removed or reordered."
  },
  {
   "property": "C65",
   "status": "proved",
   "theorems": [
    "C65_image_learned",
    "C65_counting_reachable"
   ],
   "note": "For clusters of counting discriminators within INT_MAX, which C65_counting_reachable shows of every reachable cluster."
  },
  {
   "property": "C66",
   "status": "proved",
   "theorems": [
    "C66_decision_rule"
   ],
   "note": "For clusters of counting discriminators within INT_MAX (reachable ones: C65_counting_reachable)."
  },
  {
   "property": "C67",
   "status": "proved",
   "theorems": [
    "C67_score_range"
   ],
   "note": "uses the standard library axioms of the real numbers (through Flocq), listed in DESIGN.md"
  },
  {
   "property": "C68",
   "status": "proved",
   "theorems": [
    "C68_classify_trained"
   ],
   "note": ""
  },
  {
   "property": "C69",
   "status": "partial",
   "theorems": [
    "C69_label_text_refuted",
    "C69_label_text_partial"
   ],
   "note": "False in the code: labels \"a::b\" and \"a:\" are both reported as \"a\" (C69_label_text_refuted). Proved for every label text: the answer is a trained label cut at the first \"::\" (C69_label_text_partial; supervised and unsupervised calls)."
  },
  {
   "property": "C70",
   "status": "partial",
   "theorems": [
    "C70_unlabelled_used_refuted",
    "C70_unlabelled_used_partial"
   ],
   "note": "False in the code: the second loop trains images[i], not images[labelless[i]] (C70_unlabelled_used_refuted). Proved: it holds when the unlabelled images come first (C70_unlabelled_used_partial); C71_semi_safe_partial states exactly which images are used."
  },
  {
   "property": "C71",
   "status": "partial",
   "theorems": [
    "C71_semi_safe_refuted",
    "C71_semi_safe_partial"
   ],
   "note": "False in the code: as many labels as images with an index out of range writes outside a vector (C71_semi_safe_refuted). Proved: exact behaviour in every other case (C71_semi_safe_partial)."
  },
  {
   "property": "C72",
   "status": "partial",
   "theorems": [
    "C72_unsupervised_accumulates_refuted",
    "C72_unsupervised_accumulates_partial",
    "C72_unsupervised_replaced"
   ],
   "note": "False in the code without supervised clusters (C72_unsupervised_accumulates_refuted, C72_unsupervised_replaced). Proved with one (C72_unsupervised_accumulates_partial)."
  },
  {
   "property": "C73",
   "status": "partial",
   "theorems": [
    "C73_unsupervised_after_supervised_refuted",
    "C73_unsupervised_after_supervised_partial"
   ],
   "note": "False in the code: the unsupervised cluster of a supervised-only model is uninitialised (C73_unsupervised_after_supervised_refuted). Proved: it works if it was first trained before any supervised training (C73_unsupervised_after_supervised_partial)."
  },
  {
   "property": "C74",
   "status": "partial",
   "theorems": [
    "C74_unsupervised_base_refuted",
    "C74_unsupervised_base_partial"
   ],
   "note": "False in the code: base is not passed on (C74_unsupervised_base_refuted). Proved for base 2 (C74_unsupervised_base_partial)."
  },
  {
   "property": "C75",
   "status": "partial",
   "theorems": [
    "C75_base_refuted",
    "C75_nan_refuted",
    "C75_roundtrip_partial",
    "C75_unsupervised_partial",
    "C75_same_future"
   ],
   "note": "False in the code: an unsupervised cluster trained with base other than 2 comes back with the configured base and votes differently (C75_base_refuted), and a NaN minScore, which the constructor accepts, makes the text unloadable (C75_nan_refuted). Proved: round trip for UTF-8 labels when nothing was trained unsupervised or base is 2 (C75_roundtrip_partial, C75_unsupervised_partial), and identical behaviour under any later calls (C75_same_future)."
  },
  {
   "property": "C76",
   "status": "partial",
   "theorems": [
    "C76_mental_query_refuted",
    "C76_mental_query_partial"
   ],
   "note": "False in the code: the query inserts an uninitialised cluster for an unknown label (C76_mental_query_refuted). Proved: nothing changes for known labels, and classifications never change (C76_mental_query_partial)."
  },
  {
   "property": "C77",
   "status": "proved",
   "theorems": [
    "C77_output_law",
    "C77_frequency"
   ],
   "note": ""
  },
  {
   "property": "C78",
   "status": "partial",
   "theorems": [
    "C78_synth_total_refuted",
    "C78_synth_total_partial"
   ],
   "note": "False in the code: make() on an all-zero image computes rand() % 0 (C78_synth_total_refuted). Proved: with non-negative entries the constructor always works and make() works exactly when some entry is positive (C78_synth_total_partial)."
  },
  {
   "property": "C79",
   "status": "proved",
   "theorems": [
    "C79_transform",
    "C79_counts"
   ],
   "note": "uses the standard library axioms of the real numbers (through Flocq), listed in DESIGN.md"
  },
  {
   "property": "C80",
   "status": "partial",
   "theorems": [
    "C80_direction_refuted",
    "C80_direction_one_partial"
   ],
   "note": "False in the code: with dim >= 2 every non-empty sequence is undefined behaviour in direction mode (C80_direction_refuted). Proved: one dimension is safe, and activates the kernels nearest to the row's normalised value written three times (C80_direction_one_partial)."
  },
  {
   "property": "C81",
   "status": "proved",
   "theorems": [
    "C81_number_of_rams"
   ],
   "note": ""
  },
  {
   "property": "C82",
   "status": "proved",
   "theorems": [
    "C82_bytes_roundtrip"
   ],
   "note": ""
  },
  {
   "property": "C83",
   "status": "proved",
   "theorems": [
    "C83_cluster_law"
   ],
   "note": "Hypotheses beyond the statement: fewer than INT_MAX images."
  },
  {
   "property": "C84",
   "status": "proved",
   "theorems": [
    "C84_cluswisard_law"
   ],
   "note": "Hypotheses beyond the statement: at most INT_MAX-2 images, labels without '::' and not ending in ':' (C69), at least one labelled image per semi-supervised call."
  },
  {
   "property": "C85",
   "status": "partial",
   "theorems": [
    "C85_failed_train_refuted",
    "C85_failed_train_partial"
   ],
   "note": "False if the map access is evaluated before the constructor (C85_failed_train_refuted). Proved for the other order (C85_failed_train_partial)."
  },
  {
   "property": "C86",
   "status": "proved",
   "theorems": [
    "C86_unsupervised_law",
    "C86_numbers"
   ],
   "note": "Hypotheses beyond the statement: parameters accepted with base 2 (C74), at most INT_MAX-2 images, at least one."
  },
  {
   "property": "C87",
   "status": "proved",
   "theorems": [
    "C87_huge_clus",
    "C87_huge_unsupervised"
   ],
   "note": "Hypotheses beyond the statement: as C84, integer options, UTF-8 labels and file names, saved contents below 2^31 bytes, random parts of 10 characters (which getRandomString gives)."
  },
  {
   "property": "C88",
   "status": "partial",
   "theorems": [
    "C88_cpp_constructor_refuted",
    "C88_python_constructor_partial"
   ],
   "note": "False in the code: the C++ constructors never store dim (C88_cpp_constructor_refuted). Proved for the Python constructor (C88_python_constructor_partial)."
  },
  {
   "property": "C89",
   "status": "proved",
   "theorems": [
    "C89_validation"
   ],
   "note": "uses the standard library axioms of the real numbers (through Flocq), listed in DESIGN.md"
  },
  {
   "property": "C90",
   "status": "proved",
   "theorems": [
    "C90_count"
   ],
   "note": "uses the standard library axioms of the real numbers (through Flocq), listed in DESIGN.md"
  },
  {
   "property": "C91",
   "status": "partial",
   "theorems": [
    "C91_more_than_kernels_refuted",
    "C91_more_than_kernels_partial",
    "C91_exactly_partial"
   ],
   "note": "False in the code: 16777219 kernels with degree 1 (C91_more_than_kernels_refuted). Proved up to 2^24 kernels (C91_more_than_kernels_partial), and for every number of kernels: transform of a non-empty sequence works when the rounded product of degree and kernels is at most their number and is undefined behaviour otherwise (C91_exactly_partial). Uses the standard library axioms of the real numbers (through Flocq), listed in DESIGN.md."
  },
  {
   "property": "C92",
   "status": "partial",
   "theorems": [
    "C92_short_row_refuted",
    "C92_long_row_partial"
   ],
   "note": "False in the code: too short rows are read out of bounds before the check (C92_short_row_refuted). Proved for too long ones (C92_long_row_partial)."
  },
  {
   "property": "C93",
   "status": "partial",
   "theorems": [
    "C93_something_on_refuted",
    "C93_something_on_partial",
    "C93_exactly_partial"
   ],
   "note": "False in the code: the default degree activates nothing with at most 7 kernels (C93_something_on_refuted). Proved when the rounded count is at least 1 (C93_something_on_partial), and exactly then: with c the rounded product of degree and kernels, the output holds a 1 iff c >= 1 and the sequence is not empty, and is zero throughout otherwise (C93_exactly_partial; up to 2^24 kernels). Uses the standard library axioms of the real numbers (through Flocq), listed in DESIGN.md."
  },
  {
   "property": "C94",
   "status": "proved",
   "theorems": [
    "C94_wisard_python_classify",
    "C94_wisard_python_classify_dataset",
    "C94_cluswisard_python_classify"
   ],
   "note": "Hypothesis beyond the statement: an address size other than 0 (the number of RAMs is computed by dividing by it)."
  },
  {
   "property": "C95",
   "status": "partial",
   "theorems": [
    "C95_empty_batch_refuted",
    "C95_empty_batch_partial"
   ],
   "note": "False in the Python wrappers: images[0] is read before the loop (C95_empty_batch_refuted). Proved for the calls that do not (C95_empty_batch_partial)."
  },
  {
   "property": "C96",
   "status": "partial",
   "theorems": [
    "C96_activation_degree_refuted",
    "C96_activation_degree_partial"
   ],
   "note": "False in the code with a mapping: a degree of 2 (C96_activation_degree_refuted). Proved without mapping and index list, after any calls (C96_activation_degree_partial). Uses the standard library axioms of the real numbers (through Flocq), listed in DESIGN.md."
  },
  {
   "property": "C97",
   "status": "partial",
   "theorems": [
    "C97_confidence_refuted",
    "C97_confidence_partial"
   ],
   "note": "False in the code: a tie reports confidence 1 without bleaching and NaN with it (C97_confidence_refuted). Proved: (b-s)/b with s the largest count strictly below b>0 (C97_confidence_partial). Uses the standard library axioms of the real numbers (through Flocq), listed in DESIGN.md."
  },
  {
   "property": "C98",
   "status": "partial",
   "theorems": [
    "C98_classes_degrees_refuted",
    "C98_classes_degrees_partial"
   ],
   "note": "False in the code for an untrained model asked for another extra as well: lists a class \"\" (C98_classes_degrees_refuted). Proved for trained ones (C98_classes_degrees_partial). Uses the standard library axioms of the real numbers (through Flocq), listed in DESIGN.md."
  },
  {
   "property": "C99",
   "status": "proved",
   "theorems": [
    "C99_cluswisard_activation_degree"
   ],
   "note": "Uses the standard library axioms of the real numbers (through Flocq), listed in DESIGN.md."
  },
  {
   "property": "C100",
   "status": "partial",
   "theorems": [
    "C100_cluswisard_extras_refuted",
    "C100_cluswisard_extras_partial"
   ],
   "note": "False in the code: both are per discriminator, so a class with two discriminators is listed twice and competes with itself (C100_cluswisard_extras_refuted). Proved: the exact per-discriminator values (C100_cluswisard_extras_partial). Uses the standard library axioms of the real numbers (through Flocq), listed in DESIGN.md."
  },
  {
   "property": "C101",
   "status": "proved",
   "theorems": [
    "C101_handle_of_saved",
    "C101_handle_of_saved_file",
    "C101_handle_reads"
   ],
   "note": "Hypotheses beyond the statement: positions that are ints, at most INT_MAX calls, at least one of them a training, and a saved text below 2^31 bytes."
  },
  {
   "property": "C102",
   "status": "proved",
   "theorems": [
    "C102_wisard_options",
    "C102_cluswisard_options",
    "C102_discriminator_options",
    "C102_wrong_type",
    "C102_any_order",
    "C102_same_as_cpp",
    "C102_same_as_cpp_clus",
    "C102_same_as_cpp_disc"
   ],
   "note": ""
  },
  {
   "property": "C103",
   "status": "proved",
   "theorems": [
    "C103_discriminator_size",
    "C103_new_size",
    "C103_wisard_size",
    "C103_never_shrinks",
    "C103_untrain_keeps",
    "C103_one_training",
    "C103_wisard_never_shrinks",
    "C103_leaving_out_keeps",
    "C103_reloaded",
    "C103_wisard_reloaded"
   ],
   "note": "Hypotheses beyond the statement: the exact formulas are for histories of valid calls of at most INT_MAX; that no call shrinks a model is proved of all states."
  },
  {
   "property": "C104",
   "status": "partial",
   "theorems": [
    "C104_shrinks_refuted",
    "C104_labelled_partial"
   ],
   "note": "False in the code: trainUnsupervised on a model without labels replaces the unsupervised cluster, so the model shrinks (C104_shrinks_refuted). Proved: every other training call, and unsupervised training once a label exists, never shrinks it (C104_labelled_partial)."
  },
  {
   "property": "C105",
   "status": "partial",
   "theorems": [
    "C105_nan_refuted",
    "C105_validation_partial",
    "C105_infinite_partial"
   ],
   "note": "False in the code: NaN passes the minScore check (C105_nan_refuted). Proved for every minScore that is a finite number."
  },
  {
   "property": "C106",
   "status": "proved",
   "theorems": [
    "C106_train_guards",
    "C106_semi_guards"
   ],
   "note": "Hypotheses beyond the statement: a non-empty batch of at most INT_MAX images, address size at least 1."
  },
  {
   "property": "C107",
   "status": "proved",
   "theorems": [
    "C107_discriminator",
    "C107_wisard",
    "C107_cluswisard",
    "C107_unsupervised",
    "C107_values",
    "C107_json"
   ],
   "note": "Hypotheses beyond the statement: those of C57, C60, C75; for ClusWisard strtod is assumed to read a written double back."
  },
  {
   "property": "C108",
   "status": "partial",
   "theorems": [
    "C108_number_refuted",
    "C108_base_refuted",
    "C108_outcome_partial",
    "C108_tame_partial",
    "C108_total_refuted",
    "C108_parse_partial"
   ],
   "note": "False: C108_total_refuted (a content of 13 characters is read outside the string), C108_number_refuted (a number outside the ints), C108_base_refuted (a base with too many addresses). Proved for every text below 2^31-1 characters and all three constructors: reading it as JSON ends with a value or a JSON exception (C108_parse_partial); the constructor ends with an object, an exception or one of these three kinds of undefined behaviour, and never loops for ever (C108_outcome_partial); a text without the three causes gives an object or an exception (C108_tame_partial)."
  },
  {
   "property": "C109",
   "status": "proved",
   "theorems": [
    "C109_truncated"
   ],
   "note": ""
  },
  {
   "property": "C110",
   "status": "partial",
   "theorems": [
    "C110_appended_refuted",
    "C110_appended_partial"
   ],
   "note": "False: C110_appended_refuted (after a zero character the rest of the text is ignored). Proved: white space is ignored and anything else that does not begin with a zero character is refused, for all three classes and both layouts."
  },
  {
   "property": "C111",
   "status": "proved",
   "theorems": [
    "C111_halving_search",
    "C111_determined",
    "C111_any_votes",
    "C111_cast_at_2_30"
   ],
   "note": ""
  },
  {
   "property": "C112",
   "status": "partial",
   "theorems": [
    "C112_without_bleaching_refuted",
    "C112_without_bleaching_partial"
   ],
   "note": "False in the code (C112_without_bleaching_refuted). Proved: the threshold is half the highest vote, which gives the ordinary counts when that is 2 or 3."
  },
  {
   "property": "C113",
   "status": "proved",
   "theorems": [
    "C113_digits",
    "C113_text",
    "C113_double",
    "C113_float"
   ],
   "note": ""
  },
  {
   "property": "C114",
   "status": "proved",
   "theorems": [
    "C114_string",
    "C114_labels"
   ],
   "note": ""
  },
  {
   "property": "C115",
   "status": "proved",
   "theorems": [
    "C115_rewritten",
    "C115_labels"
   ],
   "note": ""
  },
  {
   "property": "C116",
   "status": "partial",
   "theorems": [
    "C116_cut_dataset_refuted",
    "C116_cut_dataset_partial"
   ],
   "note": "False: C116_cut_dataset_refuted (entries silently missing, an image nobody added, undefined read). Proved for every k: the entries wholly written come back unchanged, at most one more follows, and loading ends."
  },
  {
   "property": "C117",
   "status": "partial",
   "theorems": [
    "C117_cut_discriminator_refuted",
    "C117_cut_discriminator_partial",
    "C117_cut_wisard_partial"
   ],
   "note": "False: C117_cut_discriminator_refuted (RAMs or patterns silently lost, undefined read). Proved for every k: reloading ends; if it succeeds the RAMs wholly written answer as before, at most one more answers as before or 0, and the others are gone (C117_cut_discriminator_partial); for a Wisard with the file of one label cut the same of that label, and every other label is as it was (C117_cut_wisard_partial)."
  },
  {
   "property": "C118",
   "status": "proved",
   "theorems": [
    "C118_decode_outcome"
   ],
   "note": ""
  },
  {
   "property": "C119",
   "status": "proved",
   "theorems": [
    "C119_as_values",
    "C119_no_interference"
   ],
   "note": ""
  },
  {
   "property": "C120",
   "status": "partial",
   "theorems": [
    "C120_copy_refuted",
    "C120_copy_shares_partial"
   ],
   "note": "False in the code (C120_copy_refuted: the copy answers differently after the original is trained). Proved: the copy answers as the discriminators it shares with the original answer now; later ones belong to the original alone."
  },
  {
   "property": "C121",
   "status": "proved",
   "theorems": [
    "C121_no_dangling"
   ],
   "note": ""
  },
  {
   "property": "C122",
   "status": "partial",
   "theorems": [
    "C122_leak_refuted",
    "C122_leak_bound_partial"
   ],
   "note": "False in the code (C122_leak_refuted: nothing ever releases a discriminator). Proved: without loading, at most one discriminator stays behind for each call to train."
  },
  {
   "property": "C123",
   "status": "partial",
   "theorems": [
    "C123_missing_wisard_partial",
    "C123_missing_file_refuted",
    "C123_missing_dataset_partial",
    "C123_missing_handle_partial",
    "C123_missing_discriminator_partial"
   ],
   "note": "False in the code (C123_missing_file_refuted). Proved: names without the suffix are refused, but a missing file gives an empty data set, an empty handle, a discriminator without RAMs that answers every image with no votes; a Wisard loads without an exception and exactly the labels whose files are gone have lost their RAMs (C123_missing_wisard_partial)."
  },
  {
   "property": "C124",
   "status": "partial",
   "theorems": [
    "C124_make_refuted",
    "C124_make_partial"
   ],
   "note": "False in the code (C124_make_refuted: all calls within one second return the same image, for every generator). Proved: each call returns an image of the law of C77."
  },
  {
   "property": "C125",
   "status": "partial",
   "theorems": [
    "C125_same_second_refuted",
    "C125_same_second_wisard_refuted",
    "C125_wiring_partial"
   ],
   "note": "False in the code within one second (C125_same_second_refuted, C125_same_second_wisard_refuted, for every generator). Proved: every mapping drawn is a proper one (C18 for every generator and clock)."
  },
  {
   "property": "C126",
   "status": "partial",
   "theorems": [
    "C126_same_file_refuted",
    "C126_name_partial"
   ],
   "note": "False in the code (C126_same_file_refuted: models of the same shape built in the same second share a file, and the second loads the RAMs of the first). Proved: the form of the names; the round trip for names not taken is C61, C87."
  },
  {
   "property": "C127",
   "status": "partial",
   "theorems": [
    "C127_one_pixel_refuted",
    "C127_random_ram_partial"
   ],
   "note": "False in the code (C127_one_pixel_refuted: within one second all inputs are the same pixel). Proved: number and range of the addresses, remainder by zero for entrySize 0."
  },
  {
   "property": "C128",
   "status": "proved",
   "theorems": [
    "C128_cluswisard_mental_images"
   ],
   "note": "Hypotheses beyond the statement: base^addressSize <= 2^31 (see C37) and no overflow of the accumulated ints (images times RAM inputs <= INT_MAX)."
  },
  {
   "property": "C129",
   "status": "proved",
   "theorems": [
    "C129_leave_then_train_restores",
    "C129_cross_validation",
    "C129_leave_one_out",
    "C129_discriminator"
   ],
   "note": "Hypotheses beyond the statement: at most INT_MAX-2 examples in the history plus twice the fold; the fold is non-empty (train reads images[0] of an empty batch, C106)."
  },
  {
   "property": "C130",
   "status": "partial",
   "theorems": [
    "C130_left_out_refuted",
    "C130_left_out_partial",
    "C130_discriminator_partial"
   ],
   "note": "Refuted: the label of a left-out only example stays a candidate and wins ties at zero against labels before it. Proved: equal votes, counts and classes when the wiring is configured (mapping or indexes) and every label of the fold keeps an example; for one Discriminator votes and counter are equal without conditions. Missing: nothing else is true in general (random wiring differs between two classifiers)."
  },
  {
   "property": "C131",
   "status": "proved",
   "theorems": [
    "C131_labels_isolated",
    "C131_parts_apart"
   ],
   "note": "Hypotheses beyond the statement: none beyond the statement; the vote counts are compared with bleaching off, since with bleaching on the threshold depends on all labels. Semi-supervised calls are left out of the first part: they may train any label with an image whose label they guess (C70, C84)."
  },
  {
   "property": "C132",
   "status": "partial",
   "theorems": [
    "C132_one_per_label_refuted",
    "C132_one_per_label_partial",
    "C132_same_length"
   ],
   "note": "Refuted: candidates are keyed label::number, so labels such as 1 and 10 change order and ties go to the other label. Proved: for discriminatorsLimit at most 1, labels without '::' (not ending in ':'), none continuing another with a character up to ':' (labels of one length do), the Wisard with the same options and random choices accepts the same calls and answers, or fails, identically on every image."
  },
  {
   "property": "C133",
   "status": "partial",
   "theorems": [
    "C133_as_written_refuted",
    "C133_options_partial",
    "C133_cluswisard_options_partial",
    "C133_failure",
    "C133_text_partial",
    "C133_int_as_written",
    "C133_other_kinds"
   ],
   "note": "Refuted: an integer beyond int is taken modulo 2^32, true counts as 1, fractions are dropped, unknown names are ignored. Proved: the exact reading of every option (C133_options_partial, C133_cluswisard_options_partial, C133_text_partial are characterisations), as written for an int (C133_int_as_written), and an exception, or undefined behaviour for a fraction beyond int, otherwise."
  },
  {
   "property": "C134",
   "status": "partial",
   "theorems": [
    "C134_loaded_valid_refuted",
    "C134_loaded_valid_partial"
   ],
   "note": "Refuted: ClusWisard(text) checks neither minScore nor threshold nor discriminatorsLimit. Proved: the loaded object is valid exactly when the values written in the text are."
  },
  {
   "property": "C135",
   "status": "proved",
   "theorems": [
    "C135_batch",
    "C135_batch_failure",
    "C135_python_batch"
   ],
   "note": "Hypotheses beyond the statement: the Python part is for images of one size (the degree divides by the RAM count of the first image, C96)."
  },
  {
   "property": "C136",
   "status": "partial",
   "theorems": [
    "C136_recall_refuted",
    "C136_ignoreZero_refuted",
    "C136_recalled_partial",
    "C136_full_count_partial"
   ],
   "note": "Refuted: examples of another label can cover a training image RAM by RAM and win the tie; with ignoreZero a zero image is never recalled. Proved without ignoreZero: the image is answered with its label, for every random wiring, when each other label differs from it in one common wired pixel (confidence up to 1 if bleaching is on); with bleaching off its label always has the full count."
  },
  {
   "property": "C137",
   "status": "proved",
   "theorems": [
    "C137_repeats_change_nothing"
   ],
   "note": "Hypotheses beyond the statement: proper training calls, at most INT_MAX-2 examples in all."
  },
  {
   "property": "C138",
   "status": "proved",
   "theorems": [
    "C138_known_labels"
   ],
   "note": "Hypotheses beyond the statement: those of C46."
  },
  {
   "property": "C139",
   "status": "partial",
   "theorems": [
    "C139_renaming_refuted",
    "C139_renamed_calls_partial",
    "C139_renamed_answers_partial"
   ],
   "note": "Refuted: ties go to the label last in the alphabet. Proved of all states: outcomes and states are renamed by every renaming, votes too, degrees with bleaching off; with a renaming that keeps the order of the known labels also degrees and answers with bleaching."
  },
  {
   "property": "C140",
   "status": "proved",
   "theorems": [
    "C140_moved_pixels"
   ],
   "note": "Hypotheses beyond the statement: those of C46; the wiring of every trained label is configured (mapping or indexes), since random wiring differs between two classifiers."
  },
  {
   "property": "C141",
   "status": "partial",
   "theorems": [
    "C141_nearest_refuted",
    "C141_varied_partial",
    "C141_whole_partial"
   ],
   "note": "Refuted: a single row, or a column holding one whole number throughout, makes every distance NaN (tanh(NaN)=NaN assumed) and the output the same for all such sequences. Proved: if every column has finite values, a finite mean and a finite positive deviation the kernels switched on are really nearest; columns of whole numbers up to 2^20 holding two different values, in at most 2^20 rows, are such (C141_whole_partial)."
  },
  {
   "property": "C142",
   "status": "partial",
   "theorems": [
    "C142_order_refuted",
    "C142_interleaving_partial"
   ],
   "note": "Refuted: the same four examples in two orders give different answers, since the clusters of a label depend on the order it sees. Proved: examples of different labels may be interleaved in any way; images of one size, the same per-label order and the same random choices per example give the same final state."
  },
  {
   "property": "C143",
   "status": "partial",
   "theorems": [
    "C143_completed_partial",
    "C143_few_refuted",
    "C143_never_drawn_refuted",
    "C143_wisard_never_drawn_refuted",
    "C143_drawable_partial"
   ],
   "note": "Refuted: whatever the C library, the clock and the history, a Discriminator can draw at most 100001 wirings for given arguments (seed in 0..100000) and a label of a Wisard 1000001, so with 9 (10) or more pixels some proper wiring is never drawn. Proved: the shuffle itself leaves none out; for each wiring without repeated pixels (C143_drawable_partial) and, with completion, each wiring that leaves no pixel out (C143_completed_partial) there are values of rand() that draw it."
  },
  {
   "property": "C144",
   "status": "partial",
   "theorems": [
    "C144_decimal",
    "C144_line_end_refuted",
    "C144_wisard_partial",
    "C144_cluswisard_partial",
    "C144_semi_partial"
   ],
   "note": "Refuted: train(DataSet) never ends its line (the text of a successful call holds no newline). Proved of all batch calls of Wisard, ClusWisard and the Python wrappers: the result is that of the quiet call; nothing is written with verbose off; on success one report per image and a line end; on failure the reports up to the image at fault, or nothing if the call was refused. Semi-supervised training reports every image as supervised. Lists of at most INT_MAX images."
  },
  {
   "property": "C145",
   "status": "proved",
   "theorems": [
    "C145_wisard",
    "C145_cluswisard"
   ],
   "note": "Hypotheses beyond the statement: none beyond the statement; results under equal random choices."
  },
  {
   "property": "C146",
   "status": "partial",
   "theorems": [
    "C146_order_refuted",
    "C146_records_partial",
    "C146_length_partial",
    "C146_sparse_partial",
    "C146_faithful_partial",
    "C146_faithful_wisard_partial",
    "C146_faithful_clus_partial"
   ],
   "note": "False as stated: the patterns of a RAM are written in the order of an unordered_map, so saving, reloading and saving again can change the text (C146_order_refuted: two admissible orders, two texts). What holds: everything but the order of the 16-character records of each RAM is fixed (records, length), the text is fixed when no RAM learned two patterns (sparse; the three kinds of model, memory and files), and models with equal texts are equal (faithful; for Wisard up to the mapping option and searchBestConfidence, for ClusWisard up to searchBestConfidence, which are not written: C61, C75)."
  },
  {
   "property": "C147",
   "status": "proved",
   "theorems": [
    "C147_value",
    "C147_same",
    "C147_saved",
    "C147_reload",
    "C147_wisard",
    "C147_cluswisard",
    "C147_order",
    "C147_unique"
   ],
   "note": "Hypotheses beyond the statement: strtod is a parameter T; the integer members hold C ints (int_disc etc., met by every constructed and trained model) and, for the reloads, the hypotheses of C107"
  },
  {
   "property": "C148",
   "status": "partial",
   "theorems": [
    "C148_refuted",
    "C148_exact_partial",
    "C148_plain_partial",
    "C148_throws_partial"
   ],
   "note": "false: a zero byte ends the text, whatever follows it (C148_refuted; the same cause as C110). Proved: exactly the JSON texts, with an optional byte order mark in front and an optional zero byte with anything behind it, are read; texts without both are read iff they are JSON texts, and all others make the three constructors throw a JSON exception"
  },
  {
   "property": "C149",
   "status": "proved",
   "theorems": [
    "C149_inherited",
    "C149_threshold",
    "C149_common_pixels"
   ],
   "note": "Hypotheses beyond the statement: the classifier starts untrained, is configured for n pixels and called with matching lists of images of n pixels (as in C54); at most 2^31 addresses per RAM and examples x RAM inputs within int. C149_inherited covers every history including leaveOneOut/leaveMoreOut. C149_threshold and C149_common_pixels are for histories of training calls, a label without its own mapping and an addressSize dividing n (each pixel wired once), and a label with at least one pixel on (otherwise make() divides by zero: C78)"
  },
  {
   "property": "C150",
   "status": "partial",
   "theorems": [
    "C150_own_label_refuted",
    "C150_own_label_partial"
   ],
   "note": "False in general: C150_own_label_refuted gives a trained model whose synthetic image for one label is answered with another. C150_own_label_partial (H: as C149; ignoreZero off, no mapping, addressSize divides n, confidence at most 1 with bleaching): when all images of the label show the same 0/1 pixels, every draw returns exactly that image, and it is answered with its label if one pixel tells it apart from all images of each other label. Missing: labels trained on differing images"
  },
  {
   "property": "C151",
   "status": "proved",
   "theorems": [
    "C151_renamed_values",
    "C151_renamed_outcomes"
   ],
   "note": "Hypotheses beyond the statement: configured, proper calls (C46); the labels must be learnable with the new base (address space, C22); same random choices in both runs; at most INT_MAX-2 examples. C151_ignore_zero shows why ignoreZero asks the renaming to keep 0. C151_renamed_outcomes is the stronger form inside one base: no assumption that the calls or options are proper, failures included (options need only be C++ ints, lists shorter than 2^31)."
  },
  {
   "property": "C152",
   "status": "proved",
   "theorems": [
    "C152_renamed_values"
   ],
   "note": "Hypotheses beyond the statement: same random choices in both runs; the renaming stays inside the base; trainUnsupervised is considered only with base 2 (it builds its cluster with base 2 whatever the model's base, C74). C152 says nothing about mental images. No assumption that calls succeed."
  },
  {
   "property": "C153",
   "status": "partial",
   "theorems": [
    "C153_reinforced_refuted",
    "C153_reinforced_partial",
    "C153_forgotten_partial"
   ],
   "note": "Refuted for a confidence of 3: a count of 1 settles the search whatever the margin, a count of 2 does not, so one more example of the winning label can make another label win (C153_reinforced_refuted). Proved of any state, options and further calls (failing ones included), with bleaching off, confidence at most 2 or a degree above 1: an image answered l is never answered otherwise after more examples of l (C153_reinforced_partial), and leaving out examples of l never brings an image to l (C153_forgotten_partial). That an answer is given at all is C46."
  },
  {
   "property": "C154",
   "status": "partial",
   "theorems": [
    "C154_recall_refuted",
    "C154_covered_refuted",
    "C154_recalled_partial",
    "C154_full_count_partial"
   ],
   "note": "False. C154_recall_refuted: with bleaching and two discriminators per label, both learn the image, tie with each other and the bleaching lets another label win although one pixel tells all its images from the one asked; C154_covered_refuted: without bleaching another label's discriminator can cover the image RAM by RAM. C154_recalled_partial: what holds under the distinguishing-pixel hypothesis, without ignoreZero and with every pixel wired: always without bleaching; with bleaching for one discriminator per label and confidence <= 1. C154_full_count_partial: without bleaching the label's full count is the maximum and the answer has it too."
  },
  {
   "property": "C155",
   "status": "proved",
   "theorems": [
    "C155_lower_limit",
    "C155_higher_limit"
   ],
   "note": "Hypotheses beyond the statement: hypotheses: both limits at most INT_MAX; the run with the first limit succeeds (both fixed compiler orders); the counts are bounded after every call (the unsupervised cluster may be restarted by a later call)."
  },
  {
   "property": "C156",
   "status": "proved",
   "theorems": [
    "C156_wisard",
    "C156_leave",
    "C156_cluswisard"
   ],
   "note": "Hypotheses beyond the statement: hypotheses: both portions non-empty, as many labels as images, all images of one size (C156_one_size shows why: only the first image of a call is checked against confidence). Exact equation of outcome and state, failures included. trainUnsupervised is C72."
  },
  {
   "property": "C157",
   "status": "proved",
   "theorems": [
    "C157_canvas_wisard"
   ],
   "note": "Hypotheses beyond the statement: hypotheses: canvas parameters the constructor allows (as C79), no direction mode; a Wisard with a configuration that can learn images of kernels*bitsByKernel pixels; as many labels as sequences, at most INT_MAX-2. Full count (last part) without bleaching, ignoreZero and mapping; what answers may beat it is C136. Uses the standard library axioms of the real numbers (through Flocq), listed in DESIGN.md"
  },
  {
   "property": "C158",
   "status": "partial",
   "theorems": [
    "C158_renaming_refuted",
    "C158_renamed_calls_partial",
    "C158_renamed_answers_partial"
   ],
   "note": "False in general: a tie goes to the last label of the alphabet (C158_renaming_refuted). Proved: for every injective renaming, calls that label every image or none commute with the renaming whatever their outcome, with the same votes and mental images (_calls_partial); for renamings that keep the alphabetical order of the 'label::number' names of plain labels, every successful history incl. semi-supervised training commutes with the renaming and the answers are the renamed answers (_answers_partial)"
  },
  {
   "property": "C159",
   "status": "proved",
   "theorems": [
    "C159_wisard",
    "C159_cluswisard"
   ],
   "note": "Hypotheses beyond the statement: all images have the same number n of pixels (0 < n <= INT_MAX), no mapping and no indexes are configured (C140 covers configured wirings), and the classifier starts untrained. The theorem matches the random choices of the two runs one to one: since which wiring is drawn is up to the library's generator, it says the set of possible behaviours is the same."
  },
  {
   "property": "C160",
   "status": "proved",
   "theorems": [
    "C160_discriminator",
    "C160_wisard",
    "C160_generalises"
   ],
   "note": "Hypotheses beyond the statement: images with their pixels in 0..base-1 and of the right length, at most INT_MAX calls (INT_MAX-2 examples for Wisard) and a configuration that can learn; the statement about close training images is for training only, without ignoreZero and without a mapping (a mapping has the general bound)."
  },
  {
   "property": "C161",
   "status": "partial",
   "theorems": [
    "C161_other_label_refuted",
    "C161_wisard_partial",
    "C161_cluswisard_partial"
   ],
   "note": "Refuted with bleaching on: examples of a third label make the first threshold ambiguous, and at the next one the second label wins (C161_other_label_refuted). Proved with bleaching off, of any state and any further calls, failing ones included, for Wisard (C161_wisard_partial) and for the labelled training calls of ClusWisard when L has no colons (C161_cluswisard_partial)."
  },
  {
   "property": "C162",
   "status": "proved",
   "theorems": [
    "C162_discriminator",
    "C162_train",
    "C162_classify",
    "C162_later",
    "C162_cluswisard"
   ],
   "note": "Hypotheses beyond the statement: none; random wiring of a label not yet created counts as reading every pixel (the discriminator and trained-state forms cover it once built)"
  },
  {
   "property": "C163",
   "status": "proved",
   "theorems": [
    "C163_cluswisard",
    "C163_unsupervised",
    "C163_damage"
   ],
   "note": "Hypotheses beyond the statement: as C62 and C87 (new, creatable files; UTF-8 names; random name parts of 10 characters; no label 'unsupervised_cluster' beside an unsupervised cluster; trainUnsupervised with base 2, see C74)."
  },
  {
   "property": "C164",
   "status": "proved",
   "theorems": [
    "C164_learning",
    "C164_counts",
    "C164_clear_winner",
    "C164_cluswisard_learning",
    "C164_cluswisard"
   ],
   "note": "Hypotheses beyond the statement: votes below 2^31-2 (as C40); C164_learning and C164_cluswisard_learning compare runs in which every call is accepted (a confidence above the number of RAMs is refused), for ClusWisard without semi-supervised calls, in which the classifier itself assigns labels"
  },
  {
   "property": "C165",
   "status": "proved",
   "theorems": [
    "C165_loaded_clusters"
   ],
   "note": "uses the standard library axioms of the real numbers (through Flocq: a rounded float is a valid one), listed in DESIGN.md"
  },
  {
   "property": "C166",
   "status": "proved",
   "theorems": [
    "C166_votes_add",
    "C166_mental_add",
    "C166_wisard_mental_add"
   ],
   "note": "Hypotheses beyond the statement: at most INT_MAX trainings in all (counters are ints); for mental images also RAMs of at most 2^31 addresses, positions inside the entry and examples times RAM inputs <= INT_MAX; Wisard: wiring configured by indexes or mapping, as the statement says."
  },
  {
   "property": "C167",
   "status": "proved",
   "theorems": [
    "C167_more_examples",
    "C167_same_examples"
   ],
   "note": "Hypotheses beyond the statement: untrained start, trainings only, and the configuration and images of C46; at most INT_MAX-2 examples; the two labels wired alike, as the statement says."
  },
  {
   "property": "C168",
   "status": "proved",
   "theorems": [
    "C168_wisard",
    "C168_same_labels",
    "C168_cluswisard"
   ],
   "note": "Hypotheses beyond the statement: calls are not interrupted by other threads (the bindings keep the interpreter lock; threads inside C++ calls are not modelled) and no call has undefined behaviour, which an empty batch has (C51). The same-label theorem also asks for fixed wiring and the proper calls of C46."
  },
  {
   "property": "C169",
   "status": "proved",
   "theorems": [
    "C169_discriminator",
    "C169_wisard",
    "C169_text",
    "C169_always_savable",
    "C169_wisard_savable"
   ],
   "note": "Hypotheses beyond the statement: as C103 and C57: images with a value in every RAM and at most 2^31-1 examples; for the text also at least one training (a RAM without patterns saves as nothing), and for always savable 16 characters per pattern the RAMs can show within 2^31 (the int that indexes the text)."
  },
  {
   "property": "C170",
   "status": "proved",
   "theorems": [
    "C170_copies"
   ],
   "note": "Hypotheses beyond the statement: as C65 and C67: images of the configured size and base and labels that survive the package's keys (plain_label), no image of a guessed label, ignoreZero off, a finite minScore, and fewer than 2^24 votes in all (RAMs times copies; single precision counts no further). Two Examples show that the conditions matter: C170_other_images (an image that joined another one's discriminator opens its own when it comes back) and C170_ignore_zero."
  },
  {
   "property": "C171",
   "status": "proved",
   "theorems": [
    "C171_last_label",
    "C171_cluswisard"
   ],
   "note": "Hypotheses beyond the statement: as C46 and C84: a proper configuration, images of the configured size and base, at most 2^31-3 examples; for ClusWisard every pixel differs from every image given (its wiring is random), and labels that survive the package's keys."
  },
  {
   "property": "C172",
   "status": "proved",
   "theorems": [
    "C172_dictionary"
   ],
   "note": "Hypotheses beyond the statement: at least one image and at most 2^31-1 (the sizes are compared as ints)."
  },
  {
   "property": "C173",
   "status": "proved",
   "theorems": [
    "C173_never_undefined",
    "C173_default_wiring",
    "C173_packed"
   ],
   "note": "Hypotheses beyond the statement: examples handed over in total below 2^31-2, batches to train are not empty, address size not 0, base^(RAM length) fits long long (or base 2), mapping positions inside the image, index positions not negative, image length + address size below 2^31 for the default wiring; C173_outside shows what happens outside."
  },
  {
   "property": "C174",
   "status": "proved",
   "theorems": [
    "C174_never_undefined",
    "C174_list_images",
    "C174_semisupervised"
   ],
   "note": "Hypotheses beyond the statement: unsupervised calls come before supervised ones (afterwards trainUnsupervised uses an uninitialised cluster, C73); in runs with semi-supervised calls (C174_semisupervised) labels are plain and a dictionary with exactly as many entries as images names images (else C71); address size an int that is not 0, base^addressSize fits long long (or base 2), image length + address size below 2^31, fewer than 2^31-2 images in all; if the compiler creates the map entry before it calls the constructor, images at least as long as the address size (else C85). C174_outside shows what happens outside."
  },
  {
   "property": "C175",
   "status": "proved",
   "theorems": [
    "C175_mental_defined",
    "C175_default_wiring",
    "C175_clus_mental_defined",
    "C175_semi_mental_defined"
   ],
   "note": "Hypotheses beyond the statement: in the general statement, images handed over x times the pixel is wired fits in an int, asked of the resulting discriminators (a witness shows that beyond it the sum overflows); C175_default_wiring asks it of the options only. Same scope of programs as C173 and C174 (after semi-supervised calls: C175_semi_mental_defined)."
  },
  {
   "property": "C176",
   "status": "partial",
   "theorems": [
    "C176_saved_refuted",
    "C176_saved_partial",
    "C176_saved_exactly_partial"
   ],
   "note": "False in general: a first training image of a label that is rejected after its first bits leaves RAMs that have learned nothing; the model is saved without complaint and the text is refused on loading with std::out_of_range (C176_saved_refuted, any evaluation order). Proved (C176_saved_exactly_partial), exactly: whatever calls failed, the in-memory save succeeds; if every label has RAMs and every RAM has learned something, the text loads as the model itself (without its mapping), otherwise it is refused with std::out_of_range. Proved (C176_saved_partial): if every label the model knows was named by some answered training call without empty images, then whatever else failed before or after, the in-memory save succeeds, its text loads, the copy classifies alike and goes on being served. Missing: only the false part."
  },
  {
   "property": "C177",
   "status": "proved",
   "theorems": [
    "C177_sessions"
   ],
   "note": "Hypotheses beyond the statement: no mapping is configured and searchBestConfidence is off (a save loses both: C59, C60), options fit C ints, wirings can be addressed (C173), at the end of each session every known label has been named by an answered training call without empty images and its saved text is shorter than 2^31; in-memory saving"
  },
  {
   "property": "C178",
   "status": "proved",
   "theorems": [
    "C178_sessions"
   ],
   "note": "Hypotheses beyond the statement: supervised and semi-supervised calls only, images and options as in C70, searchBestConfidence off, in-memory saving, labels UTF-8 and saved texts shorter than 2^31 at the end of each session; the uninterrupted program ends without exception"
  },
  {
   "property": "C179",
   "status": "proved",
   "theorems": [
    "C179_saved_exactly",
    "C179_sessions"
   ],
   "note": "Two theorems: C179_saved_exactly (whatever failed, the in-memory save succeeds; loaded as the same discriminator iff every RAM has learned something, in particular after an answered training call; otherwise std::out_of_range) and C179_sessions (sessions separated by save and load = one uninterrupted program, outcomes included). H: the wiring is inside the entry (a mapping given by hand may not be), fewer than 2^31 calls, each saved text shorter than 2^31."
  },
  {
   "property": "C180",
   "status": "proved",
   "theorems": [
    "C180_never_undefined",
    "C180_default_wiring"
   ],
   "note": "Hypotheses beyond the statement: fewer than 2^31 calls, wiring inside the entry and base^n within a long long (or base 2 with its own guard), images of readable pixels; mental images: contents times wires fit an int. The bounds are the ones of C173 and C175."
  },
  {
   "property": "C181",
   "status": "proved",
   "theorems": [
    "C181_sessions",
    "C181_saved_exactly"
   ],
   "note": "Two theorems: C181_sessions and C181_saved_exactly (one save into a new file after any calls, rejected ones included: read back as the same discriminator iff every RAM has learned something, otherwise std::out_of_range). H: the wiring is inside the entry, fewer than 2^31 calls, each saved text shorter than 2^31, file names are UTF-8, new and can be created; for the sessions a training call was answered before the first save. Writes are complete (crashes are the subject of C124-C127)."
  },
  {
   "property": "C182",
   "status": "proved",
   "theorems": [
    "C182_sessions"
   ],
   "note": "Hypotheses beyond the statement: the random part of each file name has length 10 and differs between saves for the same label, the file names are new, valid UTF-8 and creatable, every label at a save was named by an answered training call before it, integer options, empty mapping, searchBestConfidence off, fewer than 2^31 images handed over in all."
  }
 ]
}