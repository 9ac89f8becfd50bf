{
 "claims": [
  {
   "property": "C01",
   "status": "proved",
   "theorems": [
    "C01_si_spec",
    "C01_si_total",
    "C01_si_suffix"
   ],
   "note": ""
  },
  {
   "property": "C02",
   "status": "proved",
   "theorems": [
    "C02_sa_law",
    "C02_sa_law_determines"
   ],
   "note": ""
  },
  {
   "property": "C03",
   "status": "proved",
   "theorems": [
    "C03_su_law",
    "C03_su_law_determines"
   ],
   "note": ""
  },
  {
   "property": "C04",
   "status": "proved",
   "theorems": [
    "C04_no_erasure"
   ],
   "note": ""
  },
  {
   "property": "C05",
   "status": "proved",
   "theorems": [
    "C05_zo_spec",
    "C05_zo_dangling"
   ],
   "note": ""
  },
  {
   "property": "C06",
   "status": "proved",
   "theorems": [
    "C06_lohu_spec",
    "C06_lohu_outcomes",
    "C06_quote_buffer_safe",
    "C06_empty_quote_refuted"
   ],
   "note": "the stated abort on an empty quotation is exhibited by C06_empty_quote_refuted"
  },
  {
   "property": "C07",
   "status": "proved",
   "theorems": [
    "C07_zei_spec",
    "C07_zei_words",
    "C07_quote_operand_refuted"
   ],
   "note": "C07_quote_operand_refuted: a lo'u..le'u quotation as operand aborts"
  },
  {
   "property": "C08",
   "status": "proved",
   "theorems": [
    "C08_bahe_words",
    "C08_bahe_stays",
    "C08_bahe_main",
    "C08_bahe_spec"
   ],
   "note": ""
  },
  {
   "property": "C09",
   "status": "proved",
   "theorems": [
    "C09_bu_spec",
    "C09_bu_spec_total",
    "C09_bu_first_aborts",
    "C09_emphasis_kept_refuted"
   ],
   "note": "C09_emphasis_kept_refuted: the words come back except for emphasis on the letter word"
  },
  {
   "property": "C10",
   "status": "proved",
   "theorems": [
    "C10_suffix_spec",
    "C10_attach_spec",
    "C10_total",
    "C10_words",
    "C10_cuhi_nai_refuted",
    "C10_emphasised_suffix_refuted"
   ],
   "note": "word recovery holds under suffix_ready and no_cuhi_nai; the two refuted theorems show why these are needed"
  },
  {
   "property": "C11",
   "status": "proved",
   "theorems": [
    "C11_words_kept",
    "C11_free_noted",
    "C11_ordinal_noted_refuted"
   ],
   "note": "C11_ordinal_noted_refuted: the test for a following ordinal (PRIVATE_NUMBER_MAI) can never match, so it is not noted"
  },
  {
   "property": "C12",
   "status": "proved",
   "theorems": [
    "C12_description_read",
    "C12_crash_iff",
    "C12_longest_tenses",
    "C12_never_crashes_refuted"
   ],
   "note": "C12_never_crashes_refuted exhibits the crash on a text ending in a bare number"
  },
  {
   "property": "C13",
   "status": "proved",
   "theorems": [
    "C13_well_marked",
    "C13_skips_end"
   ],
   "note": ""
  },
  {
   "property": "C14",
   "status": "proved",
   "theorems": [
    "C14_afterthought",
    "C14_forethought",
    "C14_joik_gi",
    "C14_tense_gi",
    "C14_total",
    "C14_parse"
   ],
   "note": ""
  },
  {
   "property": "C15",
   "status": "proved",
   "theorems": [
    "C15_brivla_place",
    "C15_total",
    "C15_permutation",
    "C15_involution",
    "C15_bai_place",
    "C15_bai_word_refuted",
    "C15_parse",
    "C15_parse_bai"
   ],
   "note": "C15_bai_word_refuted: when the BAI carries an indicator the conversion is recorded on the wrong node and the gloss ignores it"
  },
  {
   "property": "C16",
   "status": "proved",
   "theorems": [
    "C16_places",
    "C16_meaning_exists",
    "C16_meaning_unique",
    "C16_without_jai",
    "C16_regular_meaning",
    "C16_plain",
    "C16_bare_jai_refuted",
    "C16_filled_jai_refuted"
   ],
   "note": "C16_bare_jai_refuted and C16_filled_jai_refuted: with jai the place shown is not the one meant"
  },
  {
   "property": "C17",
   "status": "proved",
   "theorems": [
    "C17_safe",
    "C17_exact",
    "C17_observed_exists",
    "C17_bounds_refuted"
   ],
   "note": "C17_exact gives the boundary; C17_bounds_refuted exhibits the overrun"
  },
  {
   "property": "C18",
   "status": "proved",
   "theorems": [
    "C18_expansion",
    "C18_spelling",
    "C18_shape",
    "C18_nothing_attached",
    "C18_nothing_left",
    "C18_tokens_tidy"
   ],
   "note": ""
  },
  {
   "property": "C19",
   "status": "proved",
   "theorems": [
    "C19_words",
    "C19_only_levels",
    "C19_all_levels",
    "C19_unique",
    "C19_idempotent",
    "C19_new_node"
   ],
   "note": ""
  },
  {
   "property": "C20",
   "status": "proved",
   "theorems": [
    "C20_last_wins",
    "C20_any_sort",
    "C20_numbers_distinct"
   ],
   "note": ""
  },
  {
   "property": "C21",
   "status": "proved",
   "theorems": [
    "C21_reread",
    "C21_loaded",
    "C21_too_long",
    "C21_long_refuted"
   ],
   "note": "limits exhibited by C21_too_long and C21_long_refuted"
  },
  {
   "property": "C22",
   "status": "proved",
   "theorems": [
    "C22_lookup"
   ],
   "note": ""
  },
  {
   "property": "C23",
   "status": "proved",
   "theorems": [
    "C23_made_valid",
    "C23_checker",
    "C23_checker_accepts",
    "C23_checker_unset_refuted",
    "C23_checker_excess",
    "C23_checker_pair_refuted",
    "C23_checker_hyphen_refuted",
    "C23_checker_short_refuted",
    "C23_checker_ends"
   ],
   "note": "the refuted theorems list what the separate checker accepts wrongly and where it reads an unset variable; the maker itself is always right"
  },
  {
   "property": "C24",
   "status": "proved",
   "theorems": [
    "C24_score",
    "C24_order",
    "C24_unmarked",
    "C24_brod_mark_refuted"
   ],
   "note": "C24_brod_mark_refuted: a tie overwrites the mark of an unreliable form"
  },
  {
   "property": "C25",
   "status": "proved",
   "theorems": [
    "C25_enumerates",
    "C25_total",
    "C25_room",
    "C25_long_word_refuted",
    "C25_warning_refuted",
    "C25_arguments"
   ],
   "note": "C25_long_word_refuted and C25_warning_refuted are the exceptions"
  },
  {
   "property": "C26",
   "status": "proved",
   "theorems": [
    "C26_inverts",
    "C26_round_trip",
    "C26_table",
    "C26_total",
    "C26_covers"
   ],
   "note": ""
  },
  {
   "property": "C27",
   "status": "proved",
   "theorems": [
    "C27_generator_correct",
    "C27_determinised",
    "C27_read_wf",
    "C27_rule_unique",
    "C27_shipped"
   ],
   "note": ""
  },
  {
   "property": "C28",
   "status": "proved",
   "theorems": [
    "C28_merge_correct",
    "C28_attributes_kept",
    "C28_attribute_lost_refuted"
   ],
   "note": ""
  },
  {
   "property": "C29",
   "status": "proved",
   "theorems": [
    "C29_lookup_correct",
    "C29_too_many_tokens_refuted"
   ],
   "note": ""
  },
  {
   "property": "C30",
   "status": "proved",
   "theorems": [
    "C30_lookup",
    "C30_listed_found",
    "C30_distinct",
    "C30_within",
    "C30_consonant_refuted"
   ],
   "note": "C30_consonant_refuted: a lone consonant indexes outside the table, but is never taken for a cmavo"
  },
  {
   "property": "C31",
   "status": "proved",
   "theorems": [
    "C31_gismu"
   ],
   "note": ""
  },
  {
   "property": "C32",
   "status": "proved",
   "theorems": [
    "C32_plain",
    "C32_same_word"
   ],
   "note": "a word other than a name that contains a capital is reported as having a bad capital; everything else agrees"
  },
  {
   "property": "C33",
   "status": "proved",
   "theorems": [
    "C33_pieces",
    "C33_lead_refuted"
   ],
   "note": "C33_lead_refuted: commas before the first letter are in no piece"
  },
  {
   "property": "C34",
   "status": "proved",
   "theorems": [
    "C34_name",
    "C34_defined",
    "C34_defined_refuted",
    "C34_empty_refuted"
   ],
   "note": "C34_defined_refuted, C34_empty_refuted: read before the exit table, read of an unset variable"
  },
  {
   "property": "C35",
   "status": "proved",
   "theorems": [
    "C35_texts",
    "C35_comments",
    "C35_unclosed"
   ],
   "note": "C35_unclosed: an unclosed comment makes the reader loop for ever"
  },
  {
   "property": "C36",
   "status": "proved",
   "theorems": [
    "C36_total",
    "C36_read",
    "C36_said",
    "C36_long_refuted",
    "C36_commas_refuted",
    "C36_comma_cmavo_refuted",
    "C36_name_quote_refuted"
   ],
   "note": "C36_long_refuted, C36_commas_refuted: buffer overruns; C36_comma_cmavo_refuted, C36_name_quote_refuted: words read wrongly"
  },
  {
   "property": "C37",
   "status": "proved",
   "theorems": [
    "C37_quote",
    "C37_verbatim",
    "C37_verbatim_refuted",
    "C37_delimiter_refuted"
   ],
   "note": "verbatim for words with single spaces; C37_verbatim_refuted shows that other texts are changed, C37_delimiter_refuted an overrun"
  },
  {
   "property": "C38",
   "status": "proved",
   "theorems": [
    "C38_places",
    "C38_number_refuted",
    "C38_comma_refuted"
   ],
   "note": "exact without numbers and leading commas; C38_number_refuted and C38_comma_refuted show why the hypotheses are needed"
  },
  {
   "property": "C39",
   "status": "proved",
   "theorems": [
    "C39_layout",
    "C39_width",
    "C39_aligned",
    "C39_texts",
    "C39_gloss",
    "C39_tags_refuted"
   ],
   "note": "for calls that make no block of width 0 and close no bracket while only tags are pending; C39_tags_refuted shows that such tags are lost"
  },
  {
   "property": "C40",
   "status": "proved",
   "theorems": [
    "C40_safe",
    "C40_overrun",
    "C40_gloss",
    "C40_page_refuted",
    "C40_word_refuted",
    "C40_tags_refuted"
   ],
   "note": "the page width itself is not limited: C40_page_refuted; C40_word_refuted and C40_tags_refuted are the limits of a block"
  },
  {
   "property": "C41",
   "status": "proved",
   "theorems": [
    "C41_stream",
    "C41_overrun_refuted",
    "C41_advance_refuted"
   ],
   "note": "Whole of elide.c over the token stream of lex2.c, the parser being any sequence of events with an arbitrary can_shift. The two conditions of the statement are in the definition allowed (ElideSpec.v) and each is shown necessary (C41_overrun_refuted, C41_advance_refuted)."
  },
  {
   "property": "C42",
   "status": "proved",
   "theorems": [
    "C42_report",
    "C42_number_refuted"
   ],
   "note": "C42_report: said/table in ElideSpec.v describe the printed sets, hazard the conflicts met by the parser. C42_number_refuted: the number-before-boi memory is that of the last ungrouped token, not of the token before the group."
  },
  {
   "property": "C43",
   "status": "proved",
   "theorems": [
    "C43_options",
    "C43_help",
    "C43_version",
    "C43_unknown",
    "C43_status",
    "C43_crash",
    "C43_unopened",
    "C43_output",
    "C43_order",
    "C43_extras",
    "C43_width_refuted"
   ],
   "note": "the stages are parameters of the model; C43_width_refuted: -w as last argument reads through a null pointer"
  },
  {
   "property": "C44",
   "status": "proved",
   "theorems": [
    "C44_recovery",
    "C44_forwards",
    "C44_stream",
    "C44_position_refuted"
   ],
   "note": "C44_position_refuted: after the end the reading position itself goes back to the front, which no token shows"
  },
  {
   "property": "C45",
   "status": "proved",
   "theorems": [
    "C45_balanced",
    "C45_words",
    "C45_spacing",
    "C45_pei_nai_refuted",
    "C45_laho_refuted"
   ],
   "note": "exceptions exhibited by C45_pei_nai_refuted and C45_laho_refuted"
  },
  {
   "property": "C46",
   "status": "proved",
   "theorems": [
    "C46_balance",
    "C46_statistics",
    "C46_exhausted_refuted",
    "C46_realloc_null_refuted",
    "C46_wrap_refuted"
   ],
   "note": "for requests that fit: C46_exhausted_refuted, C46_realloc_null_refuted and C46_wrap_refuted show what happens when the system is out of memory or the count wraps round"
  },
  {
   "property": "C47",
   "status": "proved",
   "theorems": [
    "C47_plural",
    "C47_er",
    "C47_ing",
    "C47_one_form",
    "C47_table",
    "C47_stars_refuted",
    "C47_preposition_refuted",
    "C47_class_refuted"
   ],
   "note": "exceptions: C47_stars_refuted (stars left in), C47_preposition_refuted, C47_class_refuted (null pointer for an unknown class letter); the doubling of a final consonant mentioned as note (3) of the table is not done by the code and not claimed"
  },
  {
   "property": "C48",
   "status": "proved",
   "theorems": [
    "C48_follows",
    "C48_found",
    "C48_ends_or_loops",
    "C48_circle",
    "C48_ends",
    "C48_compound_refuted"
   ],
   "note": "C48_compound_refuted: a circle through a compound is possible without a circle of redirections"
  },
  {
   "property": "C49",
   "status": "proved",
   "theorems": [
    "C49_listing",
    "C49_cai_nai_refuted",
    "C49_picture",
    "C49_text",
    "C49_newline_refuted"
   ],
   "note": "exceptions exhibited by C49_cai_nai_refuted and C49_newline_refuted"
  },
  {
   "property": "C50",
   "status": "proved",
   "theorems": [
    "C50_sources",
    "C50_compiles",
    "C50_says_total",
    "C50_learns_total",
    "C50_no_newline_refuted",
    "C50_no_key_refuted"
   ],
   "note": "C50_no_newline_refuted and C50_no_key_refuted are the stated exceptions; canon_lujvo is a parameter here"
  },
  {
   "property": "C51",
   "status": "proved",
   "theorems": [
    "C51_one_analysis",
    "C51_one_word",
    "C51_exists"
   ],
   "note": ""
  },
  {
   "property": "C52",
   "status": "proved",
   "theorems": [
    "C52_letters",
    "C52_dropped_refuted"
   ],
   "note": "C52_dropped_refuted: a quotation word at the end of the text is dropped silently"
  },
  {
   "property": "C53",
   "status": "proved",
   "theorems": [
    "C53_markers_exact"
   ],
   "note": ""
  },
  {
   "property": "C54",
   "status": "proved",
   "theorems": [
    "C54_quoted_inert",
    "C54_order",
    "C54_ends"
   ],
   "note": ""
  },
  {
   "property": "C55",
   "status": "proved",
   "theorems": [
    "C55_converted",
    "C55_order",
    "C55_long_part_refuted",
    "C55_many_parts_refuted"
   ],
   "note": "C55_long_part_refuted, C55_many_parts_refuted: the fixed arrays overrun for zei compounds"
  },
  {
   "property": "C56",
   "status": "proved",
   "theorems": [
    "C56_by_parts",
    "C56_ziho_refuted",
    "C56_percent_refuted"
   ],
   "note": "C56_ziho_refuted and C56_percent_refuted exhibit two crashes of the pattern code"
  },
  {
   "property": "C57",
   "status": "proved",
   "theorems": [
    "C57_redirected",
    "C57_exact",
    "C57_classed",
    "C57_sixth_refuted"
   ],
   "note": "C57_redirected, C57_exact and C57_classed cover the three kinds of pattern; a pattern whose result is \"-\" (try the next) is left out; C57_sixth_refuted: the shipped patterns for a sixth place read past the array of places"
  },
  {
   "property": "C58",
   "status": "proved",
   "theorems": [
    "C58_unplaced",
    "C58_unknown",
    "C58_borrowed",
    "C58_borrowing_refuted"
   ],
   "note": "C58_borrowing_refuted: patterns for compounds are applied to borrowings that only look like compounds (slinkugau)"
  },
  {
   "property": "C59",
   "status": "proved",
   "theorems": [
    "C59_hyphen"
   ],
   "note": ""
  },
  {
   "property": "C60",
   "status": "proved",
   "theorems": [
    "C60_contexts",
    "C60_role",
    "C60_free_refuted",
    "C60_jai_refuted"
   ],
   "note": "for all trees of the grammar; C60_free_refuted: a tense with a free modifier gets no context; C60_jai_refuted: a tense in a selbri inside jai with a tag gets the context of the tag"
  },
  {
   "property": "C61",
   "status": "proved",
   "theorems": [
    "C61_writes",
    "C61_antecedent",
    "C61_keha",
    "C61_before_refuted"
   ],
   "note": "for all trees of the grammar; C61_before_refuted: a clause before the selbri of a description gets no antecedent"
  },
  {
   "property": "C62",
   "status": "proved",
   "theorems": [
    "C62_warnings"
   ],
   "note": "for all trees of the grammar"
  },
  {
   "property": "C63",
   "status": "proved",
   "theorems": [
    "C63_words"
   ],
   "note": "For every driver: the calls it gets."
  },
  {
   "property": "C64",
   "status": "proved",
   "theorems": [
    "C64_nested",
    "C64_numbers",
    "C64_enclosed",
    "C64_labelled"
   ],
   "note": "For every driver: the calls it gets."
  },
  {
   "property": "C65",
   "status": "proved",
   "theorems": [
    "C65_gloss",
    "C65_connective",
    "C65_tense",
    "C65_cluster",
    "C65_free_refuted"
   ],
   "note": "C65_gloss: single words. C65_connective, C65_tense, C65_cluster: groups. Words in possessors are excluded (see C67_possessor_refuted); C65_free_refuted shows that the exclusion of groups is needed for free modifiers of connectives."
  },
  {
   "property": "C66",
   "status": "proved",
   "theorems": [
    "C66_complete",
    "C66_quote_refuted",
    "C66_degree_refuted"
   ],
   "note": "Label references (terms.c) are assumed to point to nodes of the right kind (or_tags); C75_complete and C76_gloss remove that assumption."
  },
  {
   "property": "C67",
   "status": "proved",
   "theorems": [
    "C67_keha",
    "C67_possessor_refuted"
   ],
   "note": "Possessors in descriptions are excluded and refuted."
  },
  {
   "property": "C68",
   "status": "proved",
   "theorems": [
    "C68_text",
    "C68_words",
    "C68_reference_refuted"
   ],
   "note": "C68_reference_refuted: references like #5 cannot be followed in plain text, which does not print the numbers."
  },
  {
   "property": "C69",
   "status": "proved",
   "theorems": [
    "C69_html",
    "C69_words",
    "C69_overrun",
    "C69_gloss_refuted",
    "C69_quote_refuted",
    "C69_jai_refuted"
   ],
   "note": "The escape of & < > never works (C69_overrun, C69_gloss_refuted); quotations and the label of jai are not escaped (C69_quote_refuted, C69_jai_refuted)."
  },
  {
   "property": "C70",
   "status": "proved",
   "theorems": [
    "C70_latex",
    "C70_block",
    "C70_gloss",
    "C70_quote_refuted",
    "C70_label_refuted"
   ],
   "note": "Quotations and labels that refer to a bracket are not escaped (C70_quote_refuted, C70_label_refuted)."
  },
  {
   "property": "C71",
   "status": "proved",
   "theorems": [
    "C71_blocks",
    "C71_last_refuted"
   ],
   "note": "C71_last_refuted: words after the last bracket are lost."
  },
  {
   "property": "C72",
   "status": "proved",
   "theorems": [
    "C72_labels",
    "C72_tail_refuted",
    "C72_many_refuted"
   ],
   "note": "For every text that is processed. Two kinds are not: C72_tail_refuted (a vector that was never set), C72_many_refuted (more than twenty terms)."
  },
  {
   "property": "C73",
   "status": "proved",
   "theorems": [
    "C73_converted",
    "C73_told",
    "C73_indicator_refuted"
   ],
   "note": "C73_indicator_refuted: an indicator after se moves the mark to the wrong node."
  },
  {
   "property": "C74",
   "status": "proved",
   "theorems": [
    "C74_refers",
    "C74_number_refuted"
   ],
   "note": "C74_number_refuted: a number with MOI and linked terms only has no brackets."
  },
  {
   "property": "C75",
   "status": "proved",
   "theorems": [
    "C75_labels",
    "C75_numbers",
    "C75_complete"
   ],
   "note": "The translation of a place is the parameter adv_translate (C50)."
  },
  {
   "property": "C76",
   "status": "proved",
   "theorems": [
    "C76_total",
    "C76_modest",
    "C76_short",
    "C76_gloss"
   ],
   "note": "C76_total states the room needed along each way down (roomy); C76_modest and C76_short are counts that suffice. C72_tail_refuted and C72_many_refuted show texts outside."
  },
  {
   "property": "C77",
   "status": "proved",
   "theorems": [
    "C77_run",
    "C77_once",
    "C77_whole",
    "C77_off_buffer",
    "C77_stop_refuted",
    "C77_y_refuted",
    "C77_long_refuted"
   ],
   "note": "Runs with y, with a stop inside, or longer: C77_y_refuted, C77_stop_refuted, C77_long_refuted. C77_off_buffer is the exact condition of the read before the buffer."
  },
  {
   "property": "C78",
   "status": "proved",
   "theorems": [
    "C78_compound",
    "C78_hyphen_in_front",
    "C78_borrowing",
    "C78_any",
    "C78_conversion_refuted",
    "C78_two_refuted",
    "C78_classifier_refuted"
   ],
   "note": "A converted part must have an entry for that place and the compound must not begin with a conversion: C78_conversion_refuted, C78_two_refuted, C78_hyphen_in_front. Classifiers ending in two consonants of which the last is r, n or l are left out: C78_classifier_refuted."
  },
  {
   "property": "C79",
   "status": "proved",
   "theorems": [
    "C79_all",
    "C79_name",
    "C79_brivla",
    "C79_cmavo",
    "C79_no_word",
    "C79_kinds",
    "C79_lujvo",
    "C79_brackets"
   ],
   "note": "flex is modelled by its documented rule (longest match, first rule on a tie)."
  },
  {
   "property": "C80",
   "status": "proved",
   "theorems": [
    "C80_program",
    "C80_blocks",
    "C80_latex",
    "C80_latex_refuted"
   ],
   "note": "Carriage returns are left out of the layouts; for -b pages less than 512 wide and texts less than 511 long; PLIST is not modelled."
  },
  {
   "property": "C81",
   "status": "proved",
   "theorems": [
    "C81_block",
    "C81_overrun_refuted"
   ],
   "note": "Completion is shown for pages less than 512 wide; C81_overrun_refuted: a quotation of 600 letters overruns the buffer."
  },
  {
   "property": "C82",
   "status": "proved",
   "theorems": [
    "C82_recorded",
    "C82_safe",
    "C82_deep",
    "C82_overrun_refuted",
    "C82_words",
    "C82_report",
    "C82_quiet",
    "C82_stdout",
    "C82_stdout_refuted"
   ],
   "note": "The parser's order of actions is that of a bottom-up parser for the tree (builds in TraceModel.v); tables of productions are parameters. C82_overrun_refuted: a correct text that overruns; C82_stdout_refuted: spaces on standard output."
  },
  {
   "property": "C83",
   "status": "proved",
   "theorems": [
    "C83_table",
    "C83_pointers"
   ],
   "note": "Full refinement of the linked lists to a table."
  },
  {
   "property": "C84",
   "status": "proved",
   "theorems": [
    "C84_twister",
    "C84_sequence",
    "C84_range",
    "C84_seed"
   ],
   "note": "Relative to seeding as documented in MtSpec.v (upper halves of a 32-bit congruential generator). What is written is taken as the low four bytes, i.e. a little-endian machine where unsigned long has 64 bits."
  },
  {
   "property": "C85",
   "status": "proved",
   "theorems": [
    "C85_total",
    "C85_reading",
    "C85_tokens",
    "C85_layout",
    "C85_lines",
    "C85_words",
    "C85_line_refuted",
    "C85_remark_refuted",
    "C85_empty_refuted"
   ],
   "note": "flex is modelled by its documented rule (longest match, first rule on a tie, default rule copies). C85_line_refuted, C85_remark_refuted, C85_empty_refuted: line numbers after code, remark at the end of the file, empty quotation."
  },
  {
   "property": "C86",
   "status": "proved",
   "theorems": [
    "C86_parts",
    "C86_removed",
    "C86_again_refuted"
   ],
   "note": "C86_parts: the decomposition exists for every text; C86_removed: the output for it. C86_again_refuted: not idempotent."
  },
  {
   "property": "C87",
   "status": "proved",
   "theorems": [
    "C87_read",
    "C87_only",
    "C87_ends",
    "C87_unambiguous"
   ],
   "note": "bison's parser is not in /repo; the model is the shift and reduce machine of the rules of expr with bison's documented treatment of precedences."
  },
  {
   "property": "C88",
   "status": "proved",
   "theorems": [
    "C88_compressed",
    "C88_lookup",
    "C88_full",
    "C88_results",
    "C88_names",
    "C88_no_prefix_refuted"
   ],
   "note": "C88_compressed ties the text to the tables of C29 (print_tables); C88_lookup: the lookup in the arrays so read gives the transitions. C88_no_prefix_refuted: without -p the emitted function uses an undeclared name. A table without any entry is read as empty although C90 has no empty initialiser."
  },
  {
   "property": "C89",
   "status": "proved",
   "theorems": [
    "C89_selmaho",
    "C89_even",
    "C89_lines",
    "C89_reached",
    "C89_last_refuted"
   ],
   "note": "C89_last_refuted: pick and pickx use the last index as the number of words. Words of BRIVLA and CMENE are not looked up; the walk through the grammar is not modelled, any sequence of terminals is considered."
  }
 ]
}