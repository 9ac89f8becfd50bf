# Formal model of jbofihe in Rocq 8.16.1

## Layout

* `rocq/theories/*Model.v`: executable Gallina models. Every definition cites
  the C file and lines it models, and says where it is simplified. No proofs.
* `rocq/theories/*Spec.v`: independent specifications used in theorem statements.
  They do not use the helper functions of the models.
* `rocq/theories/*Proofs*.v`: lemmas.
* `rocq/theories/*Props.v`: the property theorems, named after the property
  (`C01_...`), each followed by `Print Assumptions`, and `Example`s (`C01_ex`, ...)
  showing concrete cases that meet the hypotheses.
* `rocq/theories/*Data.v`: tables transcribed from /repo by the scripts in `tools/`.
* `seeded/LOG.jsonl`: wrong programs tried against the theorems.

## Conventions

* The outcome type of `Base.v` is `Ok v`, `Abort` (failed `assert` or `abort()`),
  `UB k` (undefined behaviour: null pointer, out of bounds, unset variable, other),
  `Exit n` and `NoFuel`. Arrays with fixed bounds give `UB` outside their bounds.
  Safety theorems exclude these outcomes. A theorem named `..._refuted` exhibits an
  input that reaches one, or that breaks the property; see Findings.
* Doubly linked token lists become Gallina lists.
* Loops become structural recursion where possible, and otherwise recursion on fuel.
  Theorems show that `NoFuel` is not reached with the fuel used, or (C35, C48) that it
  is reached for every fuel, which is the statement that the program does not end.
* Statements about automata of unbounded input (C27, C31 to C34, C53, C54, C59) are
  proved by an invariant over the states of a product automaton. The finite set of
  states is computed by `vm_compute` and checked to be closed, then lifted to all
  inputs by induction on the input.

## Properties: what is modelled and how it is proved

Full statements are in `properties.jsonl`, exact theorem names and exceptions in `MANIFEST.json`.

| id | what is modelled | how it is proved | theorems |
|----|----|----|----|
| C01 si erases exactly the words it is entitled to erase | `handle_si`, `delete_node` over token lists | equality with a one-si-at-a-time stack machine; induction | `C01_si_spec`, `C01_si_total`, `C01_si_suffix` |
| C02 sa erases back to the nearest matching word | `handle_sa` | equality with a law stated on the text alone, which is shown to determine the result | `C02_sa_law`, `C02_sa_law_determines` |
| C03 su erases back to the nearest discourse boundary | `handle_su` | as C02 | `C03_su_law`, `C03_su_law_determines` |
| C04 Texts without erasure words are left alone by erasure | `do_erasures` | induction | `C04_no_erasure` |
| C05 zo quotes exactly the following word | `handle_zo` | equality with a pairing of the text | `C05_zo_spec`, `C05_zo_dangling` |
| C06 lo'u ... le'u quotes everything up to the first le'u and never crashes the list walk | `handle_lohu`, the 1024-byte buffer | span specification; abort iff the span is empty | `C06_lohu_spec`, `C06_lohu_outcomes`, `C06_quote_buffer_safe`, `C06_empty_quote_refuted` |
| C07 zei joins operands without losing words | `is_zei`, `handle_zei` | words recovered from the result; relation with a grouping specification | `C07_zei_spec`, `C07_zei_words`, `C07_quote_operand_refuted` |
| C08 ba'e attaches to the next word | `handle_bahe` | as C07 | `C08_bahe_words`, `C08_bahe_stays`, `C08_bahe_main`, `C08_bahe_spec` |
| C09 bu makes the preceding item a letteral | `handle_bu` | as C07; abort iff first word | `C09_bu_spec`, `C09_bu_spec_total`, `C09_bu_first_aborts`, `C09_emphasis_kept_refuted` |
| C10 Indicators attach to the word they follow and text order is recoverable | `pair_off_indicator_suffixes`, `advance_indicator`, `handle_indicators` | as C07 | `C10_suffix_spec`, `C10_attach_spec`, `C10_total`, `C10_words`, `C10_cuhi_nai_refuted`, `C10_emphasised_suffix_refuted` |
| C11 Lookahead markers never add, drop or reorder words | all passes of `categorize_tokens` | each pass only inserts markers; induction | `C11_words_kept`, `C11_free_noted`, `C11_ordinal_noted_refuted` |
| C12 Which texts crash the tense look-ahead | `categorize_tenses` with the automaton of `stag.nfa`, built by the modelled dfasyn | exact crash condition; the automaton is shown to recognise a separate grammar of tenses | `C12_description_read`, `C12_crash_iff`, `C12_longest_tenses`, `C12_never_crashes_refuted` |
| C13 Marked connectives and tenses are complete constructs and the skips over them terminate | marker passes and the `straddle_*` functions | bracket invariant | `C13_well_marked`, `C13_skips_end` |
| C14 Displayed connective truth table is the truth function of the connective | connect.c whole, `main_table` | exhaustive over the finite choices, against Boolean functions; and for every parse tree without further hypotheses, from the productions | `C14_afterthought`, `C14_forethought`, `C14_joik_gi`, `C14_tense_gi`, `C14_total`, `C14_parse` |
| C15 SE conversion computes the right place permutation | conversion.c, place permutation in tree.c | permutation algebra; induction on the chain of SE; and for every parse tree without further hypotheses, from the productions | `C15_brivla_place`, `C15_total`, `C15_permutation`, `C15_involution`, `C15_bai_place`, `C15_bai_word_refuted`, `C15_parse`, `C15_parse_bai` |
| C16 Place assignment gives each unmarked sumti a fresh place in order | `assign_terms_to_places` | relation between terms and places, shown total and functional; induction over terms | `C16_places`, `C16_meaning_exists`, `C16_meaning_unique`, `C16_without_jai`, `C16_regular_meaning`, `C16_plain`, `C16_bare_jai_refuted`, `C16_filled_jai_refuted` |
| C17 Place assignment stays inside its tables | `assign_terms_to_places`, `assign_places` with array bounds | exact condition for overrun; induction | `C17_safe`, `C17_exact`, `C17_observed_exists`, `C17_bounds_refuted` |
| C18 Every word of the input is in the tree exactly once after emphasis/indicator expansion | `expand_bahe_ui` | structural induction on trees | `C18_expansion`, `C18_spelling`, `C18_shape`, `C18_nothing_attached`, `C18_nothing_left`, `C18_tokens_tidy` |
| C19 Tree compression only removes single-child levels | `compress_singletons`, `compress_singletons_but_preserve`, `new_node` compression | characterised as the only tree with three stated properties; structural induction | `C19_words`, `C19_only_levels`, `C19_all_levels`, `C19_unique`, `C19_idempotent`, `C19_new_node` |
| C20 Last dictionary entry wins | smujajgau transactions, sort, rationalise, compress | refinement to a finite map; any correct sort | `C20_last_wins`, `C20_any_sort`, `C20_numbers_distinct` |
| C21 Dictionary file round trip | `write_database`, both readers | decode after encode; induction | `C21_reread`, `C21_loaded`, `C21_too_long`, `C21_long_refuted` |
| C22 Dictionary lookup finds a word iff it is there | `dict_lookup` | bisection invariant | `C22_lookup` |
| C23 Lujvo maker output is always valid | lujvofns.c, `makelujvo` | grammar of valid forms; invariants on generated strings | `C23_made_valid`, `C23_checker`, `C23_checker_accepts`, `C23_checker_unset_refuted`, `C23_checker_excess`, `C23_checker_pair_refuted`, `C23_checker_hyphen_refuted`, `C23_checker_short_refuted`, `C23_checker_ends` |
| C24 Lujvo maker ranks by the published score | scoring in jvocuhadju.c | equality with the published formula; sortedness | `C24_score`, `C24_order`, `C24_unmarked`, `C24_brod_mark_refuted` |
| C25 Lujvo maker enumerates every combination | enumeration in jvocuhadju.c | mixed-radix counter; induction | `C25_enumerates`, `C25_total`, `C25_room`, `C25_long_word_refuted`, `C25_warning_refuted`, `C25_arguments` |
| C26 Lujvo analysis inverts lujvo construction | canonluj.c | inversion of C23 forms; induction on the parts; finite table checks lifted | `C26_inverts`, `C26_round_trip`, `C26_table`, `C26_total`, `C26_covers` |
| C27 Generated automata recognise exactly the declared language | dfasyn: parser actions, expr.c, n2d.c | subset construction over paths of the NFA; invariant of the work list | `C27_generator_correct`, `C27_determinised`, `C27_read_wf`, `C27_rule_unique`, `C27_shipped` |
| C28 Automaton minimisation preserves behaviour | compdfa.c | partition refinement invariant | `C28_merge_correct`, `C28_attributes_kept`, `C28_attribute_lost_refuted` |
| C29 Compressed transition tables are equivalent to the full tables | tabcompr.c and the generated lookup | induction over the default chain | `C29_lookup_correct`, `C29_too_many_tokens_refuted` |
| C30 cmavo lookup is exact | `hash_cmavo`, `lookup_cmavo`, the whole cmavo table | finite sweep lifted to all strings by case analysis on letters | `C30_lookup`, `C30_listed_found`, `C30_distinct`, `C30_within`, `C30_consonant_refuted` |
| C31 Shape classification of gismu is exact | morf.c front end tables and automaton | product automaton invariant | `C31_gismu` |
| C32 Word classification ignores capitals and commas | as C31 | as C31 | `C32_plain`, `C32_same_word` |
| C33 Word splitting conserves letters | `morf_scan` | induction over letters | `C33_pieces`, `C33_lead_refuted` |
| C34 Name checking finds la/lai/doi inside names | bccheck.c, cmene check | product automaton invariant | `C34_name`, `C34_defined`, `C34_defined_refuted`, `C34_empty_refuted` |
| C35 Comments and separators never affect the words | `parse_file` | induction over bytes | `C35_texts`, `C35_comments`, `C35_unclosed` |
| C36 Digits are read as number words, separators split words | `process_word`, `process_cmavo`, `process_cmene`, `add_preceding_cmavo` | relation between bytes and words; induction | `C36_total`, `C36_read`, `C36_said`, `C36_long_refuted`, `C36_commas_refuted`, `C36_comma_cmavo_refuted`, `C36_name_quote_refuted` |
| C37 zoi quotes are verbatim | zoi quotations in lex1.c | induction over bytes | `C37_quote`, `C37_verbatim`, `C37_verbatim_refuted`, `C37_delimiter_refuted` |
| C38 Token positions are correct | line and column counting | induction over bytes | `C38_places`, `C38_number_refuted`, `C38_comma_refuted` |
| C39 Blocked output stays aligned and within width | textblk.c, cm_output.c | layout invariant | `C39_layout`, `C39_width`, `C39_aligned`, `C39_texts`, `C39_gloss`, `C39_tags_refuted` |
| C40 Fixed-size line buffers overflow exactly beyond their size | buffers of textblk.c and cm_output.c | exact condition for overrun | `C40_safe`, `C40_overrun`, `C40_gloss`, `C40_page_refuted`, `C40_word_refuted`, `C40_tags_refuted` |
| C41 Elidable-terminator tracing does not disturb parsing | elide.c whole over lex2.c `yylex1` | state machine invariant for every sequence of parser events | `C41_stream`, `C41_overrun_refuted`, `C41_advance_refuted` |
| C42 Reported sets of omissible terminators are minimal and sufficient | `show_minimal_elidables` | set enumeration; induction | `C42_report`, `C42_number_refuted` |
| C43 Exit status reflects what happened | main.c | case analysis against a priority specification; induction over arguments | `C43_options`, `C43_help`, `C43_version`, `C43_unknown`, `C43_status`, `C43_crash`, `C43_unopened`, `C43_output`, `C43_order`, `C43_extras`, `C43_width_refuted` |
| C44 Error recovery always makes progress | `error_advance`, `yylex1` | measure; invariant over calls | `C44_recovery`, `C44_forwards`, `C44_stream`, `C44_position_refuted` |
| C45 Bracketed output is balanced and contains all words | `print_bracketed` | structural induction | `C45_balanced`, `C45_words`, `C45_spacing`, `C45_pei_nai_refuted`, `C45_laho_refuted` |
| C46 Memory accounting balances | memory.c | invariant over all histories of calls | `C46_balance`, `C46_statistics`, `C46_exhausted_refuted`, `C46_realloc_null_refuted`, `C46_wrap_refuted` |
| C47 Every gloss in its English form | translate.c: English forms | relation with a separate table of forms | `C47_plural`, `C47_er`, `C47_ing`, `C47_one_form`, `C47_table`, `C47_stars_refuted`, `C47_preposition_refuted`, `C47_class_refuted` |
| C48 Redirections in the dictionary end unless they run in a circle | translate.c: redirections | well-foundedness; divergence for every fuel in a circle | `C48_follows`, `C48_found`, `C48_ends_or_loops`, `C48_circle`, `C48_ends`, `C48_compound_refuted` |
| C49 The indented tree display determines the tree | `print_tree`, `show_indent` | a reader of the listing is shown to invert it | `C49_listing`, `C49_cai_nai_refuted`, `C49_picture`, `C49_text`, `C49_newline_refuted` |
| C50 Dictionary sources mean what their lines say in order | smujajgau `do_file`, `preen`, `handle_mapping` | relation between lines and entries; induction over lines | `C50_sources`, `C50_compiles`, `C50_says_total`, `C50_learns_total`, `C50_no_newline_refuted`, `C50_no_key_refuted` |
| C51 A lujvo has one analysis | canonluj.c | unambiguity of the grammar of C23 | `C51_one_analysis`, `C51_one_word`, `C51_exists` |
| C52 Reading a text loses no letters | lex1.c whole | induction over bytes | `C52_letters`, `C52_dropped_refuted` |
| C53 Each look-ahead marker stands exactly where its construct begins | categ.c marker passes | marker iff the construct starts there, by reading from the right | `C53_markers_exact` |
| C54 Quoted words have no effect; the order of the word-grouping passes | `preprocess_tokens` | relational composition of the pass specifications | `C54_quoted_inert`, `C54_order`, `C54_ends` |
| C55 Conversions inside compounds | translate.c: SE inside compounds | permutation algebra | `C55_converted`, `C55_order`, `C55_long_part_refuted`, `C55_many_parts_refuted` |
| C56 Unknown compounds are glossed by their parts | translate.c: compounds part by part | induction over the parts | `C56_by_parts`, `C56_ziho_refuted`, `C56_percent_refuted` |
| C57 Patterns for compounds | translate.c: patterns | order of candidates against a specification of best match | `C57_redirected`, `C57_exact`, `C57_classed`, `C57_sixth_refuted` |
| C58 Glosses of words that are not in the dictionary | translate.c: unknown words | string functions; induction | `C58_unplaced`, `C58_unknown`, `C58_borrowed`, `C58_borrowing_refuted` |
| C59 The hyphen of a borrowing with a classifier | morf.c borrowings | product automaton run backwards from the end | `C59_hyphen` |
| C60 Tenses and modals are glossed for what they belong to | tenses.c over the trees of the grammar of rpc2x.y | finite table of what can be above each kind of node, closed under the 1142 productions; induction over paths | `C60_contexts`, `C60_role`, `C60_free_refuted`, `C60_jai_refuted` |
| C61 Relative clauses are tied to what they are about | relative.c over the trees of the grammar | ancestors against innermost enclosing nodes; shapes of the productions with relative clauses | `C61_writes`, `C61_antecedent`, `C61_keha`, `C61_before_refuted` |
| C62 Warning for texts without a selbri | errorscan.c | induction over the tree | `C62_warnings` |
| C63 Glossed output shows every word once | output.c: the calls of the output driver for a tree | the words and brackets of the calls are those of the tree, by induction over it; the only rule that drops children never applies in a parse tree | `C63_words` |
| C64 Brackets and labels of the glossed output | output.c: `add_bracketing_tags` and the calls | as C63; numbers by induction with the counter | `C64_nested`, `C64_numbers`, `C64_enclosed`, `C64_labelled` |
| C65 Each word is followed by its own translation | output.c: the choice of a translation | an independent relation between word, use and translation; induction over the tree along the path to the word | `C65_gloss`, `C65_connective`, `C65_tense`, `C65_cluster`, `C65_free_refuted` |
| C66 Glossing a text of ordinary size succeeds | output.c with buffers and null pointers as outcomes | what each branch needs is in every parse tree (connective of every GEK, GIK, …); lengths; references do not reach further references | `C66_complete`, `C66_quote_refuted`, `C66_degree_refuted` |
| C67 References of ke'a | output.c with relative.c | C61, C64 and C65 together | `C67_keha`, `C67_possessor_refuted` |
| C68 Plain glossed output is readable | textout.c: all functions, as steps of a machine | an independent description of items with blanks between them; induction over the calls with the state of the machine | `C68_text`, `C68_words`, `C68_reference_refuted` |
| C69 HTML output shows the text | htmlout.c: all functions; the loop of `make_htmlsafe` with the room left in its buffer | a reader that drops tags and resolves entities, compositional; as C68 | `C69_html`, `C69_words`, `C69_overrun`, `C69_gloss_refuted`, `C69_quote_refuted`, `C69_jai_refuted` |
| C70 TeX output can be set | latex.c, latexblk.c: all functions except the settings in the prologue | depth of groups and a check of active characters, both compositional | `C70_latex`, `C70_block`, `C70_gloss`, `C70_quote_refuted`, `C70_label_refuted` |
| C71 TeX blocks keep words and translations together | latexblk.c | the buffers as lists of words and translations that wait; induction over the calls | `C71_blocks`, `C71_last_refuted` |
| C72 Labels of terms | terms.c: the walk over the whole tree, with the vectors of twenty and variables that are not set as outcomes | an independent description of terms around a selbri, heads of a selbri and linked terms in terms of paths; for each function of the walk, its effects are those of the heads below; induction over the tree | `C72_labels`, `C72_tail_refuted`, `C72_many_refuted` |
| C73 Conversions of the words of a selbri | terms.c: `assign_conversion` and the walk | as C72; permutations of C14 | `C73_converted`, `C73_told`, `C73_indicator_refuted` |
| C74 Labels name what is there | terms.c: the labels | C72 with invariants of the tables of places | `C74_refers`, `C74_number_refuted` |
| C75 Labels in the glossed text | terms.c and output.c together | C72 and C74 composed with the extent of a node in the output (C65) | `C75_labels`, `C75_numbers`, `C75_complete` |
| C76 Texts of ordinary size can always be glossed | terms.c as for C72; room of the vectors in RoomSpec.v | induction over the height of the tree for every function of the walk (WalkTotal.v to WalkTotal3.v), a count of terms and layers over the tree (WalkTotal4.v), composed with C66 and C75 | `C76_total`, `C76_modest`, `C76_short`, `C76_gloss` |
| C77 cmafihe: cmavo written together are glossed by longest entries | cm_gather.c (CmModel.v), the dictionary a parameter; runs and their glosses in CmSpec.v | invariants of the two nested loops over the positions between cmavo (CmProofs.v, CmProofs2.v) | `C77_run`, `C77_once`, `C77_whole`, `C77_off_buffer`, `C77_stop_refuted`, `C77_y_refuted`, `C77_long_refuted` |
| C78 cmafihe: compounds are taken apart as they were put together | cm_translate.c (CmModel.v); parts and hyphens as in LujvoSpec.v | one round of the loop per part for every form of part and hyphen, no borrowing hyphen in any lujvo, induction over parts (CmProofs3.v); a bound carried by the loop (CmProofs4.v) | `C78_compound`, `C78_hyphen_in_front`, `C78_borrowing`, `C78_any`, `C78_conversion_refuted`, `C78_two_refuted`, `C78_classifier_refuted` |
| C79 cmafihe: every word is one token of the right kind | cm_scan.l as patterns with derivatives and the longest-match rule of flex (CmModel.v) | patterns against a matching relation, characters used by patterns, inversion to words (CmProofs5.v to CmProofs7.v) | `C79_all`, `C79_name`, `C79_brivla`, `C79_cmavo`, `C79_no_word`, `C79_kinds`, `C79_lujvo`, `C79_brackets` |
| C80 cmafihe prints each word of a text in order with its class and translation | cm_main.c, cm_gather.c, cm_output.c: text, blocks and LaTeX (CmModel.v, LayoutModel.v) | induction over the layout of the text, composed from C77 to C79, and for blocks with C39 and C40 (CmProofs7.v to CmProofs9.v) | `C80_program`, `C80_blocks`, `C80_latex`, `C80_latex_refuted` |
| C81 Interlinear output shows words, translations and labels of every parse tree, in order and in line | output.c with the functions of textblk.c (OutModel.v, LayoutModel.v, BlkModel.v) | by induction over the tree every label is followed by a word or an opening bracket (BlkProofs.v); an invariant over the calls then gives blocks and rows (BlkProofs2.v, BlkProofs3.v) | `C81_block`, `C81_overrun_refuted` |
| C82 What a syntax error reports, and when recording it runs out of room | tracebk.c and the words listing of lex2.c (TraceModel.v); the actions of a bottom-up parser for a tree, tables of Bison as parameters | counters over the actions: recorded exactly when no row is longer than 1024; induction over the tree bounds rows by its depth, with a check of every production; the chain of last children gives the overrun (TraceProofs.v to TraceProofs3.v) | `C82_recorded`, `C82_safe`, `C82_deep`, `C82_overrun_refuted`, `C82_words`, `C82_report`, `C82_quiet`, `C82_stdout`, `C82_stdout_refuted` |
| C83 Properties of nodes behave like a table | properties.c with records at addresses, linked by next (PropModel.v) | invariant: records are the cells made so far, next is the last cell before of the same node (PropProofs.v) | `C83_table`, `C83_pointers` |
| C84 The random numbers of the text generator are those of the Mersenne Twister | rtg/mymt.c whole, without the printing for tests (MtModel.v) | invariant of the in-place loops relating array, pointers and registers to an abstract sequence; induction over calls; bit lemmas for masks (MtProofs.v) | `C84_twister`, `C84_sequence`, `C84_range`, `C84_seed` |
| C85 How a description of an automaton is read | dfasyn/scan.l whole (FlexModel.v) | which rule wins in front of any text, by cases on its first letter and prefixes of keywords; induction over the pieces (FlexProofs*.v) | `C85_total`, `C85_reading`, `C85_tokens`, `C85_layout`, `C85_lines`, `C85_words`, `C85_line_refuted`, `C85_remark_refuted`, `C85_empty_refuted` |
| C86 Comments are taken out of the grammar and nothing else | uncom.l whole (UncomModel.v) | structural induction over nested comments with the text that follows as parameter; strong induction for the decomposition (UncomProofs.v) | `C86_parts`, `C86_removed`, `C86_again_refuted` |
| C87 Result expressions are read with the usual precedences | dfasyn/parse.y: the rules of expr and their precedences as a shift and reduce machine (PrecModel.v) | induction over the ways to write an expression with what waits on the stack and what follows as parameters; for the converse an invariant of the stack (PrecProofs*.v) | `C87_read`, `C87_only`, `C87_ends`, `C87_unambiguous` |
| C88 The C text of generated tables means the computed tables | dfasyn/n2d.c 1184-1434: every byte of the emitted tables and functions (TabtextModel.v) | a reader of C initialisers as specification (TabtextSpec.v); induction over the digits of a number and over the entries; the rows are those of C29 (TabtextProofs*.v) | `C88_compressed`, `C88_lookup`, `C88_full`, `C88_results`, `C88_names`, `C88_no_prefix_refuted` |
| C89 Words and lines of the random text generator | rtg/rtg.pl: rnd, pick, pickx, emit and the word lists of the terminals as data (RtgData.v, made by tools/gen_rtg.py; RtgModel.v) | arithmetic of the quotient for the choice, the finite lists against cmavotab.c by computation, induction over the words for the lines (RtgProofs.v) | `C89_selmaho`, `C89_even`, `C89_lines`, `C89_reached`, `C89_last_refuted` |

## Findings

Each is a theorem about the faithful model; the input is in the proof.

* Token passes: an empty `lo'u le'u` aborts (`C06_empty_quote_refuted`); `zei` with a
  `lo'u … le'u` operand aborts (`C07_quote_operand_refuted`); `bu` as first word aborts
  (`C09_bu_first_aborts`); emphasis on the word before `bu` is lost
  (`C09_emphasis_kept_refuted`); `cu'i nai` loses `nai`, emphasised suffixes lose the
  emphasis (`C10_cuhi_nai_refuted`, `C10_emphasised_suffix_refuted`).
* Look-ahead: the test for a following ordinal never succeeds
  (`C11_ordinal_noted_refuted`); a text ending in a bare number makes the tense
  look-ahead follow a null pointer (`C12_never_crashes_refuted`).
* Semantics: converted BAI with an indicator glossed unconverted
  (`C15_bai_word_refuted`); `jai` places (`C16_bare_jai_refuted`,
  `C16_filled_jai_refuted`); twenty sumti overrun the table (`C17_bounds_refuted`).
* Dictionary: strings of 256 bytes (`C21_too_long`, `C21_long_refuted`); last line without
  newline, empty key (`C50_no_newline_refuted`, `C50_no_key_refuted`).
* Compound maker: `C23_checker_*_refuted` (the separate checker accepts bad forms and reads
  an unset variable), `C24_brod_mark_refuted`, `C25_long_word_refuted`,
  `C25_warning_refuted`.
* dfasyn: an attribute is lost in minimisation (`C28_attribute_lost_refuted`); more than
  256 tokens (`C29_too_many_tokens_refuted`).
* Words: `C30_consonant_refuted`, `C33_lead_refuted`, `C34_defined_refuted`,
  `C34_empty_refuted`.
* Reader: an unclosed comment loops (`C35_unclosed`); `C36_long_refuted`,
  `C36_commas_refuted`, `C36_comma_cmavo_refuted`, `C36_name_quote_refuted`;
  `C37_verbatim_refuted`, `C37_delimiter_refuted`; `C38_number_refuted`,
  `C38_comma_refuted`; `C52_dropped_refuted`.
* Output: tags lost (`C39_tags_refuted`), overruns (`C40_page_refuted`, `C40_word_refuted`,
  `C40_tags_refuted`), `C45_pei_nai_refuted`, `C45_laho_refuted`,
  `C49_cai_nai_refuted`, `C49_newline_refuted`.
* Terminators: `C41_overrun_refuted`, `C41_advance_refuted`, `C42_number_refuted`.
* Passes over the parse tree: a tense with a free modifier gets no context
  (`C60_free_refuted`); a tense inside a jai unit is taken for the tag of jai
  (`C60_jai_refuted`); a clause before the selbri of a description has no antecedent
  (`C61_before_refuted`).
* Glossed output: a free modifier of a connective has no translation (`C65_free_refuted`);
  long quotations overrun a buffer (`C66_quote_refuted`); a dictionary without `cai` makes
  an attitude read a null pointer (`C66_degree_refuted`); `ke'a` about a possessor refers
  to brackets 0, which do not exist (`C67_possessor_refuted`).
* Formats: plain text prints no bracket numbers, so references lead nowhere
  (`C68_reference_refuted`); `make_htmlsafe` does not advance on `&`, `<`, `>` and writes
  past its buffer (`C69_overrun`, `C69_gloss_refuted`); quotations and the label of `jai`
  are not escaped in HTML (`C69_quote_refuted`, `C69_jai_refuted`), quotations and labels
  with `#` not in TeX (`C70_quote_refuted`, `C70_label_refuted`); block TeX loses the words
  after the last bracket (`C71_last_refuted`).
* Labels: a second bridi-tail in `ke … ke'e` without terms after it reads a vector that was
  never set (`C72_tail_refuted`), more than twenty terms overrun it (`C72_many_refuted`);
  `se` with an indicator is translated though it is accounted for
  (`C73_indicator_refuted`); a number with `moi` is named by brackets it does not have
  (`C74_number_refuted`).
* interlinear output of a quotation or name of 512 letters or more writes past
  the end of a buffer (C81_overrun_refuted)
* a correct text in which more than 1024 constructs end together (515 times `na`, then `klama`)
  writes past the end of the trace array while parsing (`C82_overrun_refuted`); the
  indentation of the backtrace goes to standard output, the rest to standard error
  (`C82_stdout_refuted`)
* cmafihe: unknown cmavo from a vowel without a stop read before a buffer
  (`C77_off_buffer`), a cmavo after a stop inside a run is not found (`C77_stop_refuted`),
  a letter word without entry counts twice (`C77_y_refuted`), long runs overrun a buffer
  (`C77_long_refuted`); a compound that begins with a conversion is shown with a hyphen in
  front (`C78_hyphen_in_front`), a conversion without entry is applied to all parts after it
  (`C78_conversion_refuted`), the first of two is forgotten (`C78_two_refuted`), classifiers
  like `matn` are cut (`C78_classifier_refuted`); LaTeX's special characters are not escaped
  (`C80_latex_refuted`).
* Scanner of dfasyn: line numbers are too small after code or a quotation over several
  lines (`C85_line_refuted`); a remark on a last line without line end is read as words
  (`C85_remark_refuted`); an empty quotation is no token (`C85_empty_refuted`).
  The comment remover can leave a comment behind (`C86_again_refuted`).
* Without a prefix the lookup functions dfasyn writes use `next_token`, which is not declared
  (`C88_no_prefix_refuted`); the output does not compile.
* Random text generator: the last word of a list never comes, except in BAI and CAhA
  (`C89_last_refuted`).
* Main program and memory: `C43_width_refuted`, `C44_position_refuted`,
  `C46_exhausted_refuted`, `C46_realloc_null_refuted`, `C46_wrap_refuted`.
* Glosses: `C47_stars_refuted`, `C47_preposition_refuted`, `C47_class_refuted`,
  `C48_compound_refuted`, `C55_long_part_refuted`, `C55_many_parts_refuted`,
  `C56_ziho_refuted`, `C56_percent_refuted`, `C57_sixth_refuted`,
  `C58_borrowing_refuted`.

## Trusted base

* The Coq 8.16.1 kernel, including its virtual machine (`vm_compute`).
* `Print Assumptions` answers "Closed under the global context" for every theorem in
  every `*Props.v`. No axiom is used, neither own nor of the standard library.
* The reading of /repo. There is no mechanical link between the C text and the Gallina
  definitions; each definition cites its lines.
* The transcription scripts under `tools/`, for the data tables only.
* C is read with 32-bit `int`, 64-bit `long` and pointers, ASCII characters, and files
  that can be read and written without errors, except where a model says otherwise.

## What is modelled, by file

Whole, up to simplifications named in the comments: erasure.c, categ.c, connect.c,
conversion.c, tenses.c, terms.c, relative.c, errorscan.c, properties.c, tracebk.c, output.c, memory.c, elide.c, bccheck.c, canonluj.c, lujvofns.c, dictaccs.c, textblk.c, textout.c, htmlout.c, latex.c, latexblk.c,
translate.c, lex1.c, morf.c, main.c, cm_scan.l, cm_gather.c, cm_translate.c, rtg/mymt.c, dfasyn/scan.l, uncom.l; cmavotab.c and rafsi tables as data; morf.nfa,
stag.nfa and the other automaton sources as data.

In part: lex2.c (all but the debugging listings), smujajgau.c (all but option parsing and
statistics), jvocuhadju.c (all but reading its arguments' spelling help), tree.c (listing,
bracketed text, compression, emphasis expansion), functions.c (node construction and child
access), rtg/rtg.pl (choice of words and output), cm_output.c and cm_main.c (not the options, nor PLIST),
dfasyn (expr.c, n2d.c, compdfa.c, tabcompr.c, the actions of parse.y and its rules of expressions).

The productions of rpc2x.y are data (GrammarData.v), with what action.perl makes of them: a
parse tree is any tree all of whose nodes come from productions (GramModel.v). Properties
C60 on are proved for all of these; other passes after parsing are modelled over arbitrary
trees.

Not modelled: the parser Bison makes from rpc2x.y, i.e. which of the trees that the
productions allow it builds (it is not in /repo and cannot be made here; passes before and
during parsing are modelled over arbitrary parser behaviour; for C82 it is taken to be a
bottom-up parser, which reduces a node when its last child is there); error productions;
the report file of dfasyn; the scripts (Perl), among them the grammar
walk of rtg.pl; minitouch.c; signals and input errors.

## Wrong programs

`seeded/LOG.jsonl` has one line per edit of a model that imitates a bug: the definition, the
edit, the claim broken, the theorems that stopped proving and the theorems added or
tightened because of it. Edits are made in a copy outside /verif; theorems whose proof no
longer goes through, or which depend on a lemma that no longer proves, count as failed.
