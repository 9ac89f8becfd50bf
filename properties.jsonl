{"id": "C01", "title": "si erases exactly the words it is entitled to erase", "statement": "For every word sequence, the parser behaves after si-processing as if each si had been replaced by its literal effect: scanning left to right with a stack of what is still standing, each si takes one unit off the most recent surviving item, where an ordinary word is worth 1 unit, a zo-quote 2, a lo'u...le'u quote 3 and a zoi/la'o quote 4; an item whose units are used up is gone, an item with some units left is a broken remnant, and a si with nothing in front of it stays in the text. All other items keep their identity and order.", "quantifier": "every finite sequence of words and quotes, with any number of si anywhere", "why_tests_cant": "the number and nesting of si runs is unbounded, and the code consumes runs in batches with a look-ahead count whose equivalence to one-at-a-time erasure is a statement about all interleavings", "anchors": ["erasure.c: handle_si", "lex2.c: preprocess_tokens"]}
{"id": "C02", "title": "sa erases back to the nearest matching word", "statement": "For every word sequence, each sa that is followed by a word w removes itself and everything back to and including the nearest earlier surviving item of the same kind as w (same word class, and for cmavo the same selma'o); if there is none it removes everything before it. A sa that ends the text removes nothing. Words after the sa are never removed by it.", "quantifier": "every finite sequence of words containing any number of sa", "why_tests_cant": "depends on arbitrary distance to the matching word and on the interaction of several sa's", "anchors": ["erasure.c: handle_sa"]}
{"id": "C03", "title": "su erases back to the nearest discourse boundary", "statement": "For every word sequence, a single su removes itself and everything back to and including the nearest earlier ni'o/no'i, lu, tu'e or to (or to the start of text if there is none), two adjacent su remove everything from the start of the text, and nothing after a su is ever removed by it.", "quantifier": "every finite sequence of words containing any number of su", "why_tests_cant": "same unbounded look-back as for sa", "anchors": ["erasure.c: handle_su"]}
{"id": "C04", "title": "Texts without erasure words are left alone by erasure", "statement": "If a word sequence contains none of si, sa, su, the erasure stage returns exactly the same sequence and prints no complaint.", "quantifier": "every finite word sequence without si, sa, su", "why_tests_cant": "universal over texts", "anchors": ["erasure.c: do_erasures"]}
{"id": "C05", "title": "zo quotes exactly the following word", "statement": "For every word sequence, after zo-processing each zo that is not itself quoted by an earlier zo forms one quote item with exactly the next word, left to right (so in a run of n consecutive zo's they pair off), every other word is unchanged and in order, and only a zo that ends the text is left unpaired.", "quantifier": "every finite word sequence, any number and adjacency of zo", "why_tests_cant": "runs of zo of any length; tests check a few", "anchors": ["lex2.c: handle_zo"]}
{"id": "C06", "title": "lo'u ... le'u quotes everything up to the first le'u and never crashes the list walk", "statement": "For every word sequence, a lo'u turns the words up to the next le'u into a single error-quote item holding exactly these words in order, and words outside such spans are untouched. The processing is safe exactly when the quoted span is non-empty; an empty lo'u le'u pair aborts the program.", "quantifier": "every finite word sequence with any number of lo'u and le'u in any order", "why_tests_cant": "crash condition and content preservation range over all sequences", "anchors": ["lex2.c: handle_lohu"]}
{"id": "C07", "title": "zei joins operands without losing words", "statement": "For every word sequence on which zei-processing completes, flattening the compound items that it builds gives back the original words in order; each compound contains at least two operands joined by zei, and no zei with a word on both sides remains outside a compound.", "quantifier": "every finite word sequence with any number of zei", "why_tests_cant": "chains of zei are unbounded", "anchors": ["lex2.c: handle_zei"]}
{"id": "C08", "title": "ba'e attaches to the next word", "statement": "For every word sequence, each run of ba'e is removed from the main stream and attached, in order, to the first following non-ba'e word; everything else stays in place, and writing each word preceded by its attached emphasis gives back the original text.", "quantifier": "every finite word sequence", "why_tests_cant": "runs of any length and at any place including the end of text", "anchors": ["lex2.c: handle_bahe"]}
{"id": "C09", "title": "bu makes the preceding item a letteral", "statement": "For every word sequence in which bu is not the first word, every maximal run 'X bu bu ... bu' becomes one letteral item wrapping X once per bu (its text is X's text followed by .bu for each bu after the first), and all other items stay unchanged and in order. A text whose first word is bu aborts the program. Emphasis (ba'e) written on X is not kept.", "quantifier": "every finite word sequence", "why_tests_cant": "unbounded runs, plus a crash condition over all texts", "anchors": ["lex2.c: handle_bu"]}
{"id": "C10", "title": "Indicators attach to the word they follow and text order is recoverable", "statement": "For every word sequence, indicator processing always succeeds; the indicators at the very start of the text stay in the main stream and every later indicator is attached to the nearest preceding word that is not an indicator; each indicator takes the nai, the intensity word and the nai after it that follow it; and, provided no nai or intensity word is emphasised and cu'i is not followed by nai, writing out every word together with what is attached to it (emphasis before, indicators with their suffixes after) reproduces exactly the input word sequence. In the two excluded cases a word is lost.", "quantifier": "every finite word sequence with any placement of UI, CAI, NAI, Y, DAhO, FUhO, FUhE, SA-like words", "why_tests_cant": "an order-preservation law for all interleavings of indicators, suffixes and emphasis", "anchors": ["lex2.c: pair_off_indicator_suffixes, handle_indicators"]}
{"id": "C11", "title": "Lookahead markers never add, drop or reorder words", "statement": "The markers that are inserted before parsing (tense, ek, jek, joik, gek, gihek, guhek, number-mai/roi/moi, ...) leave the underlying words untouched: removing the markers from the resulting sequence gives back exactly the input sequence, for every input on which the stage completes. The note that tells the grammar that a free modifier follows a cmavo is set exactly on the cmavo directly before sei, soi, coi, doi, to or xi.", "quantifier": "every finite word sequence", "why_tests_cant": "19 passes each inserting into a linked list; the composition law is for all texts", "anchors": ["categ.c: categorize_tokens and the passes it calls"]}
{"id": "C12", "title": "Which texts crash the tense look-ahead", "statement": "The tense look-ahead finishes on every word sequence except those where a run of tense-like words that cannot be completed to a tense reaches the very end of the text (for example a text that ends in a bare number, in se, or in na'e); exactly on those it dereferences a null pointer.", "quantifier": "every finite word sequence", "why_tests_cant": "an exact crash condition over an infinite domain", "anchors": ["categ.c: categorize_tenses", "stag_nfa.in", "categ.c: insert_marker_after"]}
{"id": "C13", "title": "Marked connectives and tenses are complete constructs and the skips over them terminate", "statement": "After marking, every core word of a connective (ja, joi/bi'i, a, gi'a, gu'a, ga) and every marker of a jek, joik, ek, gihek, guhek or tense belongs to a complete marked construct: the start marker, the prefixes of the core word that are present (na, se, ga'o) and no fewer, the core word, its suffixes (nai, ga'o), and for jek, joik and tense the end marker. Hence every forward or backward skip over a marked construct finds its end inside the text and no internal assertion fails: on every word sequence the stage either finishes or stops with the null dereference of C12.", "quantifier": "every finite word sequence", "why_tests_cant": "loop termination and assertion safety for all inputs", "anchors": ["categ.c: straddle_ek, straddle_gihek, straddle_jek, straddle_joik, straddle_stag, categorize_jek_kebo ..."]}
{"id": "C14", "title": "Displayed connective truth table is the truth function of the connective", "statement": "For each logical connective (vowel a, e, o, u or question), with or without se and with or without negation on either side, the four-letter truth table under which the connective is shown and glossed (for instance TTTF@AFTER) is the one of the composed Boolean function, in the order TT TF FT FF; question connectives show question marks. For forethought connectives made with gi from a non-logical connective or a tense, both halves refer to the same connective, with the negation of each half taken from its own gi.", "quantifier": "all combinations of connective vowel, se, left negation, right negation, and all four truth assignments", "why_tests_cant": "small finite domain but the table is a hand-written array shared by five connective families; exhaustive agreement with an independent Boolean definition is a proof, and tests exercise only a few cells", "anchors": ["connect.c: main_table, truth_ex, generate_truth_index, process_ek, process_jek, process_gek, process_guhek, process_gihek"]}
{"id": "C15", "title": "SE conversion computes the right place permutation", "statement": "For every chain of se/te/ve/xe conversions of any length around a selbri, the place that the analyser assigns to position x_k of the whole is the place of the core word reached by applying the transpositions (1 2), (1 3), (1 4), (1 5) in order; the result is always a permutation of the places, doing the same conversion twice cancels, and the gloss uses the place that x_1 maps to.", "quantifier": "every finite sequence of conversion words and every place number", "why_tests_cant": "chains are unbounded; composition order errors are only visible with two or more conversions", "anchors": ["conversion.c: compute_tu2_conv, lookup_converted_place", "terms.c: assign_conversion, assign_places (LC_SE)", "translate.c: split_into_comps"]}
{"id": "C16", "title": "Place assignment gives each unmarked sumti a fresh place in order", "statement": "For every sequence of terms in front of and behind a selbri, tagged or not, each untagged sumti gets the least place that is at or after the current counter and not already filled, the counter continues after the last FA-marked place, FA-marked sumti get exactly the place named, and no two sumti share a place unless a FA tag explicitly repeats one.", "quantifier": "every finite list of terms and any link/conversion chain", "why_tests_cant": "interaction of FA tags, linked sumti and conversions over unbounded lists", "anchors": ["terms.c: assign_terms_to_places, assign_places"]}
{"id": "C17", "title": "Place assignment stays inside its tables", "statement": "For a bridi with fewer than twenty places in play, place assignment never reads or writes outside its place tables; with enough terms it does (a sentence with twenty plain sumti before the selbri reads beyond the table).", "quantifier": "every finite list of terms", "why_tests_cant": "memory safety for all inputs, with the exact boundary", "anchors": ["terms.c: MAX_POS, MAX_TERMS_IN_VECTOR, assign_terms_to_places, tv_build, tv_catenate"]}
{"id": "C18", "title": "Every word of the input is in the tree exactly once after emphasis/indicator expansion", "statement": "Re-attaching emphasis and indicators to a parse tree of any shape yields a tree whose words, read left to right, are the words of the original tree with each word's emphasis immediately before it and its indicators immediately after it; nothing is lost or duplicated.", "quantifier": "every parse tree with any attachments of any depth", "why_tests_cant": "induction over all trees", "anchors": ["tree.c: expand_bahe_ui, expand_bahe_ui_internal"]}
{"id": "C19", "title": "Tree compression only removes single-child levels", "statement": "Compressing a parse tree leaves its sequence of words unchanged, never leaves a node that still has exactly one child in a compressible position, and compressing twice is the same as compressing once.", "quantifier": "every parse tree", "why_tests_cant": "induction over all trees", "anchors": ["functions.c: compress_children", "tree.c: compress_singletons"]}
{"id": "C20", "title": "Last dictionary entry wins", "statement": "For every sequence of dictionary source entries (definitions and erasures, from any number of files and an optional existing database), the compiled dictionary contains exactly one entry per key that is defined after its last erasure, with the definition that comes last in input order, and no other keys; keys are in strictly increasing order.", "quantifier": "every finite sequence of define/erase transactions", "why_tests_cant": "arbitrary repetition and ordering of keys across files", "anchors": ["smujajgau.c: add_defn, add_deletion, build_array, sort_array, rationalise_transactions, compress_transactions"]}
{"id": "C21", "title": "Dictionary file round trip", "statement": "For every dictionary whose keys and definitions are shorter than 256 bytes and contain no NUL, writing the database file and loading it again, by the compiler or by the parser, yields the same entries in the same order; a string of 256 bytes or more makes the compiler write outside its table of lengths, and the file would not give the dictionary back.", "quantifier": "every dictionary content", "why_tests_cant": "encoder/decoder agreement for all contents, plus the exact limit", "anchors": ["smujajgau.c: write_database, put_long, put_char, read_database", "dictaccs.c: read_database, get_long"]}
{"id": "C22", "title": "Dictionary lookup finds a word iff it is there", "statement": "For every dictionary file that the compiler writes and every query string, lookup returns the definition stored for that exact key, and nothing when the key is absent; the search always terminates.", "quantifier": "every dictionary content and query, including empty dictionaries", "why_tests_cant": "binary search correctness for all sizes and all probe positions", "anchors": ["dictaccs.c: dict_lookup"]}
{"id": "C23", "title": "Lujvo maker output is always valid", "statement": "Every lujvo that the lujvo maker prints for any list of component words is well formed by the published rules: hyphens y/r/n are inserted exactly where they are required, the consonant clusters at joints are permissible, and there is no tosmabru failure. The lujvo checker accepts every well-formed lujvo and beyond these only words with one of two stated faults.", "quantifier": "every list of valid component words of any length", "why_tests_cant": "combinatorial in the number of components and rafsi choices", "anchors": ["jvocuhadju.c: makelujvo", "lujvofns.c: is_valid_lujvo, is_pairok, is_initialpairok, ends_in_vowel, can_join"]}
{"id": "C24", "title": "Lujvo maker ranks by the published score", "statement": "The candidates shown are in non-decreasing order of score, the score is 1000*length - 500*apostrophes + 100*hyphens - 10*rafsi-shape - vowels, and no candidate that was generated and not shown has a smaller score than one that was shown.", "quantifier": "every set of generated candidates", "why_tests_cant": "ordering over all candidate sets", "anchors": ["jvocuhadju.c: makelujvo, compare_lujvo"]}
{"id": "C25", "title": "Lujvo maker enumerates every combination", "statement": "For every list of components with the available rafsi, the candidate set is exactly one candidate per element of the Cartesian product of the rafsi choices, as long as the number of combinations does not exceed the fixed table size.", "quantifier": "every list of components", "why_tests_cant": "mixed-radix counter over unbounded digit counts", "anchors": ["jvocuhadju.c: makelujvo"]}
{"id": "C26", "title": "Lujvo analysis inverts lujvo construction", "statement": "Splitting a word that was built from rafsi and hyphens by the construction rules recovers the component words, and splitting always terminates with either a full split or a failure report.", "quantifier": "every rafsi sequence and every input string", "why_tests_cant": "parsing ambiguity over unbounded words", "anchors": ["canonluj.c: split_lujvo, strip_leading_rafsi, lookup_component, canon_lujvo"]}
{"id": "C27", "title": "Generated automata recognise exactly the declared language", "statement": "For every automaton description, the table-driven machine that the generator emits gives, on every token string, exactly the result that the described nondeterministic machine gives: the same reachable set of exits, the same resolved result and the same dead/alive status.", "quantifier": "every NFA description and every token string", "why_tests_cant": "translation correctness over all source automata and all inputs", "anchors": ["dfasyn/n2d.c: transitively_close_eclo, generate_epsilon_closure, build_transmap, build_dfa, find_dfa, add_dfa", "dfasyn/expr.c"]}
{"id": "C28", "title": "Automaton minimisation preserves behaviour", "statement": "Merging equivalent states does not change the result on any token string, for every automaton; attributes are preserved whenever states carrying an attribute also carry a result, and can be lost otherwise.", "quantifier": "every deterministic table and every token string", "why_tests_cant": "partition refinement over all automata", "anchors": ["dfasyn/compdfa.c"]}
{"id": "C29", "title": "Compressed transition tables are equivalent to the full tables", "statement": "For every transition table, the compressed tables (default rows plus exceptions) with the emitted lookup routine give the same next state as the full table for every state and token, and the lookup always terminates.", "quantifier": "every transition table, every state and token", "why_tests_cant": "round-trip of a compression scheme", "anchors": ["dfasyn/tabcompr.c: compress_transition_table", "dfasyn/n2d.c: print_compressed_tables and emitted next_state function"]}
{"id": "C30", "title": "cmavo lookup is exact", "statement": "For every string, the word is found in the cmavo table iff it is one of the listed cmavo, and then with its own selma'o entry; distinct cmavo never collide, and the lookup index is always within the table for words that the morphology accepts as cmavo.", "quantifier": "every string", "why_tests_cant": "perfect-hash property over all strings, including those that are not in the table", "anchors": ["lex1.c: hash_cmavo, tab1, tab2, process_cmavo", "cmavotab.c: cmavo_table", "cmavotab.h"]}
{"id": "C31", "title": "Shape classification of gismu is exact", "statement": "A word is classified as a gismu iff after removal of commas and case folding it is five letters CVCCV or CCVCV with a permissible medial respectively permissible initial cluster.", "quantifier": "every string over the Lojban alphabet, any length", "why_tests_cant": "table-driven automaton with 12-bit look-up; only a reachability argument covers all strings", "anchors": ["morf.c: morf_scan", "morf_nfa.in", "mk_fetab.pl", "morf_dfa.c (generated)"]}
{"id": "C32", "title": "Word classification ignores capitals and commas", "statement": "Two words that differ only in letter case (where case is not stress-significant) or comma placement are classified alike.", "quantifier": "every pair of words", "why_tests_cant": "relational property over all strings", "anchors": ["morf.c: mapchar, vmapchar, morf_scan"]}
{"id": "C33", "title": "Word splitting conserves letters", "statement": "When the morphology splits a written word into leading cmavo and a final word, the pieces concatenated in order are exactly the written word, each piece is non-empty, and splitting positions are in range.", "quantifier": "every string", "why_tests_cant": "all lengths and split patterns", "anchors": ["morf.c: morf_scan (cmavo splitting)", "lex1.c: add_preceding_cmavo, process_word, process_cmavo"]}
{"id": "C34", "title": "Name checking finds la/lai/doi inside names", "statement": "A name is accepted iff none of la, lai, la'i, doi occurs in it at a place not preceded by a consonant-blocking context as the published rule says; when rejected with a split, the reported positions delimit that word.", "quantifier": "every word that the morphology passes to the check", "why_tests_cant": "regular property over all strings; plus an out-of-table access for some", "anchors": ["bccheck.c: is_bad_cmene", "bctables.in", "lex1.c: process_cmene"]}
{"id": "C35", "title": "Comments and separators never affect the words", "statement": "For every text with balanced parenthesised comments, the word sequence equals that of the text with every comment replaced by a single space; a text with an unterminated comment makes the reader loop for ever.", "quantifier": "every byte string", "why_tests_cant": "includes a non-termination claim, which no test can settle", "anchors": ["lex1.c: parse_file"]}
{"id": "C36", "title": "Digits are read as number words, separators split words", "statement": "Reading a text gives exactly the maximal runs of word characters separated by whitespace, full stops and digits, with each digit read as its number cmavo, in order, independent of line structure.", "quantifier": "every byte string outside quotation", "why_tests_cant": "stream splitting law for all texts", "anchors": ["lex1.c: parse_file, process_word"]}
{"id": "C37", "title": "zoi quotes are verbatim", "statement": "For every delimiter word and every quoted text in which the delimiter does not occur as a word, the quote item records exactly the text between the delimiters, and processing resumes after the closing delimiter.", "quantifier": "every delimiter and quoted text", "why_tests_cant": "unbounded quoted text", "anchors": ["lex1.c: process_word, parse_file"]}
{"id": "C38", "title": "Token positions are correct", "statement": "Each token records the line and column of its first character, for every text; after a digit or a colon the next token can get a stale position.", "quantifier": "every byte string", "why_tests_cant": "position bookkeeping across all line/comment/quote structures", "anchors": ["lex1.c: parse_file, CLOSE_TOKEN, SET_START"]}
{"id": "C39", "title": "Blocked output stays aligned and within width", "statement": "In interlinear output, the Lojban line, the gloss line and every tag line have equal width at each block boundary, every block is printed completely and in order, no line is broken where the next block would have fitted, and a printed line is wider than the page only if it consists of a single block that is itself wider. Tags that are pending without any text when a bracket closes are lost.", "quantifier": "every sequence of blocks, tags and line widths", "why_tests_cant": "layout invariant for all contents", "anchors": ["textblk.c: flush_block, append_to_width, flush_line", "cm_output.c: do_block, block_newline, append_content"]}
{"id": "C40", "title": "Fixed-size line buffers overflow exactly beyond their size", "statement": "Interlinear output never writes beyond its line buffers when the page width, every text of a block and every tag is shorter than the buffer and a block has at most 32 tags; a block as wide as the buffer always overruns it, and so may a page wider than the buffer.", "quantifier": "every sequence of blocks", "why_tests_cant": "memory safety over all contents", "anchors": ["textblk.c: BUFFER_SIZE", "cm_output.c: lines"]}
{"id": "C41", "title": "Elidable-terminator tracing does not disturb parsing", "statement": "With terminator tracing on, the parser receives exactly the same token stream as without it, for any text, any parser and any sequence of shifts, reductions and token requests, and every access to the buffer, its flags and the conflict bitmap is inside what is allocated and reads a written cell. Two conditions are needed: an error-recovery skip happens only once the current group of terminators has been delivered completely, and no subscript is completed directly after a complete group of 32, 64, ... tokens (both shown necessary).", "quantifier": "every token stream and any interleaving of shifts, reductions and token requests", "why_tests_cant": "state machine with growing buffers under all call sequences", "anchors": ["elide.c: yylex, grow_buffer, set_conflict, is_set, clear_conflicts"]}
{"id": "C42", "title": "Reported sets of omissible terminators are minimal and sufficient", "statement": "When a group of terminators has been parsed, what is printed is exactly: nothing to say for an empty group; 'all may be omitted' if keeping none resolves every recorded conflict; otherwise every inclusion-minimal set of terminators (smaller than the whole group) that resolves all conflicts, each once. The conflict relation itself is the one met by the parser: a later word could have been shifted in a state entered at an earlier place.", "quantifier": "every conflict relation and any number of terminators", "why_tests_cant": "combinatorial enumeration for all conflict relations", "anchors": ["elide.c: show_minimal_elidables"]}
{"id": "C43", "title": "Exit status reflects what happened", "statement": "When a text is read and no stage crashes, the program exits with 3 iff a bad word was met while reading or preprocessing, otherwise 1 iff parsing failed, otherwise 2 iff a syntax error was recovered, otherwise 0; the text is printed just in the last case, once, in the form chosen by the options. A file that cannot be opened, an unknown option and a crash give 1; help and version give 0. Each option is on iff it was given, and no stage runs before those it needs.", "quantifier": "every command line and every combination of stage outcomes", "why_tests_cant": "decision logic relied on by scripts for all inputs", "anchors": ["main.c: main"]}
{"id": "C44", "title": "Error recovery always makes progress", "statement": "For any mixture of token requests and skips after a syntax error, every skip terminates, tokens are given out in order without repetition and none from fa'o on, and the token after a skip is the first not yet given sentence boundary, or the end of text.", "quantifier": "every token stream and error position", "why_tests_cant": "termination over all streams", "anchors": ["lex2.c: error_advance, yylex1"]}
{"id": "C45", "title": "Bracketed output is balanced and contains all words", "statement": "For every tree, bracketed output has matching brackets, and with the brackets removed it is the sequence of words of the tree in order; the exceptions are attitudinal questions with nai, whose nai is not printed, and la'o quotations, which are shown as zoi. No word runs into the word or gloss before it.", "quantifier": "every parse tree", "why_tests_cant": "induction over all trees", "anchors": ["tree.c: print_bracketed"]}
{"id": "C46", "title": "Memory accounting balances", "statement": "For every sequence of allocations and releases through the memory layer, the recorded total equals the sum of the sizes of the live blocks.", "quantifier": "every sequence of allocate/release operations", "why_tests_cant": "invariant over all operation histories", "anchors": ["memory.c"]}
{"id": "C47", "title": "Every gloss in its English form", "statement": "A definition is shown in the form its class letter and grammatical use call for, as in the documented table (noun, verb, modifier, tag); the plural, -er and -ing endings go by one rule each, are put on each starred word (on the whole text when none is starred), and every text takes each ending in exactly one way.", "quantifier": "every definition text, class letter, use and optional noun form", "why_tests_cant": "string transformation over all texts", "anchors": ["translate.c: make_plural, append_er, append_ing, fix_trans_in_context"]}
{"id": "C48", "title": "Redirections in the dictionary end unless they run in a circle", "statement": "The gloss of a redirected entry is the gloss of its target; every chain of redirections in a finite dictionary either ends within twice the number of entries, and then the definition found there is shown, or runs in a circle, and then the program recurses without end; with no redirections for words every lookup ends, its recursion bounded by the number of parts of the compound.", "quantifier": "every dictionary, word, place and use", "why_tests_cant": "termination over all dictionaries", "anchors": ["translate.c: adv_translate, attempt_pattern_match, lookup_template_match, translate_unknown"]}
{"id": "C49", "title": "The indented tree display determines the tree", "statement": "The characters of the indented listing are the picture of the tree: each constituent below its parts, one branch mark per level, one line per word. Two parse trees with the same listing have the same constituents with the same labels and the same words in the same arrangement, provided no quotation runs over the end of a line; the other exception are intensity words with nai standing alone, whose nai line is printed without its indent.", "quantifier": "every pair of parse trees", "why_tests_cant": "injectivity over all trees", "anchors": ["tree.c: print_tree, print_parse_tree"]}
{"id": "C50", "title": "Dictionary sources mean what their lines say in order", "statement": "For every old dictionary and every sequence of source files of key:definition[:comment] lines, blank lines and comments, a query to the parser is answered by replaying the lines: an entry sets its key; an entry for a numbered place first removes the noun, verb, adjective and tag forms of that place; an entry for a place of a compound also makes the compound's analysed form redirect to it (removing that form's finer entries). A final line without newline loses its last character, and an entry with an empty key reads outside the line buffer.", "quantifier": "every old dictionary, every list of source texts and every query", "why_tests_cant": "end to end agreement over unbounded texts, orders of entries and queries", "anchors": ["smujajgau.c: do_file, handle_mapping, preen, main", "dictaccs.c: read_database, dict_lookup"]}
{"id": "C51", "title": "A lujvo has one analysis", "statement": "No word is the lujvo of two different sequences of rafsi, every sequence of at least two rafsi has exactly one lujvo, and so the canonical form by which the dictionary is searched is the same for all rafsi variants of a compound and different for different compounds.", "quantifier": "every sequence of rafsi of any length", "why_tests_cant": "ambiguity of concatenation over unbounded words", "anchors": ["canonluj.c: split_lujvo, canon_lujvo", "jvocuhadju.c: makelujvo"]}
{"id": "C52", "title": "Reading a text loses no letters", "statement": "When a text is read without complaint, the letters of the tokens, in order, are exactly the letters of the words and numbers of the text; only a quotation word (zoi, la'o) that ends the text is dropped, and that silently.", "quantifier": "every byte string without NUL whose comments are closed", "why_tests_cant": "conservation over all texts, with quotations, split words and split names nested in any way", "anchors": ["lex1.c: parse_file, process_word, process_cmene, process_cmavo, add_preceding_cmavo"]}
{"id": "C53", "title": "Each look-ahead marker stands exactly where its construct begins", "statement": "After marking, the single markers that steer the grammar (.i bo; .i with a connective; jek, joik, ek and gihek with bo or with ke; number with mai, roi or moi; na'e bo; na ku) stand before every place where the construct begins and nowhere else. A construct with bo or ke may have tenses between the connective and the bo or ke, and the tenses may themselves be linked by jek or joik; a connective that belongs to .i or that links two tenses gets no marker of its own; .i je bo gets the .i bo marker only; a number is marked before its first digit.", "quantifier": "every finite word sequence on which the stage finishes", "why_tests_cant": "eleven passes that each skip over constructs marked by earlier passes; missing or extra markers show only in particular combinations, in texts of any length", "anchors": ["categ.c: lookahead, categorize_ibo, categorize_ijekjoik, categorize_jek_kebo, categorize_ek_kebo, categorize_joik_kebo, categorize_gihek_kebo, categorize_number_mai, categorize_number_roi, categorize_number_moi, categorize_nahe, categorize_naku"]}
{"id": "C54", "title": "Quoted words have no effect; the order of the word-grouping passes", "statement": "Replacing a word quoted by zo, or the words quoted by lo'u .. le'u, by any other words never changes what the program does with the rest of the text: the same items, the same warnings, the same failure if any, and the items differ in the text of the quotations only, even if the quoted words are si, sa, su, lo'u, le'u, zei, ba'e, bu or indicators. The grouping of words is exactly: zo, then lo'u, si, sa, su, zei, emphasis, bu, indicator suffixes, indicators, each as in C01-C10, and it always ends.", "quantifier": "all word sequences and all choices of quoted words", "why_tests_cant": "relates two runs for every text and every pair of quoted words; a wrong pass order shows only for particular quoted words", "anchors": ["lex2.c: preprocess_tokens, handle_zo, handle_lohu, handle_zei, handle_bahe, handle_bu, handle_indicators", "erasure.c: do_erasures"]}
{"id": "C55", "title": "Conversions inside compounds", "statement": "When the dictionary lacks a compound made of conversions (se, te, ve, xe) and one word, place n of the compound is glossed as the place of the word that the conversions exchange it for, the conversion next to the word being applied first.", "quantifier": "every lujvo spelled from any rafsi of any sequence of conversions and a word, every place and use, every dictionary", "why_tests_cant": "unbounded sequences of conversions and all dictionaries", "anchors": ["translate.c: split_into_comps, attempt_pattern_match", "canonluj.c: canon_lujvo"]}
{"id": "C56", "title": "Unknown compounds are glossed by their parts", "statement": "A compound that the dictionary neither has nor matches by a pattern is glossed by the glosses of its parts in order with hyphens between them, all but the last as modifiers and the last in the place asked for, followed by a mark of doubt; no part is dropped or repeated.", "quantifier": "every compound of 2 to 32 parts, every place and use, every dictionary without matching patterns", "why_tests_cant": "all compounds and dictionaries", "anchors": ["translate.c: translate_lujvo, translate_unknown, lookup_template_match"]}
{"id": "C57", "title": "Patterns for compounds", "statement": "A compound the dictionary lacks is glossed by the dictionary's pattern of the highest precedence that matches it, a pattern for its last part before a pattern for its first at the same precedence, and under the entry for the use asked for before the general one. In the pattern's text each %pc is replaced by the gloss of the rest of the compound in place p and use c; a pattern @p gives the gloss of the rest in place p; the place asked for is first taken through the conversions of the matched part.", "quantifier": "every compound of 2 to 32 parts, every place 1 to 5 and use, every dictionary", "why_tests_cant": "all dictionaries, compounds and combinations of competing patterns", "anchors": ["translate.c: attempt_pattern_match, lookup_template_match, subst_base_in_pattern", "patterns"]}
{"id": "C58", "title": "Glosses of words that are not in the dictionary", "statement": "A word the dictionary defines only without place numbers is glossed with that definition and a mark of doubt. A word it does not have at all is glossed by its kind: ??? for a root word or an unmarked borrowing, [NAME]?? for a name, ?? for text that is no word; a borrowing with a classifier is glossed by the gloss of the classifier, in the use asked for, and the borrowed part in brackets, without the hyphen letter between them.", "quantifier": "every word, place and use, every dictionary without an entry or pattern for the word", "why_tests_cant": "all words and dictionaries, commas anywhere in the word", "anchors": ["translate.c: translate_unknown, translate_fuivla_prefix, adv_translate"]}
{"id": "C59", "title": "The hyphen of a borrowing with a classifier", "statement": "Whenever a word is classified as a borrowing with a classifier, the position reported for the hyphen is that of a letter r, n or l - r, or n next to an r, or l next to r and n - that stands before a consonant and right after four letters CVCC or CCVC (three letters CVC for the short kind) with permitted clusters; for the kinds with a classifier of one part, those letters are the beginning of the word. For every other kind of word no position is reported.", "quantifier": "every written word, commas and capitals anywhere", "why_tests_cant": "infinitely many words, 737 automaton states, the position is taken from a variable that may be unset", "anchors": ["morf.c: morf_scan", "morf.h", "mk_fetab.pl"]}
{"id": "C60", "title": "Tenses and modals are glossed for what they belong to", "statement": "For every text that parses, each word or group of a tense or modal is marked for the gloss with what it belongs to: the selbri of a bridi, a term, a description, a connective between two things, a forethought connective, or jai. The only exceptions are a tense followed by a free modifier (not marked) and the tense of a selbri inside a jai unit with a tag (marked as the tag). The marking never aborts.", "quantifier": "every tree the grammar allows, of any depth, with emphasis and indicators on any words", "why_tests_cant": "the walk goes up through unboundedly many nodes of 162 kinds and aborts if it meets the top", "anchors": ["tenses.c: tense_processing, check_tense_context", "rpc2x.y"]}
{"id": "C61", "title": "Relative clauses are tied to what they are about", "statement": "For every text that parses, each relative clause refers to the sumti, description, name or vocative that its group of clauses is attached to, ke'a refers to the innermost relative clause around it and that clause is glossed as containing it, and the word of a relative phrase is left out of the gloss exactly when a tagged sumti follows. Exceptions: clauses on their own, and clauses that come first in a description without a possessor, refer to nothing. The processing never aborts.", "quantifier": "every tree the grammar allows, clauses nested to any depth", "why_tests_cant": "unbounded nesting; upward walks without bound; nine productions with several optional parts each", "anchors": ["relative.c: relative_clause_processing, process_any_rel_clause, process_keha, process_goi_clause", "rpc2x.y"]}
{"id": "C62", "title": "Warning for texts without a selbri", "statement": "For every text that parses, the warning about a fragment that is only terms is given for exactly the pieces of the text that consist of terms with no selbri, wherever they are.", "quantifier": "every tree the grammar allows", "why_tests_cant": "pieces may be nested in quotations and parentheses to any depth", "anchors": ["errorscan.c: error_scan", "rpc2x.y"]}
{"id": "C63", "title": "Glossed output shows every word once", "statement": "In the glossed output of a text that parses, the Lojban words shown are exactly the words of the text (with emphasis, indicators and terminators in their places), each once, in the order of the text; words the parser supplied are in capitals.", "quantifier": "every tree the grammar allows, every dictionary, every setting of the properties left by earlier passes, every choice of extra brackets", "why_tests_cant": "the rules by which the output reorders, groups or leaves out parts apply at any depth and in combination", "anchors": ["output.c: do_output", "output.c: output_internal"]}
{"id": "C64", "title": "Brackets and labels of the glossed output", "statement": "In the glossed output brackets are balanced and nested, each closed by its own kind and number; they are numbered 1, 2, 3, … as they are opened; terms, sentences, selbri, relative clauses, abstractions and free modifiers are enclosed by brackets of their kind around just their words; labels of terms are complete.", "quantifier": "every tree the grammar allows, every dictionary and setting of properties", "why_tests_cant": "nesting has no bound, and numbers depend on everything opened before", "anchors": ["output.c: add_bracketing_tags", "output.c: output_internal", "output.c: output_tag"]}
{"id": "C65", "title": "Each word is followed by its own translation", "statement": "In the glossed output a word that is not in a group translated as a whole and not in a possessor is directly followed by the translation that fits its use: the place after conversion, verb, noun or qualifier, tense context, converted modal, attitude with its degree, quotation. The words of a group are followed, before any other word, by the translation of the group: a logical connective by that of its truth table at its position (before, between or after), a simple tense by the entry of the whole tense or else its words' entries in order, a number with moi or roi by the entry of the whole.", "quantifier": "every tree the grammar allows, every word in it, every dictionary", "why_tests_cant": "the translation depends on the word, its surroundings and the dictionary in combinations without bound", "anchors": ["output.c: get_lojban_word_and_translation", "output.c: output_internal"]}
{"id": "C66", "title": "Glossing a text of ordinary size succeeds", "statement": "If words, numbers and dictionary entries have an ordinary size and the earlier passes ran, the glossed output is produced to its end: no buffer overflows, no missing property, no null pointer, no abort, and references to other nodes do not make it loop.", "quantifier": "every tree the grammar allows, every dictionary with entries of at most 300 characters", "why_tests_cant": "buffer lengths and recursion through references must hold for all combinations", "anchors": ["output.c: output_internal", "output.c: output_fore_or_afterthought", "output.c: output_clustered"]}
{"id": "C67", "title": "References of ke'a", "statement": "The number shown after ke'a is the number of brackets in the same output, and these brackets enclose just the words of what the innermost relative clause around ke'a is about.", "quantifier": "every tree the grammar allows, every ke'a in it, every dictionary", "why_tests_cant": "numbers are given in one walk, references are found in another, and brackets are asked for in a third, over trees of any shape", "anchors": ["output.c: translate_koha", "output.c: add_bracketing_tags", "relative.c: relative_clause_processing"]}
{"id": "C68", "title": "Plain glossed output is readable", "statement": "In plain text output the words, translations (between slashes), brackets and labels appear in the order in which they are produced, with nothing but spaces and line ends between them, and two neighbouring words or translations are always kept apart. The words are all the words of the text in order.", "quantifier": "every sequence of output requests; every tree the grammar allows", "why_tests_cant": "what is put before an item depends on what was printed before it, over sequences without bound", "anchors": ["textout.c: textout_driver", "output.c: do_output"]}
{"id": "C69", "title": "HTML output shows the text", "statement": "What a browser shows for the HTML output (tags left out, entities resolved) are the words, translations, brackets with their numbers and labels, in order and apart from each other, provided no text contains one of & < >. With such a character in a translation the program does not terminate normally.", "quantifier": "every sequence of output requests with harmless texts; every tree the grammar allows; every translation with one of the characters", "why_tests_cant": "all texts and sequences", "anchors": ["htmlout.c: html_driver", "htmlout.c: make_htmlsafe"]}
{"id": "C70", "title": "TeX output can be set", "statement": "In both TeX formats groups and formulas are closed, and no character is taken for a comment, a column, a parameter or an index, whatever the translations are (unless they contain commands). TeX shows each translation as it is in the dictionary.", "quantifier": "every sequence of output requests whose words and label names contain no TeX character, every translation without backslash and dollar", "why_tests_cant": "translations are arbitrary strings, sequences have no bound", "anchors": ["latex.c: make_texsafe", "latex.c: latex_driver", "latexblk.c: latex_block_driver"]}
{"id": "C71", "title": "TeX blocks keep words and translations together", "statement": "In block TeX output words, translations and brackets appear in order; each block has some words and below them the translations that follow them; nothing is lost if the text ends with a bracket.", "quantifier": "every sequence of output requests that does not overrun the buffers", "why_tests_cant": "blocks are collected in buffers over sequences without bound", "anchors": ["latexblk.c: flush_block", "latexblk.c: write_lojban_text", "latexblk.c: write_translation"]}
{"id": "C72", "title": "Labels of terms", "statement": "In the glossed output each sumti is labelled with the places it fills: with place n of a word exactly if that word heads the selbri of its own bridi (or of the description or linked terms it stands in) and the order of the sumti, FA, SE, JAI, CO and linked sumti give it that place there.", "quantifier": "every tree the grammar allows, any nesting of bridi, abstractions, clauses, connected tails, tanru, co, ke, linked terms", "why_tests_cant": "the grammar allows unboundedly many nestings", "anchors": ["terms.c: terms_processing", "terms.c: process_subsentence", "terms.c: process_selbri_args", "terms.c: process_tanru_unit_1_args", "terms.c: process_tanru_unit_2_args", "terms.c: tv_build"]}
{"id": "C73", "title": "Conversions of the words of a selbri", "statement": "A word is translated by its place n exactly if, after the SE around it (up to a jai with a tag), its first place as used is its place n; the SE that are accounted for in this way are not translated separately, all others are.", "quantifier": "every tree the grammar allows", "why_tests_cant": "unbounded nesting", "anchors": ["terms.c: assign_conversion", "terms.c: process_tanru_unit_2_args"]}
{"id": "C74", "title": "Labels name what is there", "statement": "Labels are on terms only; the word a label names is a word of the text of the right sort; what a label names by number has brackets that carry the number; places are numbered from 1 to 19.", "quantifier": "every tree the grammar allows, every label", "why_tests_cant": "all labels of all trees", "anchors": ["terms.c: fixup_term_place", "terms.c: process_tanru_unit_2_args", "output.c: output_tag"]}
{"id": "C75", "title": "Labels in the glossed text", "statement": "In the glossed output a term carries one label for each place it fills and no other: the word of the place, the number of the place and the translation of that place, printed before the words of the term. What a label names by number is in brackets with that number.", "quantifier": "every tree the grammar allows, every term, every dictionary", "why_tests_cant": "the passes and the output are composed over all trees; a wrong place looks like a right one", "anchors": ["output.c: output_tag", "output.c: output_term", "terms.c: fixup_term_place", "output.c: add_bracketing_tags"]}
{"id": "C76", "title": "Texts of ordinary size can always be glossed", "statement": "For every grammatical text in which no bridi has more than fourteen terms (those before the selbri, after it and linked with be), no selbri is under more than nineteen conversions and links, and bridi tails joined with ke ... ke'e have terms after them, the search for the places of terms completes: no assertion fails, nothing is read that was not set, no table is left. With a dictionary of ordinary entries the whole glossed output is then produced.", "quantifier": "every tree the grammar allows under these counts, nested to any depth; every dictionary with entries of ordinary size", "why_tests_cant": "the tables are filled along every path through nested sentences, tails and tanru; tests reach only some of them", "anchors": ["terms.c: process_bridi_tail", "terms.c: process_selbri_args", "terms.c: tv_catenate", "terms.c: assign_places", "output.c: do_output"]}
{"id": "C77", "title": "cmafihe: cmavo written together are glossed by longest entries", "statement": "For cmavo (without y) written together, of at most 62 letters, with or without a stop in front, cmafihe shows the entry of the whole if there is one (up to 30 letters); otherwise, from the left, each time the longest group of cmavo that has an entry, and a question mark for a cmavo with none; the selma'o are shown the same way. It always completes, unless the run begins with a vowel without a stop and no group at its start is known, when memory before the buffer is read.", "quantifier": "every run of cmavo of any number and spelling, every dictionary", "why_tests_cant": "which groups have entries depends on the dictionary; the search goes through all ends of all groups", "anchors": ["cm_gather.c: try_cmavo_fragment", "cm_gather.c: do_trans", "cm_gather.c: translate_selmao"]}
{"id": "C78", "title": "cmafihe: compounds are taken apart as they were put together", "statement": "For every well-formed lujvo not in the dictionary, made of any number of parts with whatever hyphens the rules require, cmafihe shows the entries of exactly those parts in order with hyphens between, and a part after sel, ter, vel or xel with the entry for that place where the dictionary has it; if the lujvo begins with sel, ter, vel or xel there is a further hyphen in front; no well-formed lujvo is taken for a borrowing. A borrowing is shown as the entry of its classifier and the rest in brackets. For any word at all no buffer is left when the entries are of ordinary size.", "quantifier": "every list of parts and every word, every dictionary", "why_tests_cant": "the program guesses hyphens from letters; that it never guesses wrong is about all combinations of parts", "anchors": ["cm_translate.c: translate_lujvo", "cm_translate.c: translate_unknown", "cm_translate.c: translate_comp"]}
{"id": "C79", "title": "cmafihe: every word is one token of the right kind", "statement": "Every text is scanned to its end with every character in exactly one token. A word of Lojban letters before a blank, line end or bracket is one token: a name if it ends in a consonant, cmavo if it is made of cmavo (and does not begin CVCyC), a brivla if it begins with a consonant and ends in a vowel and has three letters; otherwise it is passed over. Every well-formed lujvo is a brivla. What is within matching brackets of either kind and any nesting is passed on as it is.", "quantifier": "every text, every word, every nesting of brackets", "why_tests_cant": "longest-match scanning with overlapping patterns; the claim is about all words and all that may follow", "anchors": ["cm_scan.l: rules", "cm_scan.l: CM", "cm_scan.l: BM"]}
{"id": "C80", "title": "cmafihe prints each word of a text in order with its class and translation", "statement": "For every text of words, blanks, lines, empty lines and bracketed passages, the text output of cmafihe is, in order, each word followed by its class and its translation as in C77 and C78, an end of line for each empty line, and each piece of a bracketed passage in brackets. With -b the same words, classes and translations stand in three rows, in lines broken at the page width; with -l each is one table of a LaTeX document (special characters are not escaped: a finding).", "quantifier": "every text so laid out, of any length, every dictionary", "why_tests_cant": "composition of scanner, gathering, translation and output over texts of any length", "anchors": ["cm_main.c: main", "cm_scan.l: rules", "cm_gather.c: do_trans", "cm_gather.c: do_output", "cm_output.c: output, do_block, output_newline, output_paren"]}
{"id": "C81", "title": "Interlinear output shows words, translations and labels of every parse tree, in order and in line", "statement": "For every text the parser accepts, interlinear output (-b) groups words, translations and labels into blocks and lays the blocks out on lines of the chosen width, each row of a block beneath the other. Read from block to block, the first rows are all the words and brackets of the text in order, the second rows all translations, the rest all labels and bracket numbers; no label is lost and no block is empty. On a page less than 512 wide the output completes exactly when every block is less than 512 wide and has at most 32 rows of labels.", "quantifier": "every parse tree, every dictionary and set of labels, every page width", "why_tests_cant": "a closing bracket that came right after a label would lose it; that no accepted text produces that is about all derivations of the grammar", "anchors": ["textblk.c: text_block_driver", "output.c: do_output", "output.c: output_term", "main.c: main"]}
{"id": "C82", "title": "What a syntax error reports, and when recording it runs out of room", "statement": "While parsing, the reductions since the last word read are remembered, all and in order, for the report of a syntax error; there is room for 1024. Accepted texts whose parse tree is less than 342 nodes deep never use more; a text in which more than 1024 constructs end at the same word always writes past the end, though it is correct. On a syntax error the word at which the parser stopped is shown (or the end of the text) with up to eight words before it, latest first. The report goes to standard error; the code however writes one space for each production shown to standard output when -bt is given.", "quantifier": "every sequence of parser actions, every parse tree and every way it is built, every token list and position, every parser table", "why_tests_cant": "the room needed depends on the depth of the text; a test shows one text, not where the limit lies for all", "anchors": ["tracebk.c: report_trace_reduce", "tracebk.c: report_trace_shift", "tracebk.c: report_trace_error", "tracebk.c: display_rule", "lex2.c: print_last_toks", "lex2.c: print_token_details", "add_trace_to_tabc.pl"]}
{"id": "C83", "title": "Properties of nodes behave like a table", "statement": "Asking for a property of a node gives NULL just when it was never made, and otherwise always the same record; different properties, or the same of different nodes, never share a record. A field read is what was last stored in it through any pointer to that record; a field never stored in has no value, except that is_tertau is 0 in a new record. Asking again, with or without create, changes nothing.", "quantifier": "every sequence of requests, stores and reads, on any number of nodes and all eighteen properties", "why_tests_cant": "all later passes rest on it and any interleaving of requests on any nodes is possible", "anchors": ["properties.c: lookup_extension", "properties.c: obtain_extension", "properties.c: fetch_conversion", "properties.c: prop_glosstype", "nodes.h: ExtensionType"]}
{"id": "C84", "title": "The random numbers of the text generator are those of the Mersenne Twister", "statement": "For every seed, the generator behind rtg writes for ever the tempered numbers of the Mersenne Twister recurrence (n = 624, m = 397), in order and without leaving any out, though the loop is unrolled, works in place and hands the numbers out in pairs. No access is outside its array. The numbers have 32 bits also where unsigned long is wider, and every seed can be used: the generator never starts in the state in which all numbers are 0.", "quantifier": "every seed, every number of calls, every width of unsigned long of at least 32 bits", "why_tests_cant": "the period is 2^19937-1; a slip at the seams of the unrolled loops shows only in some entries and only statistically", "anchors": ["rtg/mymt.c: seedmt", "rtg/mymt.c: reloadmt", "rtg/mymt.c: getmt", "rtg/mymt.c: main"]}
{"id": "C85", "title": "How a description of an automaton is read", "statement": "A description made of words, signs, spaces, line ends, remarks, quotations and code is read as the tokens of its words, signs and quotations in order: a word is a keyword just in the spellings all small, all capital, one capital or one capital per part, otherwise a name, taken as long as possible; a quotation is a name whatever it contains; lines between %{ and %} are copied to the output unchanged; spaces, line ends and remarks make no difference. The line number of a word is the true one unless code or a quotation over several lines came before; the exceptions (also an empty quotation and a remark on a last line without an end) are exhibited.", "quantifier": "every description, of any length and layout", "why_tests_cant": "all sequences of pieces and all contents; longest match interacts with every neighbour", "anchors": ["dfasyn/scan.l: all rules", "dfasyn/parse.y: %token"]}
{"id": "C86", "title": "Comments are taken out of the grammar and nothing else", "statement": "Every text consists of letters outside comments, properly nested comments and the marks /* error */ and /* ET name */, possibly followed by a comment that is never closed. The comment remover gives back exactly the letters and the marks, in order; comments are removed with everything nested in them, and a comment without end removes the rest. What is left may contain a comment again.", "quantifier": "every text, any depth of nesting", "why_tests_cant": "all texts and all overlaps of the opening and closing signs, unbounded nesting", "anchors": ["uncom.l: all rules", "Makefile.in: uncom"]}
{"id": "C87", "title": "Result expressions are read with the usual precedences", "statement": "An expression of symbols, stars, not, and, exclusive or, or, conditional and parentheses, written with just the parentheses that the order not, and, exclusive or, or, conditional (the last grouping to the right, the others to the left) makes necessary or with more, is read as itself, up to the first token that cannot go on with it; every sequence of tokens that is accepted is such a written expression, none stands for two expressions, and reading always ends.", "quantifier": "every expression, every way to write it, every sequence of tokens", "why_tests_cant": "unbounded nesting of operators; the precedence table resolves conflicts in all combinations", "anchors": ["dfasyn/parse.y: expr, %left, %right"]}
{"id": "C88", "title": "The C text of generated tables means the computed tables", "statement": "The file the automaton generator writes, read as C, declares exactly the computed tables: the four compressed arrays hold, after conversion to their element types, the entries the lookup uses; the full array has the next state of (state, token) at tokens*state+token; the result arrays list the result of every state in order; and with a prefix the emitted lookup functions mention only their parameters and these arrays. Without a prefix this last claim fails: the parameter is called token but the body says next_token, so the output does not compile.", "quantifier": "every number of tokens and states, every table, every prefix made of letters, digits and underscores, all results free of blanks, commas and slashes", "why_tests_cant": "unbounded tables and numbers of any width; separators, line breaks and padding depend on the count and on the size of each number", "anchors": ["dfasyn/n2d.c: print_compressed_tables, print_uncompressed_tables, print_exitval_table, print_attribute_table, write_next_state_function_compressed, write_next_state_function_uncompressed, check_include_char"]}
{"id": "C89", "title": "Words and lines of the random text generator", "statement": "Whatever the random numbers, every terminal of the random text generator gives a word of its list, and that word is a cmavo of the selma'o it is announced as in the table the parser uses; the choice is even, the numbers of ways to reach two positions differing by at most one; the text consists of the chosen words separated by a blank or a line end, and no line is longer than 80 characters. The claim that every word of a list can come fails: except for BAI and CAhA the last word of a list is never chosen.", "quantifier": "every terminal, every 32 bit random number, every list length, every sequence of words", "why_tests_cant": "random choice: a sample cannot show that a word never comes or that no number leads outside the list", "anchors": ["rtg/rtg.pl: rnd, pick, pickx, emit, the terminals A to ZOhU", "cmavotab.c: cmavo_table"]}
