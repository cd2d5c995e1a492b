# Formal model of pemv in Rocq (Coq 8.16.1)

Source modelled: `/repo` (zedseven/pemv, Rust).  The model is hand-written (and for the enum and
bit-field tables, transcribed by script) from the source text; nothing is extracted from rustc.

## Layout (rocq/theories)

| file | contents |
|---|---|
| `Base.v` | results with explicit panics, bytes, strings, UTF-8, target platform, checked arithmetic, slices |
| `ModelUtil.v` | `util.rs`, `error.rs` |
| `ModelEnums.v` | all `enum_*!` enums (`macros.rs`), authorisation response codes, service code enums; written by `tools/gen.py` |
| `ModelBitflag.v` | the `bitflag_value!` macro (`macros.rs`, `bitflag_values.rs`) as an interpreter over declaration tables |
| `ModelSchemas.v` | the declarations of TVR, TSI, terminal capabilities, CVR, CCI, CV rule as such tables |
| `ModelTags.v` | the tag table of `process_emv_tag.rs` and `tag_basic_info.rs` |
| `ModelTlv.v` | `ber_tlv.rs`, `ingenico_tlv.rs`, `auto_tlv.rs`, raw part of `tlv_parsing/mod.rs` |
| `ModelValues.v` | CVM results and lists, IAD, IACs, service code, enum parsing |
| `ModelProcess.v` | `process_emv_tag.rs`, processed part of `tlv_parsing/mod.rs` (sorting, equality) |
| `ModelDisplay.v` | all `display_breakdown` implementations and printing helpers as event lists |
| `ModelMain.v` | `main.rs`, `config/*` |
| `ModelCli.v` | `cli.rs`: the declared arguments and clap's reading of such a declaration |
| `ModelWords.v` | clap's splitting of the words into options and values |
| `ModelOs.v` | the same for words that are bytes, text or not |
| `ModelEnv.v` | figment's environment variables: their names, the syntax of their texts, the file and profile they name |
| `ModelStdout.v` | std's line-buffered stdout and unbuffered stderr on a device that may fail |
| `ModelFiles.v` | where figment looks for the configuration file, and the profile tables in it |
| `ModelCost.v` | the parsers of `ModelTlv.v` counting the bytes they pass over and the depth of their calls |
| `ModelBuild.v` | `build.rs`: the man page and completion scripts of a release build |
| `ModelUncalled.v` | code the program never calls: `Config` as a provider, comparisons of format codes, `From<Infallible>`, `enum_repr_infallible!` |
| `ModelTerminal.v` | termcolor's stream: when colours are sent and as which bytes |
| `Spec*.v` | specifications: grammars, EMV tables, line layouts, settings, command lines; independent of the model's helpers |
| `Proofs*.v` | lemmas |
| `Properties*.v` | the theorems named after the properties, with their examples |
| `Tests.v` | the repository's own unit tests, run against the model (written by `tools/tests.py` and `tools/tests_by_hand.txt`) |
| `Assumptions.v` | one term mentioning every listed theorem, and `Print Assumptions` of it (written by `tools/manifest.py`) |

## Modelling choices

* A byte is an `N`; theorems carry the hypothesis that input bytes are `< 256`.  A Rust `String`/`&str` is a
  `list N` of Unicode scalar values; where the code looks at bytes the model UTF-8-encodes.
* A fallible Rust function returns `res A := Ok | Err | Panic | NoFuel`.  Every `unwrap`, `expect`, `assert!`,
  slice, index and checked arithmetic that can panic is an explicit `Panic`.
* `usize` arithmetic goes through `uadd`/`usub`/`umul` parameterised by a `platform` (pointer width, overflow
  checks on or off): overflow panics with checks and wraps without them.
* Loops (`while`, `loop`) take fuel; `NoFuel` is shown unreachable for the fuel the model itself supplies.
* Terminal output is a list of events (`Txt`, `SetColor`, `Reset`) plus a "panicked" flag.

## Trusted base

* Coq 8.16.1's kernel, including its virtual machine (`vm_compute` is used for table checks).  `native_compute` is not used.
* `Print Assumptions` reports "Closed under the global context" for every theorem listed in MANIFEST.json;
  `Assumptions.v` asks for all of them at once.  The development adds no axiom and uses none of the standard
  library.  (Loading `Lia`/`ssreflect`-based parts of the standard library makes `coqchk` list the opaque
  `Coq.ssr.ssrunder` module parameters; no theorem depends on them.)
* That the model says what the Rust source says.  It was written from the text; every definition cites the lines
  it follows, and simplifications are named there.  `Tests.v` runs every unit test of the repository on the model
  (except the coverage helper in `main.rs`): they
  support this point and are not claimed as proofs of any property.
* That the specifications say what the properties say.

## What is modelled

All functions of `/repo/src` outside `#[cfg(test)]` that influence the output: parsing, processing, sorting,
equality, display with colours, settings and their layers, the declared command line, the choice of operation, the
messages and the exit status.  Behaviour of libraries is modelled as documented: `str::parse::<u16>`, `trim`,
`to_lowercase`, `from_utf8`, `slice::sort` (stable), checked arithmetic in debug and wrapping in release builds,
figment's merging of profiles and layers and its environment variables (`ModelEnv.v`), clap's splitting of words (`ModelWords.v`, `ModelOs.v`, for the features src/cli.rs uses) and validation (number of values, value parsers, groups, conflicts,
requirements, `arg_required_else_help`), termcolor's decision about colours and its ANSI sequences (systems other than
Windows).

## Not modelled

* The text of clap's help and usage errors, and what clap_mangen and clap_complete render for `build.rs`; the search for the .env file and its syntax.
* The TOML syntax of the configuration file: a file is what the parser makes of it, or not valid (`ModelFiles.v`). Links on the disk. In the texts of variables, quoted parts with backslash
  escapes; variables whose name or text is not valid UTF-8.
* Windows consoles, a closed file descriptor (std treats writing to it as success), std's message about a panic, allocation failure, the number of bytes a call
  needs on the stack (`ModelStack.v` counts open calls; everywhere else the stack is unbounded), the `Debug`, `Clone`, `Hash` and `Serialize` derivations that the program never uses.
* The metadata of the `Provider` implementation (src/config/mod.rs:91-93), the `tarpaulin` helpers and src/testing_macros.rs.  The optional types are modelled as `option`, so their conversions from and to
  `Option` (src/emv/cv_rule/cv_method.rs:35-46, src/emv/cv_rule/cvm_condition.rs:54-65) are the identity.

## Wrong programs

`seeded/LOG.jsonl` has one line per wrong program tried: the model was edited in a copy and the copy was rebuilt.
- A theorem counts as failed if its proof no longer goes through.  A broken proof does not by itself show that the statement became false.  Attempts that broke few theorems were therefore read by hand, and a theorem was added or tightened where the claim could have gone on being proved (`theorems_tightened`).
- `claimed_but_not_failed` lists properties that were expected to fail and did not.  They were read too: either the property does not say anything about the edited case, or a theorem was tightened.
- Attempts with no failed theorem either led to a new theorem (S069, S127; tried again as S1170 and S1171) or are edits that do not change what the program does.

## Properties

Each line: what is modelled, how it is proved.

* C01 Hex text and bytes round-trip: util functions; list induction.
* C02 Lenient hex reading ignores exactly the non-hex characters: UTF-8 level model of the byte filter; induction on the string, no byte of a multi-byte character is a hex digit.
* C03 Strict hex reading accepts exactly hex strings: induction.
* C04 Strict hex reading is lossless exactly for an even digit count: induction two digits at a time; refutation witness for the odd case.
* C05 Byte slices convert to their big-endian number: fold; induction on length <= 4/8.
* C06 Decimal reading of u16: trim + u16 parse; induction on digits.
* C07 Leading zero bytes are trimmed, never to nothing: list induction.
* C08 Decimal digit count: division loop; strong induction.
* C09 The BER-TLV parser never panics and always terminates (64-bit): fuel measure + bounds invariant on indices in `parse`.
* C10 Panic freedom depends on a pointer wider than 32 bits: witness computed in the 32-bit platform.
* C11 The BER-TLV parser accepts exactly the documented grammar: refinement of the index loop to an inductive grammar, both directions.
* C12 BER-TLV encode/parse round trip: from 11, nested induction on trees.
* C13 BER-TLV parsing loses nothing: from 11.
* C14 BER-TLV parsing is compositional: from 11.
* C15 Truncated BER-TLV is always detected: from 11 by case analysis on the cut position.
* C16 BER-TLV errors are classified: from 11 with an inductive error grammar.
* C17 A zero-length value in long form is rejected at the end of the input: from 11 and 16.
* C18 Tag class and type come from the first tag byte: case analysis on all 256 bytes by forallb.
* C19 Only unmasked constructed tags have children, and they are the parse of the value: induction on fuel and loop.
* C20 Parse trees are linear in the input: size argument over the grammar.
* C21 Masking detection is exact: direct.
* C22 Masked values are never interpreted: case analysis of process_emv_tag.
* C23 The Ingenico parser never panics and always terminates (64-bit): bounds invariant.
* C24 The Ingenico parser accepts exactly the documented grammar: refinement to inductive grammar.
* C25 Ingenico encode/parse round trip: from 24.
* C26 Ingenico: non-EMV fields are skipped without side effects: from 24.
* C27 Ingenico: the separator character is irrelevant: from 24.
* C28 Truncated Ingenico text is always detected: from 24.
* C29 Ingenico length and tag fields silently drop an odd hex digit: from 24 and 4.
* C30 The two TLV formats agree: from 12 and 25.
* C31 Automatic detection is deterministic and never misreads hex as Ingenico: direct + absence of ':'.
* C32 Automatic detection accepts text that holds no data: direct.
* C33 Processing preserves the data: tree induction.
* C34 Processing fails exactly when some tag fails, with the first failure: tree induction.
* C35 Names come from the tag table: case analysis.
* C36 Exactly which tags can make processing fail: case analysis.
* C37 Sorting is a recursive stable sort by tag bytes: stable insertion sort model of slice::sort, uniqueness of stable sorted permutation.
* C38 Ordering versus equality of tags: direct.
* C39 The tag table only holds well-formed BER tags with distinct entries: finite table lifted.
* C40 Bit field values: length check: generic over declaration tables.
* C41 Bit field values: parse then serialise masks unused bits: generic theorem for every well-formed table, then table checks by computation.
* C42 Bit field values: two inputs parse equal exactly when they agree on used bits: same.
* C43 Bit meanings follow the EMV tables: independent EMV bit tables compared with the interpreter by a generic theorem plus computed table check.
* C44 Bit display information is exact: generic.
* C45 Severities are those declared: generic.
* C46 CV rules round-trip except unknown codes: forallb over 65536 lifted or split per byte.
* C47 CVM results: same.
* C48 CVM lists: list induction.
* C49 Issuer application data: case analysis.
* C50 Issuer action codes are TVRs with the EMV defaults: from 43.
* C51 Service codes follow ISO/IEC 7813: forallb over 0..999 lifted; arithmetic for the rest.
* C52 Enumerations: codes and variants correspond: case analysis.
* C53 Authorisation response codes: model of from_utf8 for two bytes.
* C54 Bit diagrams line up: generic theorem over range lists (strictly decreasing, disjoint).
* C55 Hex dumps are faithful: list induction.
* C56 Colours are always reset: invariant on event lists.
* C57 Action codes are shown without severity colours: invariant on event lists.
* C58 Indentation is applied to every line: invariant on event lists.
* C59 Indentation overflows on deeply nested data: depth induction.
* C60 Output is all or nothing: model of main.
* C61 Operations dispatch to their parser: model of main.
* C62 Configuration precedence: model of layering.
* C63 Colour choice conversions: case analysis.
* C64 The program never panics: composition of all panic-freedom lemmas.
* C65 Error messages are distinguishable: injectivity of message texts and decimal printing.
* C66 Equality of processed blocks looks only at the raw data: tree induction, stripping the parsed values.
* C67 Sorting keeps every tag: permutation argument over the stable sort.
* C68 What is on the screen, line by line: independent line layouts; structural induction over values and trees against the event lists.
* C69 Every spelling of an option means the same: simulation of clap's steps.
* C70 The order of the options does not matter: accepted command lines as a set-like description, permutation invariant.
* C71 Exactly which command lines are accepted, and what they do: exactness of the step function against a declarative description.
* C72 The exit status: case analysis.
* C73 From raw bytes to the screen: composition of C11/C24 (grammars), C35/C43 (meanings), C37 (order) and C68 (lines) into one relation.
* C74 More masking characters only hide: induction on the grammar for two lists of masking characters.
* C75 Only the digits of a value matter: injectivity of hex decoding; simulation of clap's steps for two texts.
* C76 Automatic detection only chooses a format: case analysis on the block relation. `PropertiesRuns.v` carries the statements over to runs of the program (`C76_program…`).
* C77 The bytes sent to the terminal: a byte-driven UTF-8/SGR terminal as specification, induction on the events; a checked build prints a first part of what an unchecked one prints.
* C78 Options can be written in every usual way: `ModelWords.v` follows clap's parser loop word by word; `SpecWords.written` is the grammar; sound and complete by induction over the words, so equivalences of writings, unambiguity and errors follow.
* C79 From the words typed to what the program does: C78 composed with C69-C72.
* C80 What environment variables say: `ModelEnv.v` follows figment's `Env` provider and value parser; `SpecEnv.stands_for` is the grammar of texts and `assigns` the meaning of names; sound and complete by induction over text and variables. That the order of variables never matters is refuted (two names differing in case).
* C81 From the words and variables to the bytes on the screen: C79 and C77 composed with C80.
* C82 The screen tells all: `SpecTells.told` says what can be read off the screen; injectivity of every picture of C73 up to `told`, lifted to whole screens by reading lines back from the characters, and to TLV trees by tree induction.
* C83 The same value looks the same everywhere: every picture of C73 moves with its indentation; induction over the occurrence of an object in a forest, sorted or not. `PropertiesRuns.v` carries the statements over to runs of the program (`C83_program…`).
* C84 Reading takes at most quadratic work: `ModelCost.v` repeats the parsers with counters, C84_same proves that the results are those of `ModelTlv.v`; bounds by induction over fuel and remaining input; the examples that reach them are standard encodings (C12) of objects in one another. What a byte costs (comparing with the masking characters, copying) and the size of a stack frame are not modelled.
* C85 The configuration file: `ModelFiles.v` follows figment's search for a file (`Data::file`) with std's path operations on text, and `nested`; `SpecFiles.chosen` and `contents` state which file it is and what it says over lists of directory names; induction over the current directory. The end-to-end theorems replace the file of C81 by the disk. The TOML syntax itself and links are not modelled.
* C86 Builds agree: the model of every function takes the pointer width and the overflow checks (`Base.platform`); each is compared with a 64-bit release build, up to a panic, by induction over fuel and output. Sums that wrap around are smaller than the index they start from, so the following slice panics; the doubled length of Ingenico hex data has no such guard (refuted).
* C87 Parts: `SpecJoin.part` says which text can be continued; appending is shown for the parsers (C14 and induction over the fields), for the lines of a forest and for `refused`; sorted, the order of nodes with different tags cancels out in `in_order`.
* C88 Output size: every picture has at most 60 lines and two per byte (checked over the tables); the lines of a tree are bounded by a weight of its nodes, and the weight by the grammar; the lower bound reuses the nested objects of C84.
* C89 Failing stdout: `ModelStdout.v` follows std's `LineWriter`/`BufWriter`, `print!` (panics on errors) and the ignored errors of `set_color`; a device is any sequence of answers. Invariant: what is taken and what waits together are the texts whole and of each colour a beginning, and after a success nothing that waits ends a line; the terminal of `SpecTerminal.v` then shows the text.
* C90 Cut arguments: a beginning of the text has a beginning of the bytes; for BER-TLV C14 splits the objects, for Ingenico data the fields are followed; the error of a cut argument cannot be Unsupported because the whole would have it too; sorted, the nodes of the beginning are found again in the sorted whole up to a permutation.
* C91 Copied text: the dump's columns contain exactly the hexadecimal digits of the data (the parser skips tabs, spaces and line ends), so C83 and the object's place in the sheet give the second sheet; that the readable column is not skipped is the refutation.
* C92 Masked values: both texts give the same node for the object, by C14 and the field step of the Ingenico parser, so the parsers return the same result whatever follows; the rest of the program only sees that result. The refutations are concrete runs.
* C93 Settings: the colour is not an input of the modelled operations once settings are loaded; a sorted tree has the same lines up to a permutation (separators included) by induction on the order relation, so depth and panics agree as well; hiding values is followed through the tree relation of C74.
* C94 Templates: constructed tags have neither a picture nor a length to check, so the grammar gives the node, and the lines of the children move with the indentation (C83); objects and trees one after the other are appended (C87). `SpecWrap.around` builds the two contexts level by level, and induction over it splits the screens.
* C95 The data a text holds (`SpecFormats.holds`) is read off the two grammars; a list of objects has exactly one forest (`nodes_of`), whichever grammar it comes from. So the parsers return the same (C11, C24), and C82 gives the other direction.
* C96 Words of bytes: `ModelOs.v` lets clap's reading run over bytes and decodes values where they are read. Decoding is proved inverse to `utf8`; word by word the bytes and the text do the same (`word_text`), and the first broken word ends both (`broken_ends`).
* C97 (SpecWidth.v, ProofsWidth.v, PropertiesWidth.v): `small_lengths` on bytes, `small_ber` and `small_ingenico` on text say which announced lengths are excluded, without any parsing. The loops of both parsers are shown equal step by step with those of the 64-bit build, because no sum or product reaches 2^32; slices of the data inherit the conditions. The output functions use the build only through its overflow checks. `C97_shown`, `C97_refused` and `C97_crash` carry C73, C61 and C64 over to all such builds.
* C98 A release build leaves exactly the man page and the completion scripts that were asked for: the script as a list of writes on a file system with refusing or full files; induction over the writes, the six paths differ because their last names do.
* C99 A refusal gives away the kind of fault and a number of bytes, nothing else: the lines that can appear are listed outright (SpecQuiet) and every refusal is shown to be among them, with the sizes of values bounded by induction over the grammars; for objects that are only named the parse result is that of the rest with a node in front that no tag rule rejects. C99_explained_refuted: for tags that are explained the length of the value does show.
* C100 Exactly which data crash a build: `overruns`/`text_overruns`/`argument_overruns` (SpecOverrun) are inductive relations over the grammars with the limit as a parameter; each step of the index loops of ModelTlv is compared with the grammar functions on any build, deciding whether the end of the value overflows (an end that wraps around lies before its start, so that the slice panics even without overflow checks), and the loops follow by induction (ProofsOverrun); the program level goes through the 64-bit build with the same overflow checks. Where Ingenico text is read by a 32-bit build without overflow checks the doubled length can wrap around unnoticed; such builds are excluded by `counts` (`doubling_safe`, see C86). C100_large_refuted: a large length alone is not enough.
* C101 Only masking characters that stand twice in a row in the data matter: every value the parsers look at is a piece of the data, so the test for masking gives the same answer with both lists; the loops of ModelTlv with the two lists are followed step by step, without any assumption about the build. C101_text_refuted: for Ingenico text the bytes spelt in hex digits have to be looked at as well.
* C102 32-bit builds without overflow checks: `one_less` changes one digit, `taken_as` is its normal form (SpecTopbit). The step of the Ingenico loop is restated with the length modulo 2^31; two runs on texts that differ in the digit are followed together, and a text in normal form is read as by the same build with overflow checks, to which C100 applies. Automatic detection uses the other text for Ingenico data but the given one for BER-TLV (C102_auto).
* C103 Whole runs: `ends` (ModelSystem) ties the command line of bytes (ModelOs), the place (ModelFiles), `run_main`, the colour decision and the failing devices (ModelStdout) together. The theorems compose C96, C85, C73, C77 and C89; `set_up` turns the words and the place into the settings and operation of the run. Runs in which clap itself answers are not among them (C103_ends says exactly which are). `C103_builds` replaces a narrower build by a 64-bit one (`run_build` of C100), `C103_crash` shows what is left otherwise. `C103_unset` and `C103_broken` are the runs whose settings cannot be read.
* C104 The stack: `run_within` (ModelStack) is `run_main` with a limit on the open calls of each recursive function, the depth of the reader being counted by ModelCost. `nest` (SpecStack) says in terms of the grammar how many templates are inside one another; `ber_depth` and `ingenico_depth` prove that this is the number of open calls. `agrees` relates the limited and the unlimited display.
* C105 Width and size of the output: `width` and `characters` (SpecColumns) measure the lines of `sheet`; `shows_tag` says whose tag a line may show. Each picture is bounded by walking its layout, the texts of the tables by computation over the whole table (`table_fits`, `name_columns`, `title_columns`), and the forest by induction (`forest_columns`). The columns beyond 122 are summed up and are at most twice the bytes of the tags (`tree_excess`), and these at most the argument (`block_weight`). Colours (C105_coloured): `spends` counts the colour bytes on the line being written, function by function of the display, through every early stop. C105_lines carries it to the lines of bytes.
* C106 Alarms: `alarm` (SpecAlarms) says by masks on the raw bytes which values are alarming. `shown_rises` compares the masks with the tables of flags by computation over all bytes; `picture_alarm` does all interpreted tags, `tree_tint` the forest by induction, and sorting only permutes lines (`in_order_lines`).
* C107 Slips: `loses` and `mistypes` (SpecSlips) edit the text. Only the number of digits matters (`bytes_loses`, `bytes_gains`); `sheet_size` reads the possible sizes off the sheets, and C73_total leaves refusal as the only alternative.
* C108 Blanks: `broken` (SpecBreaks) puts one blank into a text. Hex: blanks are filtered out (`broken_bytes`). Ingenico: `inside` follows the reading of one field to the blank, `after_prefix` carries the refusal over the fields before; `std_broken` does all places of a standard text by induction on its fields, `std_digits` shows that its digits are the BER-TLV encoding.
* C109 `stands` (SpecSorted) says which lines are above and below an object. `in_slot` splits the sorted objects at the object in question (`filter_split` on the objects of its tag, which sorting keeps in order), removes or replaces it and shows that the result is still the sorted arrangement; `forest_app` turns this into lines. Templates: `level` and `template_sheet` by induction over the nesting (`within`).
* C110 `reads_empty`, `empty_line` and `explained_bytes` (SpecBehind) are independent of the parser. The bytes behind are settled alone by inversion of the grammar (`two_bytes`, `two_too_long`, `zeros_odd`, `ones`); C87_joined, C87_refused and C109_changed carry them over to any objects in front.
* C111 `sizes`, `alike`, `digits` and `object_text` (SpecOptions). `sized` reads the size off the pictures of C73, `misfit` gives the complaint, `digits_bytes` relates digits and bytes. CVM lists: `list_length` counts the lines shown. Identification: every tag of the table is a complete tag (C39), so a tag followed by a length is not in it (`tag_only`).
* C112 `reports_rfu`, `reserved_code`, `reserved_cvr` and `has_reserved` (SpecReserved). Lines without characters above U+2500 are never reports (`plain_quiet`); in diagrams the word can only come from the text of a range (`elbow_text`), and every table but the cryptogram types is checked to be without it (`hushed`). Blocks as in C106.
* C113 `settled` (SpecSettled) compares neighbours only. Sorted data are settled and settled data are their own sorted order (`settled_iff`); the lines of a forest and of its sorted order agree only if the forests do (`order_told`, by weight of the tree, using that parsed nodes are determined by tag and data as in C82).
* C114 `tells` (SpecMatch) reads the words behind the last arm of a line, `matching` and `covered` are conditions on the bytes with the mask of EMV Book 3 Annex C5. An elbow row has exactly one elbow (`draw_elbow`), so its words are determined; the 26 texts are distinct (`labels_apart`) and stand at exactly the bits of the mask (`meaningful_at`).
* C115 `written` (SpecNotation) writes data in a notation, `digitless` and `one_digit` speak of characters only. The converse of `C115_exact` tries the bytes 00 and FF behind each part (`front_empty`). The half byte moved is computed on digits (`front_value`, `front_same`). `PropertiesRuns.v` carries the statements over to runs of the program (`C115_program…`).
* C116 `fields`, `closed`, `followed` and `looks_whole` (SpecFront) speak of the text only. `rest_of_field` follows the Ingenico reader through what is left of one field, `C116_anywhere` does an induction over the fields. The objects are rebuilt in the grammar (`C116_tag`, `C116_template`); `number_left` cuts the text of a number.
* C117 `tells` (SpecMatch) reads the words behind the elbows off the lines. `field_told` finds them in the bit tables; that all texts of a table differ (`apart`) and that its fields cover exactly the meaningful bits, each once (`matches_mask`, `tidy`), is computed once per table and lifted to all values by `words_fields` and `field_bits_eq`. Objects in the data of a run: `PropertiesRuns.v`.
* C118 `turned_away` (SpecAround) is the end-to-end refusal together with unreadability under the grammar; `dressed` compares the hex digits of two texts. `front_stop` and `few_stop` show that the reader of one field stops there, `stopped` lifts this behind any readable prefix. `C118_same` joins `std_digits` (the digits of an Ingenico text are the BER-TLV text of the same objects) with C30 and C76.
* C119 `ModelUncalled.v` models the code. `configured` (SpecUncalled) uses the layers of C62; `of_dict` and `from_merged` connect them with figment's dictionaries. `declared` is what the compiler demands of a declaration without a wildcard arm.
* C120 `stands` (SpecReach) says which object is at a place and which bytes come up to its end. `C120_place` is by induction on it: tag and length fields are prefix-free (`tag_first`, `len_first`), so the objects before the place are the same (`objects_same`). `stands_lines` finds the lines of the object on the screen; `C120_fields` uses the parts of C87.
* C121 `C121_separator`: unclosed fields and any one character are a part in the sense of C87, so the rest is read as if it began behind that character; C116 says what the rest of a field does. `doubled_order` shows that the sorted order of the objects given twice is each twice in a row. The values follow from C111 (sizes) and the pictures.
* C122 CVM results read against a CVM list: `names` (SpecRules) looks only at lines: a block of four lines for rule k on one screen, words behind elbows on the other. `rule_found`/`rule_there` locate the block (only its first line is bold to the end); `results_say` compares words with codes using C117's injectivity of the texts. `C122_objects` uses C91's `object_between`. Objects in the data of a run: `PropertiesRuns.v`.
* C123 CVM lists are shown rule by rule: `rules_lines` and `top_lines` (SpecListed) say line by line what a list of rules looks like, with `has_amounts` over rule positions instead of the recursive test of the picture; the edits are statements about byte lists with a rule at any place, by induction two bytes at a time. `C123_program` goes through C73.
* C124 Service codes in words: `service_words` (SpecService) lists title, text, place and digits, ordered by title and text rather than by digit as in the code; `says` looks for a title and a text on the lines. The picture is split into title, padding and words (`service_lines`); the table is then checked for the ten digits by computation and carried to all codes by `digit_in`. `C124_objects` uses C83. Objects in the data of a run: `PropertiesRuns.v`.
* C125 Codes in words: `twins` and `terminal_exists` (SpecCoded) say which codes mean the same and which terminals there are, independently of the tables of codes; all pairs of the tables are compared by computation (`codes_checked`) and carried to objects in TLV data with C91's `object_between`. Objects in the data of a run: `PropertiesRuns.v`.
* C126 Issuer application data: SpecIssuer lists the bits by byte and value, the two counts and the two cryptogram fields (`results_say`), and the frame of lines (`issuer_lines`), independently of the field tables. PropertiesIssuer shows that the field table of the diagrams gives exactly these words (`results_fields`, the tables compared by computation, the bits for all bytes) and that `iad_picture` is the frame; carried to objects with C91's `object_between` and to runs with C73. Colours (PropertiesWarned): SpecWarned lists the eight statements that are alarms; every statement stands there in its colour and in no other.
* C127 The names of tags: SpecNames describes the lines (`named`, `of_class`, `of_type`, `object_titled`) and lists the templates; PropertiesNames compares all titles by computation (`titles_apart`), proves that no complete tag begins another (`tag_prefix`), and carries both to screens and runs.
* C128 Bits in words: SpecStatements has the tables of statements, written as (byte, value of the bit, colour, words) and independent of the tables used for the other properties, and `stated` describes the line of a statement; PropertiesStatements proves what a diagram states (`ranges_stated`), compares the tables by computation and carries the equivalence to values, objects and runs.
* C129 The outline of TLV data: SpecOutline lists the marks (`signs`), the objects with their depth (`items`) and counts lines in a text (`lines_with`); PropertiesOutline proves for every picture that its lines begin with no mark (`picture_unmarked`), filters the lines of trees by induction and uses that sorting permutes the lines (C93).
* C130 Cardholder verification in words: SpecVerified has tables of its own for the words (`method_words`, `condition_words`, `result_words`); PropertiesVerified reads the statements off the diagram (as for C128) and the rules off the list (as for C122) and compares the tables by computation.
* C131 Output with colours read by other programs: `stripped` (SpecStrip) is the relation of a stripper that knows nothing about the program; PropertiesStrip shows that it has one result, follows the events of a run (texts without escape bytes by C77, sequences as termcolor writes them) and keeps lines apart because no sequence has a line end. PropertiesHead finds the event in which a line end was written and gives the terminal of C77 the output up to there.
