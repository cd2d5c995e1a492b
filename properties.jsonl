{"id": "C01", "title": "Hex text and bytes round-trip", "statement": "Converting any bytes to text with bytes_to_str yields exactly two upper-case hex digits per byte, and reading that text back with parse_hex_str or parse_hex_str_strict returns the same bytes.", "quantifier": "every byte sequence of every length", "why_tests_cant": "Unit tests try three byte strings; the claim is for all lengths and all byte values.", "anchors": ["src/util.rs:bytes_to_str", "src/util.rs:parse_hex_str", "src/util.rs:parse_hex_str_strict"]}
{"id": "C02", "title": "Lenient hex reading ignores exactly the non-hex characters", "statement": "parse_hex_str never fails: it depends only on the subsequence of ASCII hex digits of the input, in order and irrespective of case; digits 2k and 2k+1 become byte k and an odd last digit is ignored. Everything else, including any non-ASCII character, is skipped.", "quantifier": "every Unicode string", "why_tests_cant": "Strings are unbounded; the tests cover four spellings.", "anchors": ["src/util.rs:parse_hex_str"]}
{"id": "C03", "title": "Strict hex reading accepts exactly hex strings", "statement": "parse_hex_str_strict succeeds if and only if every character is an ASCII hex digit, fails with InvalidBytes otherwise, and when it succeeds returns what parse_hex_str returns.", "quantifier": "every Unicode string", "why_tests_cant": "An accept/reject boundary over all strings.", "anchors": ["src/util.rs:parse_hex_str_strict"]}
{"id": "C04", "title": "Strict hex reading is lossless exactly for an even digit count", "statement": "For an accepted string, writing the returned bytes back as hex gives the original text up to case if and only if the digit count is even; with an odd count the last digit is silently dropped (so 'strict' reading does not reject a half byte).", "quantifier": "every string of hex digits", "why_tests_cant": "The dropped digit is never exercised by the tests; the exact boundary needs a proof over all lengths.", "anchors": ["src/util.rs:parse_hex_str_strict", "src/util.rs:parse_hex_str"]}
{"id": "C05", "title": "Byte slices convert to their big-endian number", "statement": "byte_slice_to_u32 (u64) returns the big-endian value of any slice of at most 4 (8) bytes, that value fits the type, and the call panics exactly for longer slices.", "quantifier": "every byte slice", "why_tests_cant": "2^32 and 2^64 inputs.", "anchors": ["src/util.rs:byte_slice_to_u32", "src/util.rs:byte_slice_to_u64"]}
{"id": "C06", "title": "Decimal reading of u16", "statement": "parse_str_to_u16 succeeds exactly when the text, after removing leading and trailing Unicode white space, is an optional '+' followed by one or more decimal digits with value at most 65535; it returns that value and otherwise fails with InvalidNumber.", "quantifier": "every Unicode string", "why_tests_cant": "Unbounded strings; leading zeros, signs and whitespace.", "anchors": ["src/util.rs:parse_str_to_u16"]}
{"id": "C07", "title": "Leading zero bytes are trimmed, never to nothing", "statement": "trim_leading_0_bytes removes only a prefix of 0x00 bytes, leaves an empty sequence empty and a non-empty sequence non-empty, preserves the big-endian value, and the result does not start with 0x00 unless it is the single byte 0x00.", "quantifier": "every byte sequence", "why_tests_cant": "Unbounded length.", "anchors": ["src/util.rs:trim_leading_0_bytes"]}
{"id": "C08", "title": "Decimal digit count", "statement": "num_dec_digits(n) is the number d of decimal digits of n: d=1 for n<10 and 10^(d-1) <= n < 10^d otherwise.", "quantifier": "every u32 value", "why_tests_cant": "4 billion inputs.", "anchors": ["src/util.rs:num_dec_digits"]}
{"id": "C09", "title": "The BER-TLV parser never panics and always terminates (64-bit)", "statement": "On a 64-bit target, with or without overflow checks, parsing any byte sequence with any masking characters returns either a block or a ParseError: no slice or arithmetic panic and no endless loop, at any nesting depth.", "quantifier": "every byte sequence shorter than 2^63 and every list of masking characters", "why_tests_cant": "Index arithmetic panics hide in corner cases; the changelog records one such fixed panic.", "anchors": ["src/emv/tlv_parsing/ber_tlv.rs:parse", "src/emv/tlv_parsing/ber_tlv.rs:get_child_block", "src/emv/tlv_parsing/ber_tlv.rs:parse_tag_metadata"]}
{"id": "C10", "title": "Panic freedom depends on a pointer wider than 32 bits", "statement": "On a 32-bit target the same source panics on a 6-byte BER-TLV input (91 84 FF FF FF FF followed by data) in both build modes, and on a short Ingenico input with length FFFFFFFF; the sum index+length does not fit usize there.", "quantifier": "existence of inputs, per target width and build mode", "why_tests_cant": "No test runs on a 32-bit target.", "anchors": ["src/emv/tlv_parsing/ber_tlv.rs:parse", "src/emv/tlv_parsing/ingenico_tlv.rs:parse"]}
{"id": "C11", "title": "The BER-TLV parser accepts exactly the documented grammar", "statement": "parse(bytes) returns nodes exactly when bytes is a sequence of objects, each consisting of a tag (first byte, plus continuation bytes when its low five bits are all ones, up to and including the first with top bit clear), a length (one byte below 0x80, or 0x80+k followed by k<=4 big-endian bytes and at least one more input byte) and that many value bytes; the nodes returned are exactly the tags and values of that sequence, in order.", "quantifier": "every byte sequence and every result", "why_tests_cant": "An if-and-only-if over an infinite language.", "anchors": ["src/emv/tlv_parsing/ber_tlv.rs:parse"]}
{"id": "C12", "title": "BER-TLV encode/parse round trip", "statement": "For every forest of tags (any nesting depth) whose tags are well formed and whose encoded values are shorter than 2^32 bytes, parsing its standard encoding, with any choice of the permitted length forms followed by more data, returns exactly that forest with the right class, type, value and children.", "quantifier": "every forest of TLV objects", "why_tests_cant": "Infinite set of trees, unbounded depth and sizes.", "anchors": ["src/emv/tlv_parsing/ber_tlv.rs:parse"]}
{"id": "C13", "title": "BER-TLV parsing loses nothing", "statement": "If parsing succeeds with no masking characters, concatenating tag, a length field of the announced value, and value of the top-level nodes reproduces the input bytes exactly.", "quantifier": "every accepted byte sequence", "why_tests_cant": "Quantifies over all accepted inputs.", "anchors": ["src/emv/tlv_parsing/ber_tlv.rs:parse"]}
{"id": "C14", "title": "BER-TLV parsing is compositional", "statement": "If parsing a succeeds with nodes na then parsing a followed by b gives na followed by the nodes of b, and fails with b's error if b fails.", "quantifier": "every pair of byte sequences", "why_tests_cant": "Universally quantified over pairs.", "anchors": ["src/emv/tlv_parsing/ber_tlv.rs:parse"]}
{"id": "C15", "title": "Truncated BER-TLV is always detected", "statement": "Cutting a single accepted object anywhere strictly inside it yields NonCompliant; so no proper prefix that ends inside an object is accepted.", "quantifier": "every accepted object and every cut point", "why_tests_cant": "Every cut point of every object.", "anchors": ["src/emv/tlv_parsing/ber_tlv.rs:parse"]}
{"id": "C16", "title": "BER-TLV errors are classified", "statement": "parse fails with Unsupported exactly when, after a sequence of complete objects, the next object has a complete tag and announces more than four length bytes; every other failure is NonCompliant; no other error kind is returned.", "quantifier": "every byte sequence", "why_tests_cant": "All rejected inputs.", "anchors": ["src/emv/tlv_parsing/ber_tlv.rs:parse"]}
{"id": "C17", "title": "A zero-length value in long form is rejected at the end of the input", "statement": "An object with zero-length value written in the long form (81 00) is accepted when more data follows it but rejected as NonCompliant as the last object, although the short form (00) is accepted in both places: the parser does not accept every valid BER-TLV encoding.", "quantifier": "every well-formed tag, every number of zero length bytes up to four (more are Unsupported, C16), every continuation and every data in front", "why_tests_cant": "The tests never use a long-form zero length.", "anchors": ["src/emv/tlv_parsing/ber_tlv.rs:parse"]}
{"id": "C18", "title": "Tag class and type come from the first tag byte", "statement": "parse_tag_metadata never panics; class is the value of the two top bits and the type is Constructed exactly when bit 6 is set, for BER-TLV, Ingenico and --identify alike.", "quantifier": "every first byte", "why_tests_cant": "256 values, and the use at three call sites for all inputs.", "anchors": ["src/emv/tlv_parsing/ber_tlv.rs:parse_tag_metadata", "src/emv/tag_basic_info.rs:TagBasicInfo"]}
{"id": "C19", "title": "Only unmasked constructed tags have children, and they are the parse of the value", "statement": "At every level of a parsed tree (BER-TLV or Ingenico) a node's children are exactly the nodes obtained by BER-TLV parsing its value when it is constructed, unmasked and that parse succeeds, and are empty otherwise; a failing inner parse never fails the outer one.", "quantifier": "every parsed input and every node at every depth", "why_tests_cant": "Holds at unbounded depth.", "anchors": ["src/emv/tlv_parsing/ber_tlv.rs:get_child_block", "src/emv/tlv_parsing/ingenico_tlv.rs:parse"]}
{"id": "C20", "title": "Parse trees are linear in the input", "statement": "A BER-TLV parse of n bytes yields at most n/2 nodes in total over all levels and nesting depth at most n/2.", "quantifier": "every accepted byte sequence", "why_tests_cant": "Unbounded sizes.", "anchors": ["src/emv/tlv_parsing/ber_tlv.rs:parse"]}
{"id": "C21", "title": "Masking detection is exact", "statement": "Data is reported as masked exactly when it has at least two bytes and all its characters are equal to one of the masking characters (byte values compare as Latin-1 characters); with no masking characters nothing is masked. Every object of a BER-TLV block and every field of an Ingenico block is reported by this rule: BER-TLV compares the bytes of the value, an Ingenico text field its characters, an Ingenico hex field its digits (so the two formats can disagree on the same value, proved as refutations).", "quantifier": "every data, every list of masking characters, every block and every field", "why_tests_cant": "All data and character lists.", "anchors": ["src/emv/tlv_parsing/mod.rs:is_masked_u8", "src/emv/tlv_parsing/mod.rs:is_masked_str", "src/emv/tlv_parsing/mod.rs:EmvData"]}
{"id": "C22", "title": "Masked values are never interpreted", "statement": "A masked tag is never decoded to a parsed value, has no children, is displayed as '?? bytes' with '* Masked *', and its processing never fails, whatever the tag.", "quantifier": "every tag, every masked node in every parsed input", "why_tests_cant": "For all tags and inputs.", "anchors": ["src/emv/tlv_parsing/mod.rs:parse_raw", "src/emv/tlv_parsing/mod.rs:parse_raw_unrecognised", "src/emv/tlv_parsing/process_emv_tag.rs:process_emv_tag"]}
{"id": "C23", "title": "The Ingenico parser never panics and always terminates (64-bit)", "statement": "On a 64-bit target, with or without overflow checks, parsing any string with any masking characters returns a block or a ParseError.", "quantifier": "every Unicode string shorter than 2^62 bytes, every masking list", "why_tests_cant": "Index arithmetic over all strings.", "anchors": ["src/emv/tlv_parsing/ingenico_tlv.rs:parse"]}
{"id": "C24", "title": "The Ingenico parser accepts exactly the documented grammar", "statement": "parse succeeds exactly on ASCII texts that are a sequence of fields 'type tag : length : format data' separated by one arbitrary character each, the last separator being optional, with tag and length in hex, format a or h and data of the announced length (hex pairs or all-mask for h), and the nodes are exactly those of the fields with type T.", "quantifier": "every Unicode string and every result", "why_tests_cant": "If-and-only-if over an infinite language.", "anchors": ["src/emv/tlv_parsing/ingenico_tlv.rs:parse"]}
{"id": "C25", "title": "Ingenico encode/parse round trip", "statement": "For every list of tag/value pairs written in Ingenico form (hex or ASCII, any case, any leading zero bytes in the tag, any separators) parsing returns exactly those tags and values in order.", "quantifier": "every list of tag/value pairs, every choice of separators and formats", "why_tests_cant": "Infinite set.", "anchors": ["src/emv/tlv_parsing/ingenico_tlv.rs:parse"]}
{"id": "C26", "title": "Ingenico: non-EMV fields are skipped without side effects", "statement": "Inserting or removing well-formed fields whose type letter is not T does not change the nodes returned.", "quantifier": "every accepted text and every inserted field", "why_tests_cant": "All texts and positions.", "anchors": ["src/emv/tlv_parsing/ingenico_tlv.rs:parse"]}
{"id": "C27", "title": "Ingenico: the separator character is irrelevant", "statement": "Replacing any separator by any other ASCII character, or adding or removing one trailing separator, does not change the result.", "quantifier": "every accepted text, every separator character", "why_tests_cant": "All texts.", "anchors": ["src/emv/tlv_parsing/ingenico_tlv.rs:parse"]}
{"id": "C28", "title": "Truncated Ingenico text is always detected", "statement": "Cutting a single field anywhere strictly inside it gives an error, never a shorter success.", "quantifier": "every accepted field and every cut point", "why_tests_cant": "Every cut.", "anchors": ["src/emv/tlv_parsing/ingenico_tlv.rs:parse"]}
{"id": "C29", "title": "Ingenico length and tag fields silently drop an odd hex digit", "statement": "A length field with an odd number of digits is read without its last digit (so length '8' means 0) and a tag field likewise; the parser accepts such text instead of rejecting it. With even digit counts the announced length is the value of the field.", "quantifier": "every hex length field", "why_tests_cant": "Never exercised by tests.", "anchors": ["src/emv/tlv_parsing/ingenico_tlv.rs:parse", "src/util.rs:parse_hex_str_strict"]}
{"id": "C30", "title": "The two TLV formats agree", "statement": "Any list of well-formed tag/value pairs gives the same raw block whether it is written in BER-TLV and parsed by the BER-TLV parser or written in Ingenico hex form and parsed by the Ingenico parser (no masking).", "quantifier": "every list of tag/value pairs", "why_tests_cant": "Relates two parsers on all inputs.", "anchors": ["src/emv/tlv_parsing/ber_tlv.rs:parse", "src/emv/tlv_parsing/ingenico_tlv.rs:parse"]}
{"id": "C31", "title": "Automatic detection is deterministic and never misreads hex as Ingenico", "statement": "auto parse returns Ingenico exactly when the Ingenico parser accepts a non-empty text; text without ':' is never taken as Ingenico, so any BER-TLV hex dump is parsed as BER-TLV with the same block as --ber-tlv; the only error is Unrecognised.", "quantifier": "every Unicode string", "why_tests_cant": "All strings.", "anchors": ["src/emv/tlv_parsing/auto_tlv.rs:parse"]}
{"id": "C32", "title": "Automatic detection accepts text that holds no data", "statement": "The empty string is rejected, but every non-empty text with fewer than two hex digits that is not Ingenico is accepted as an empty BER-TLV block; so success does not imply that any data was found.", "quantifier": "every string with fewer than two hex digits", "why_tests_cant": "Only the empty string is tested.", "anchors": ["src/emv/tlv_parsing/auto_tlv.rs:parse"]}
{"id": "C33", "title": "Processing preserves the data", "statement": "Processing a raw block keeps every raw tag (bytes, class, type, data) and the whole tree shape unchanged: stripping the annotations from the result gives the input back.", "quantifier": "every raw block", "why_tests_cant": "Trees of any size.", "anchors": ["src/emv/tlv_parsing/mod.rs:ProcessedEmvBlock", "src/emv/tlv_parsing/mod.rs:ProcessedEmvNode", "src/emv/tlv_parsing/process_emv_tag.rs:process_emv_tag"]}
{"id": "C34", "title": "Processing fails exactly when some tag fails, with the first failure", "statement": "ProcessedEmvBlock::try_from succeeds exactly when every tag at every depth can be processed; otherwise it returns the error of the first failing tag in depth-first order, a parent being before its children.", "quantifier": "every raw block", "why_tests_cant": "Trees of any size.", "anchors": ["src/emv/tlv_parsing/mod.rs:ProcessedEmvBlock", "src/emv/tlv_parsing/mod.rs:ProcessedEmvNode"]}
{"id": "C35", "title": "Names come from the tag table", "statement": "A processed tag carries the name identify_tag gives for its tag bytes (no name exactly when the tag is unknown), except that an unrecognised 8A, 9C or 9F10 value gets the corresponding unrecognised name.", "quantifier": "every raw tag", "why_tests_cant": "All tags and data.", "anchors": ["src/emv/tlv_parsing/process_emv_tag.rs:identify_tag", "src/emv/tlv_parsing/process_emv_tag.rs:process_emv_tag"]}
{"id": "C36", "title": "Exactly which tags can make processing fail", "statement": "Processing a tag fails only for the tags with a dedicated parser, only when unmasked, and exactly when that parser rejects the data; unrecognised authorisation response codes and transaction types and non-CCD issuer application data never fail for that reason, but an unknown terminal type or POS entry mode does abort the whole block.", "quantifier": "every raw tag", "why_tests_cant": "All tags and data.", "anchors": ["src/emv/tlv_parsing/process_emv_tag.rs:process_emv_tag"]}
{"id": "C37", "title": "Sorting is a recursive stable sort by tag bytes", "statement": "sort_nodes orders siblings at every level by the lexicographic order of tag bytes, keeps equal tags in their original order, only permutes siblings (nothing is lost, added or moved to another parent) and is idempotent; the result is the only list with these properties.", "quantifier": "every processed block", "why_tests_cant": "Trees of any size.", "anchors": ["src/emv/tlv_parsing/mod.rs:ProcessedEmvBlock::sort_nodes", "src/emv/tlv_parsing/mod.rs:RawEmvTag::cmp"]}
{"id": "C38", "title": "Ordering versus equality of tags", "statement": "Two raw tags compare Equal exactly when their tag bytes are equal, which is weaker than being equal: Ord is not consistent with Eq when the values differ.", "quantifier": "every pair of raw tags", "why_tests_cant": "All pairs.", "anchors": ["src/emv/tlv_parsing/mod.rs:RawEmvTag"]}
{"id": "C39", "title": "The tag table only holds well-formed BER tags with distinct entries", "statement": "Every tag that identify_tag knows is a complete BER tag, so the BER parser can return it, TagBasicInfo succeeds on every non-empty tag with the table name and the class and type of the first byte, and fails only on an empty tag.", "quantifier": "every byte sequence", "why_tests_cant": "All tags.", "anchors": ["src/emv/tlv_parsing/process_emv_tag.rs:identify_tag", "src/emv/tag_basic_info.rs:TagBasicInfo"]}
{"id": "C40", "title": "Bit field values: length check", "statement": "Every bit field parser (TVR, TSI, terminal capabilities, additional terminal capabilities, CVR, CCI, CV rule, CVM results) fails with ByteCountIncorrect{Equal, n, found} exactly when the length differs from n; TVR, TSI, both capabilities, CVR and CV rule accept every value of the right length.", "quantifier": "every byte sequence", "why_tests_cant": "2^40 values and all lengths.", "anchors": ["src/macros.rs:bitflag_value"]}
{"id": "C41", "title": "Bit field values: parse then serialise masks unused bits", "statement": "For TVR, TSI, both capabilities, CVR and CCI, get_binary_representation of the parsed value is the input with exactly the unused (RFU) bits cleared.", "quantifier": "every accepted byte sequence", "why_tests_cant": "2^40 values.", "anchors": ["src/macros.rs:bitflag_value", "src/emv/bitflag_values.rs:BitflagValue"]}
{"id": "C42", "title": "Bit field values: two inputs parse equal exactly when they agree on used bits", "statement": "For those types parsing is injective on used bits and insensitive to unused ones, and parsing the binary representation of a parsed value gives the value back.", "quantifier": "every pair of byte sequences", "why_tests_cant": "2^80 pairs.", "anchors": ["src/macros.rs:bitflag_value"]}
{"id": "C43", "title": "Bit meanings follow the EMV tables", "statement": "Each field of TVR, TSI, terminal capabilities, additional terminal capabilities and CVR is true exactly when its EMV-specified bit of its EMV-specified byte is set (or equals that bit group).", "quantifier": "every byte sequence of the right length, every field", "why_tests_cant": "Tests only check that single bits give distinct structs, not which field they set.", "anchors": ["src/emv/tvr.rs", "src/emv/tsi.rs", "src/emv/terminal_capabilities.rs", "src/emv/additional_terminal_capabilities.rs", "src/emv/ccd/cvr.rs"]}
{"id": "C44", "title": "Bit display information is exact", "statement": "get_bit_display_information lists, from left to right, exactly one range per set flag and one per multi-bit field, with the offset of its top bit and its width; ranges are disjoint, in strictly decreasing order and inside the value.", "quantifier": "every parsed value", "why_tests_cant": "2^40 values.", "anchors": ["src/macros.rs:bitflag_value"]}
{"id": "C45", "title": "Severities are those declared", "statement": "The severity attached to each displayed range is the one declared for the field; CVM results show Error exactly when the result is Failed.", "quantifier": "every parsed value", "why_tests_cant": "All values.", "anchors": ["src/macros.rs:bitflag_value", "src/emv/cvm_results.rs"]}
{"id": "C46", "title": "CV rules round-trip except unknown codes", "statement": "A CV rule parses for every 2 bytes; its binary representation is the input without the top bit exactly when method and condition codes are known; an unknown method or condition is shown with all-zero bits.", "quantifier": "every pair of bytes", "why_tests_cant": "65536 pairs and every use in lists.", "anchors": ["src/emv/cv_rule/mod.rs", "src/emv/cv_rule/cv_method.rs", "src/emv/cv_rule/cvm_condition.rs"]}
{"id": "C47", "title": "CVM results", "statement": "CVM results parse exactly for 3 bytes with a result byte of at most 2; the rule is that of the first two bytes and display offsets are shifted by one byte.", "quantifier": "every byte sequence", "why_tests_cant": "All inputs.", "anchors": ["src/emv/cvm_results.rs"]}
{"id": "C48", "title": "CVM lists", "statement": "A CVM list parses exactly when it has 8+2k bytes; X and Y are the big-endian first and second four bytes and rule i is the CV rule of bytes 8+2i and 9+2i; shorter input and odd length give their own errors.", "quantifier": "every byte sequence", "why_tests_cant": "Unbounded number of rules.", "anchors": ["src/emv/cvm_list.rs"]}
{"id": "C49", "title": "Issuer application data", "statement": "IAD parses exactly when it has 32 bytes, bytes 0 and 16 are 0x0F and byte 1 is A5 or A6; every other input is NonCcdCompliant (never another error), and the fields are the documented byte ranges.", "quantifier": "every byte sequence", "why_tests_cant": "256-bit inputs.", "anchors": ["src/emv/ccd/iad.rs", "src/emv/ccd/cci.rs"]}
{"id": "C50", "title": "Issuer action codes are TVRs with the EMV defaults", "statement": "IAC Denial, Online and Default parse exactly like TVR; their defaults do not panic and have all bits clear for Denial and all defined bits set for the other two.", "quantifier": "every byte sequence", "why_tests_cant": "All inputs.", "anchors": ["src/emv/iac/denial.rs", "src/emv/iac/online.rs", "src/emv/iac/default.rs"]}
{"id": "C51", "title": "Service codes follow ISO/IEC 7813", "statement": "ServiceCode::try_from(n) succeeds exactly for n<=999 and each position is interpreted as in the reference chart; the two-byte form accepts exactly BCD 00 00 to 09 99 and agrees with the numeric form.", "quantifier": "every u16 and every byte sequence", "why_tests_cant": "65536 numbers and all byte sequences.", "anchors": ["src/non_emv/service_code.rs", "references/ServiceCodeChart.jpg"]}
{"id": "C52", "title": "Enumerations: codes and variants correspond", "statement": "For each enum with discriminants, try_from(code) gives a variant exactly for the listed codes, converting back gives the code, and every variant is reached; otherwise the declared error is returned.", "quantifier": "every u8 code of every enum", "why_tests_cant": "All codes of all enums.", "anchors": ["src/macros.rs:enum_repr_fallible", "src/macros.rs:enum_no_repr_fallible", "src/macros.rs:enum_no_repr_infallible"]}
{"id": "C53", "title": "Authorisation response codes", "statement": "The byte parser requires exactly two bytes, fails with InvalidNumber exactly when they are not UTF-8, with Unrecognised when they are not a listed code, and never panics.", "quantifier": "every byte sequence", "why_tests_cant": "65536 pairs and all lengths.", "anchors": ["src/emv/authorisation_response_code.rs"]}
{"id": "C54", "title": "Bit diagrams line up", "statement": "In the printed breakdown of every bit field value, the elbow of each explanation line stands in the same column as the field's first bit in the printed binary line, vertical bars stand exactly under the fields still to be explained, and for multi-bit fields the header arms span exactly the field's bits; the u8 arithmetic never overflows.", "quantifier": "every bit field value and indentation", "why_tests_cant": "Display code is excluded from the tests altogether.", "anchors": ["src/emv/bitflag_values.rs:display_breakdown"]}
{"id": "C55", "title": "Hex dumps are faithful", "statement": "print_bytes output read back with parse_hex_str gives the bytes; print_bytes_pretty prints lines of at most 16 bytes whose hex column reads back to the bytes and whose ASCII column starts at the same column on every line and shows printable bytes as themselves and others as '.'.", "quantifier": "every byte sequence, indentation and line width", "why_tests_cant": "Display code is excluded from the tests.", "anchors": ["src/util.rs:print_bytes", "src/util.rs:print_bytes_pretty", "src/util.rs:print_bytes_small"]}
{"id": "C56", "title": "Colours are always reset", "statement": "Every successful display ends with the terminal colour reset: each set_color is followed by a reset before the output ends, for every value.", "quantifier": "every displayed value", "why_tests_cant": "Excluded from tests.", "anchors": ["src/output_colours.rs", "src/emv/bitflag_values.rs:display_breakdown", "src/emv/tlv_parsing/mod.rs:display_breakdown"]}
{"id": "C57", "title": "Action codes are shown without severity colours", "statement": "Displaying an IAC never uses the warning or error colours, while a TVR uses yellow exactly for Warning and red exactly for Error ranges.", "quantifier": "every value", "why_tests_cant": "Excluded from tests.", "anchors": ["src/emv/iac/denial.rs", "src/emv/bitflag_values.rs:display_breakdown"]}
{"id": "C58", "title": "Indentation is applied to every line", "statement": "Every non-empty line printed by display_breakdown(indentation) starts with at least indentation tabs and every line ends with a newline, for every displayable value and block whose nested lines stay below 256 tabs (the trait's documented contract), and after its tabs a line holds only printable ASCII and the five box drawing characters of the diagrams; without that bound a build without overflow checks prints lines with too few tabs.", "quantifier": "every value and indentation", "why_tests_cant": "Excluded from tests.", "anchors": ["src/main.rs:DisplayBreakdown"]}
{"id": "C59", "title": "Indentation overflows on deeply nested data", "statement": "A block displayed at an indentation panics exactly when the build checks overflow and the indentation plus the block's deepest extra indentation reaches 256, and then the first tag has already been printed; without overflow checks everything is printed with the tabs counted modulo 256. Blocks nested at most 254 levels never overflow from indentation 0, blocks nested at least 257 levels always do, and a byte input with such nesting exists.", "quantifier": "every processed block", "why_tests_cant": "Needs a 256-level input.", "anchors": ["src/emv/tlv_parsing/mod.rs:ProcessedEmvNode::display_breakdown"]}
{"id": "C60", "title": "Output is all or nothing", "statement": "Every run of the program that neither panics nor prints help either prints a complete breakdown to stdout and nothing to stderr, or prints nothing to stdout and exactly one error message of one line to stderr. (It may also print nothing at all: exactly for a TLV text that holds no data.)", "quantifier": "every operation and input string", "why_tests_cant": "All inputs of all operations.", "anchors": ["src/main.rs:main"]}
{"id": "C61", "title": "Operations dispatch to their parser", "statement": "Each operation option shows exactly the breakdown of the value its parser yields for the hex-decoded (or decimal) argument; when no operation is given only help is printed.", "quantifier": "every command line", "why_tests_cant": "All arguments.", "anchors": ["src/main.rs:main"]}
{"id": "C62", "title": "Configuration precedence", "statement": "Settings come from the defaults, overridden by the configuration file's selected profile, overridden by environment variables; a CLI argument is applied only if the user gave it. The documented claim that CLI arguments override environment variables depends on the profile into which figment puts a (key, value) provider.", "quantifier": "every combination of defaults, file, environment and arguments", "why_tests_cant": "All combinations of layers.", "anchors": ["src/config/mod.rs"]}
{"id": "C63", "title": "Colour choice conversions", "statement": "Colour names and termcolor choices round-trip, reading is case-insensitive and rejects all other text with Unsupported; 'auto' becomes 'never' exactly when stdout is not a terminal and explicit choices are unaffected.", "quantifier": "every string and choice", "why_tests_cant": "All strings.", "anchors": ["src/config/colour_choice.rs"]}
{"id": "C64", "title": "The program never panics", "statement": "On a 64-bit target with a valid configuration every command line whose data nests at most 254 levels runs to completion without panicking; deeper data panics exactly as C59 says.", "quantifier": "every command line", "why_tests_cant": "All inputs of all operations.", "anchors": ["src/main.rs:main"]}
{"id": "C65", "title": "Error messages are distinguishable", "statement": "Different kinds of ParseError print different messages, the byte-count message determines comparison, expected and found counts, and the message printed for a refused argument is word for word the documented one.", "quantifier": "every pair of errors", "why_tests_cant": "Unbounded numbers.", "anchors": ["src/error.rs:ParseError"]}
{"id": "C66", "title": "Equality of processed blocks looks only at the raw data", "statement": "Two processed blocks are equal (==) exactly when their trees of raw tags are equal; names and decoded values are not compared, so blocks processed from raw blocks are equal exactly when the raw blocks are.", "quantifier": "every pair of processed blocks", "why_tests_cant": "Trees of any size.", "anchors": ["src/emv/tlv_parsing/mod.rs:ProcessedEmvTag::eq", "src/emv/tlv_parsing/mod.rs:ProcessedEmvBlock"]}
{"id": "C67", "title": "Sorting keeps every tag", "statement": "Sorting a block keeps every processed tag at every depth with the same multiplicity: nothing is lost, duplicated or altered.", "quantifier": "every processed block", "why_tests_cant": "Trees of any size.", "anchors": ["src/emv/tlv_parsing/mod.rs:ProcessedEmvBlock::sort_nodes"]}
{"id": "C68", "title": "What is on the screen, line by line", "statement": "Every decoded value and every processed block, sorted or not, is displayed as exactly the lines given by a small independent description of the layout: which text stands on which line, with how many tabs, and in which colour.", "quantifier": "every value and block that parsing and processing can produce, every indentation and both colour modes", "why_tests_cant": "Display code is excluded from the tests; trees of any size.", "anchors": ["src/emv/cvm_list.rs:display_breakdown", "src/emv/tlv_parsing/mod.rs:display_breakdown", "src/util.rs", "src/emv/bitflag_values.rs"]}
{"id": "C69", "title": "Every spelling of an option means the same", "statement": "Each short option, long option and alias of the command line belongs to exactly one option, replacing one spelling by another of the same option never changes what the program does, each spelling of an operation runs that operation on its argument, and any other spelling is a usage error.", "quantifier": "every command line (sequence of option occurrences), environment and configuration", "why_tests_cant": "The repository has no test that runs the program; the claim is about every pair of spellings in every command line.", "anchors": ["src/cli.rs:build_cli", "src/main.rs:main"]}
{"id": "C70", "title": "The order of the options does not matter", "statement": "Permuting the options of a command line that does not ask for help or the version never changes what the program does. (With --help or --version in the line the order does matter; this is proved as a refutation.)", "quantifier": "every command line without help or version, every permutation of it, every environment", "why_tests_cant": "All permutations of command lines of any length; masking characters accumulate over occurrences and are the only order-sensitive part.", "anchors": ["src/cli.rs:build_cli", "src/main.rs:main", "src/config/mod.rs:apply_cli_arguments"]}
{"id": "C71", "title": "Exactly which command lines are accepted, and what they do", "statement": "A command line without help or version is accepted exactly when it is not empty, every option is known and given values it takes, no option but the masking one is repeated, at most one operation is asked for, --sort and --no-sort are not combined, and masking and sorting options come with a TLV operation. An accepted line shows the breakdown of its operation under the settings in force, or the error message, or the help if there is no operation; a rejected one is a usage error.", "quantifier": "every command line, environment and configuration file", "why_tests_cant": "Unbounded combinations of options; nothing in the repository tests the program as a whole.", "anchors": ["src/cli.rs:build_cli", "src/main.rs:main", "src/config/mod.rs"]}
{"id": "C72", "title": "The exit status", "statement": "The exit status is 2 exactly for rejected command lines, 101 exactly when the program panics and otherwise 0; in particular it is 0 when the value was refused with an error message, so a script cannot tell a refusal from a display by it (proved as a refutation).", "quantifier": "every command line, environment and configuration", "why_tests_cant": "Quantifies over every run of the program.", "anchors": ["src/main.rs:main", "src/cli.rs:build_cli"]}
{"id": "C73", "title": "From raw bytes to the screen", "statement": "For every operation and every argument the lines on the screen (text, tabs and colours) are those that an independent description derives directly from the argument's bytes with the EMV tables: bit diagrams, code texts, CVM rules, service codes, tag names, hex dumps, nesting and sorting. Every argument has exactly one such sheet or is refused for exactly one reason, and a run panics exactly when overflow is checked and a line of the sheet is indented by 256 tabs or more.", "quantifier": "every operation, argument, set of masking characters, sorting choice, environment and build mode", "why_tests_cant": "Covers all inputs end to end, from the typed text to every character and colour on the screen; the tests of the repository check single parsers on a few literals and never look at the output.", "anchors": ["src/main.rs:main", "src/output_colours.rs", "src/emv/tlv_parsing/mod.rs:DisplayBreakdown", "src/emv/tlv_parsing/process_emv_tag.rs"]}
{"id": "C74", "title": "More masking characters only hide", "statement": "Giving more masking characters never makes a BER-TLV or Ingenico block unreadable and changes nothing but what is hidden: in a BER-TLV tree exactly the values that consist of one masking character become masked, without children, and every other tag, value and the order stay the same; an Ingenico tree loses values only in this way, or at the top level because all hex digits of the value are the same masking character; a block that could be processed and displayed still can. Two blocks that differ only in masked top-level values give the same tree. Auto-detection can newly refuse a block, and values masked inside a constructed value still show through its dump (both proved as refutations).", "quantifier": "every block, every two lists of masking characters of which one includes the other, every platform", "why_tests_cant": "Relates two runs of the program on every block at every nesting depth; the tests use one masking character on fixed literals.", "anchors": ["src/emv/tlv_parsing/ber_tlv.rs", "src/emv/tlv_parsing/ingenico_tlv.rs", "src/emv/tlv_parsing/mod.rs:EmvData", "src/main.rs:main"]}
{"id": "C75", "title": "Only the digits of a value matter", "statement": "For the operations that take hex, two argument texts give the same bytes exactly if their hex digits agree up to letter case and a last unpaired digit, and then the whole run (output, message, exit) is the same whatever else is on the command line; for the service code the same holds for texts that denote the same number. Hex digits in front of the value count: a 0x prefix shifts the digits and letters of other words are read as digits (both proved as refutations).", "quantifier": "every pair of texts, command line, environment and build mode", "why_tests_cant": "Relates two complete runs for all texts and all command lines.", "anchors": ["src/util.rs:parse_hex_str", "src/util.rs:parse_str_to_u16", "src/main.rs:main", "src/cli.rs:build_cli"]}
{"id": "C76", "title": "Automatic detection only chooses a format", "statement": "Automatic detection shows the format found followed by exactly what the operation for that format shows, choosing Ingenico whenever the text is an Ingenico block and BER-TLV otherwise; it refuses a text exactly if it is empty or of neither format, or for the very reason for which the operation for the format found refuses it.", "quantifier": "every text, set of masking characters, sorting choice and platform", "why_tests_cant": "Relates the runs of different operations on every text.", "anchors": ["src/emv/tlv_parsing/auto_tlv.rs:parse", "src/main.rs:main"]}
{"id": "C77", "title": "The bytes sent to the terminal", "statement": "Whatever the argument, stdout and stderr carry only printable ASCII, the five box drawing characters, tabs, line ends and (with colours) the program's own colour sequences, so no input can smuggle control sequences into the terminal. A UTF-8 terminal that understands the colour sequences shows exactly the characters, weights and colours of the sheet and is left in its plain style, even if the run panics (then it has shown a first part of the sheet). Colours are sent exactly if they are forced, or on automatic with a terminal whose TERM is set and not dumb and NO_COLOR unset; otherwise stdout is exactly the UTF-8 text of the lines without a single escape byte.", "quantifier": "every operation, argument, environment, terminal variables and build mode", "why_tests_cant": "A test sees single outputs; that no argument at all produces a control byte, and that colours never change the text, needs all inputs.", "anchors": ["src/main.rs:main", "src/config/colour_choice.rs:change_based_on_tty", "src/emv/bitflag_values.rs:display_breakdown", "src/util.rs:print_bytes_pretty"]}
{"id": "C78", "title": "Options can be written in every usual way, and a value is taken exactly when it can be one", "statement": "`--name value`, `--name=value`, `-n value`, `-nvalue` and `-n=value` mean the same for every option and every text for which they can be written, and no sequence of words means two things. Unless help or version is asked for, the order of the options does not matter either. Every non-empty text can be given to every operation with `=`. A word that starts with a hyphen (other than `-` itself) is never taken as a separate value: an option that needs a value and finds none, `--colour` included, is a usage error. After `--` no word is accepted. Words that fit nowhere are a usage error.", "quantifier": "all sequences of words (Unicode strings), all options and spellings, all environments and platforms", "why_tests_cant": "The sequences of words and the texts are unbounded; tests show single spellings.", "anchors": ["src/cli.rs:18-317", "src/main.rs:103-105"]}
{"id": "C79", "title": "From the words typed to what the program does", "statement": "Without a word asking for help or the version, the program runs exactly when the words write an acceptable combination of options, and then with exactly the settings, operation and text those options say, displaying the breakdown of the text or reporting why it is refused; in all other cases it reports a usage error (or prints the help for want of arguments) with status 2. A word asking for help or the version wins over everything after it if the options before it are in order.", "quantifier": "all sequences of words, environments with a file (possibly empty), platforms", "why_tests_cant": "The property is about all command lines and all texts at once.", "anchors": ["src/main.rs:103-219", "src/cli.rs:18-317", "src/config/mod.rs:103-148"]}
{"id": "C80", "title": "What environment variables say", "statement": "A variable PEMV_CLI_COLOUR, PEMV_MASKING_CHARACTERS or PEMV_SORT_PARSED_TAGS (in any case of letters) sets the setting of that name to the value its text stands for; among several such variables the last one decides. PEMV_CONFIG names the configuration file and PEMV_PROFILE the profile. No other variable changes anything the program does. The texts that switch sorting are exactly true and false, those that choose colours exactly the colour names (bare or in quotes) and the numbers 0 to 3 (always, ansi, auto, never), those that choose masking characters exactly the bracketed lists of single characters; any other text in a setting not given on the command line makes the program panic. The order of the variables does not matter unless two names differ only in case (refuted without that proviso).", "quantifier": "all lists of variables with any names and texts, all files, command lines and platforms", "why_tests_cant": "Names and texts of variables are unbounded, and the irrelevance of every other variable is a statement about all of them.", "anchors": ["src/config/mod.rs:19-25", "src/config/mod.rs:69-87", "src/config/mod.rs:27-52"]}
{"id": "C81", "title": "From the words and variables to the bytes on the screen", "statement": "Given the words, the environment variables and the files, the settings of a run are those of the words, then the variables, then the file's global, selected and default profiles, then the built-in ones; the breakdown of the text under these settings is displayed (or the refusal reported), and the bytes written make the terminal show exactly the lines of the sheet, coloured if colours are asked for or if stdout is a terminal, NO_COLOR is not set and TERM is set to something other than dumb, and otherwise without any escape sequence.", "quantifier": "all words, variables, files, texts and platforms with 64-bit sizes", "why_tests_cant": "The whole program depends on its environment in unboundedly many ways; tests fix one environment.", "anchors": ["src/main.rs:103-219", "src/config/mod.rs:69-148", "src/cli.rs:18-317"]}
{"id": "C82", "title": "The screen tells all", "statement": "Two arguments of the same operation lead to the same characters on the screen, whatever the colours, exactly when they agree in everything the data says: for the operations on bytes, every bit in use, every byte, and every code the program knows; for a service code, its number; for TLV data, the detected format and every tag, value and nesting that is not masked, in order (in sorted order if sorting is on). Without masking and sorting, BER-TLV texts show the same exactly when they contain the same objects. Codes unknown to the program and reserved bits are not told apart (refuted for everything).", "quantifier": "all pairs of texts, masking characters, settings, nesting depths and platforms with 64-bit sizes", "why_tests_cant": "That no two different data look alike is a statement about all pairs of inputs; tests compare finitely many outputs.", "anchors": ["src/main.rs:123-214", "src/emv/bitflag_values.rs:73-179", "src/emv/cvm_list.rs:62-130", "src/emv/tlv_parsing/mod.rs:120-300", "src/non_emv/service_code.rs:123-150", "src/util.rs:1-200"]}
{"id": "C83", "title": "The same value looks the same everywhere", "statement": "A TVR, TSI, CVM result, CVM list, issuer application data or service code found anywhere in TLV data is shown under its tag with exactly the lines its own operation shows for it, moved to the right; if its own operation refuses it, the TLV data is refused with the same message (issuer application data is only named non-compliant instead). The content of a constructed object is shown exactly as it would be on its own, moved to the right, sorted or not. The name in front of an object is the one the identify operation gives for its tag.", "quantifier": "all TLV texts of every format, positions, nesting depths, values, masking characters and sort settings", "why_tests_cant": "It relates two runs of the program on unboundedly many inputs and positions; tests compare a few outputs by eye.", "anchors": ["src/main.rs:123-214", "src/emv/tlv_parsing/process_emv_tag.rs:1-200", "src/emv/tlv_parsing/mod.rs:60-300"]}
{"id": "C84", "title": "Reading takes at most quadratic work", "statement": "Reading n bytes of BER-TLV data, correct or not, passes over at most n*n/4 + n bytes in all the nested calls together, and the calls are at most n/2 + 1 deep; for n characters of Ingenico data the same with n + 1. Everything is passed over at least once, and the value of every unmasked constructed object once more; the calls are at least as deep as the tree. Both bounds have the right order: for every d there is an accepted input of at most 6d bytes that takes d(d+1) bytes of work and calls d deep (so linear work and a fixed depth are refuted).", "quantifier": "all inputs below 2^63 bytes, masking characters and platforms with 64-bit sizes", "why_tests_cant": "A bound on the work for every input cannot be measured on finitely many; the deep inputs that stress the recursion are exactly the ones tests do not contain.", "anchors": ["src/emv/tlv_parsing/ber_tlv.rs:13-119", "src/emv/tlv_parsing/ingenico_tlv.rs:28-139"]}
{"id": "C85", "title": "The nearest configuration file is used, and only its profile tables", "statement": "The configuration file is the one PEMV_CONFIG names (pemv.toml if unset): an absolute path is taken as it is; any other is looked for in the current directory and then in each directory above it, and the first file found is the only one used. It says what its profile tables say (profile names up to the case of letters, the last of two tables with the same name replacing the first). A file that is not there is the same as no file at all; files at other paths never matter; a directory without the file behaves like the one above it. If the file found is not valid TOML, or anything at its top is not a table (such as a setting outside of any profile), every run with an acceptable command line ends at once with status 101 and no output, whatever the files further up contain.", "quantifier": "all disks, current directories, file names, variables, words, inputs", "why_tests_cant": "Tests run in one directory of one disk; which of several files wins, that none of the others is read or merged, and that a mistyped name is silently ignored, concern every layout of files and every directory.", "anchors": ["src/config/mod.rs:69-76", "src/config/mod.rs:20-24", "src/main.rs:109-119"]}
{"id": "C86", "title": "A build that does not crash does what every other build does", "statement": "For inputs below 2^31 bytes, any two builds with pointers of at least 32 bits, with or without overflow checks, give the same result, the same exit status and the same bytes on stdout, unless one of them crashes: a length that does not fit never silently changes what is read. The one exception is Ingenico data in a 32-bit build without overflow checks, where doubling a hex length wraps around (refuted with data that only that build accepts). Not crashing is not implied: there are data that a 64-bit build shows and every 32-bit build crashes on.", "quantifier": "all pairs of builds, inputs below 2^31 bytes, masking characters, words, variables, files", "why_tests_cant": "Tests run in one build on one machine; the claim relates every build to every other for every input, including lengths that overflow only in some of them.", "anchors": ["src/emv/tlv_parsing/ber_tlv.rs:13-85", "src/emv/tlv_parsing/ingenico_tlv.rs:28-139", "src/emv/bitflag_values.rs:73-178", "src/emv/tlv_parsing/mod.rs:65-143"]}
{"id": "C87", "title": "Data put together from parts is shown part by part, and when sorted in any order", "statement": "If BER-TLV data made of whole objects (an even number of hex digits) or Ingenico fields each followed by a separator are followed by more data, the rest is read as if it stood alone. Without sorting the screen is the screen of the first part, a blank line, and the screen of the rest, so that adding objects never changes what is shown above them; what is wrong with the rest is reported for the whole. With sorting, exchanging two neighbouring parts that have no top-level tag in common does not change the screen at all (and hence neither does any reordering of such parts). For parts with a tag in common it does change (refuted): objects of one tag keep the order they came in.", "quantifier": "all TLV texts, positions, masking characters, settings, builds of 64 bits", "why_tests_cant": "Tests show single texts; that no pair of texts interacts, and that no order of any objects matters when sorting, relates all texts to each other.", "anchors": ["src/emv/tlv_parsing/ber_tlv.rs:13-85", "src/emv/tlv_parsing/ingenico_tlv.rs:28-139", "src/emv/tlv_parsing/mod.rs:65-143", "src/emv/tlv_parsing/mod.rs:57-63"]}
{"id": "C88", "title": "The output is at most quadratic in the argument", "statement": "For an argument of n characters at most n^2 + 34n + 64 lines are printed, whatever the operation, even by a run that panics. A single value takes at most n + 60 lines, and TLV data without nested objects at most 33n + 2. For nested objects no linear bound holds (refuted for every factor up to 2^20): the bytes of a value are dumped again at every level of nesting.", "quantifier": "all operations, arguments, masking characters, sorting, builds of 64 bits", "why_tests_cant": "Tests look at the output of fixed inputs; a bound in terms of the size concerns inputs of every size, and its growth rate cannot be seen from finitely many of them.", "anchors": ["src/emv/tlv_parsing/mod.rs:65-143", "src/emv/bitflag_values.rs:73-178", "src/emv/cvm_list.rs", "src/util.rs"]}
{"id": "C89", "title": "When stdout or stderr fails, what is shown is a beginning of the text and status 0 means all of it", "statement": "Writing to stdout may fail or take only some of the bytes at any call, and print! may cut its texts into any pieces. In every run the characters a terminal shows are a beginning of those printed. If a breakdown is shown and the exit status is 0, all characters are there; without colours every byte is. On a device that stays broken (a closed pipe, a full disk) the status is 0 exactly if all characters are there, otherwise 101, and what was taken is a beginning of the bytes. A device that takes at least a byte per call gets everything. For a refused argument the status is 0 exactly if the whole message was taken by stderr. With colours status 0 does not mean that every byte was taken: the terminal can be left bold (refuted). On a device that recovers, status 101 does not mean that anything is missing (refuted).", "quantifier": "all breakdowns and refusals, all sequences of answers of stdout and stderr, all ways of cutting texts into pieces, all builds of 64 bits", "why_tests_cant": "The answers of a device form infinitely many sequences and depend on timing; tests run with an stdout that always works.", "anchors": ["src/main.rs:121", "src/main.rs:160-217", "src/util.rs:120-200", "src/emv/bitflag_values.rs:73-178"]}
{"id": "C90", "title": "An argument that lost its end is refused or shows only what the whole would show", "statement": "If an argument that is shown is cut at any character: BER-TLV and Ingenico data is refused as malformed or every object shown is also shown, unchanged, for the whole; unsorted, the screen is a beginning of the whole's screen. TVR, CVR, TSI and CVM results are refused with the number of bytes found as soon as one byte is missing, CCD issuer application data as not compliant; otherwise the screen is the same. A CVM list is refused for its length or shown with the first of its rules. For a tag to identify, a service code, a CVM list's amounts and data whose format is found automatically this is false (refuted): what is left may be another value or format.", "quantifier": "all arguments of all operations, all places to cut at, all settings, all builds of 64 bits", "why_tests_cant": "There are infinitely many arguments and each can be cut anywhere; tests try a few.", "anchors": ["src/util.rs:15-35", "src/emv/tlv_parsing/ber_tlv.rs:13-127", "src/emv/tlv_parsing/ingenico_tlv.rs:28-145", "src/emv/cvm_list.rs:25-80", "src/main.rs:121-217"]}
{"id": "C91", "title": "What is copied from the screen into another command means there what it meant on the screen", "statement": "If the hexadecimal columns below \"Raw:\" of an object shown are selected (47 to 49 columns, with tabs and line ends) and given to the operation for that value, the lines shown are those below the object's \"Parsed:\"; only issuer application data shown without a meaning is refused as not compliant. The columns of a template given to BER-TLV show the lines below its child tags. The digits of a tag given to identify show the name shown beside the tag, except for the three objects titled by their value. Selecting whole lines with the readable column is not safe (refuted): letters there are read as digits.", "quantifier": "all TLV data, all objects at any depth, all settings, all commands, all builds of 64 bits", "why_tests_cant": "Relates two runs for all data of any length, any depth of nesting and any selection width allowed; tests try a few.", "anchors": ["src/util.rs:15-35", "src/util.rs:150-190", "src/emv/tlv_parsing/mod.rs:330-480", "src/main.rs:121-217"]}
{"id": "C92", "title": "A masked value at the top level leaves no trace in the output", "statement": "If an object whose value consists of a masking character is replaced by one with the same tag and any other masked value - another length, another masking character, another way to write the length, for Ingenico fields also the other format letter - the program's whole output and error message stay the same. What precedes it must be readable; what follows may be anything, readable or not. Inside a template this is false (refuted): the template's bytes are printed too. It is also false when the format is guessed (refuted): an Ingenico text that cannot be read is read again as hex digits, among them the digits of the length.", "quantifier": "all BER-TLV and Ingenico data around the object, all masked values, tags, settings and other options, all builds of 64 bits", "why_tests_cant": "Non-interference relates pairs of runs for all values of a secret and all surroundings; a test compares a few.", "anchors": ["src/emv/tlv_parsing/mod.rs:146-330", "src/emv/tlv_parsing/ber_tlv.rs:13-127", "src/emv/tlv_parsing/ingenico_tlv.rs:28-145", "src/main.rs:121-217"]}
{"id": "C93", "title": "Each setting changes only what it is for", "statement": "The colour setting changes nothing of what is printed: output, errors and panics are the same as long as masking and sorting agree. The operations on single values print the same under all settings. Sorting only moves lines: with and without it the same argument is refused with the same message, or exactly the same lines (text, tabs and colours, equally often) are shown in another order, or both runs panic. More masking characters bring no lines into the breakdown of BER-TLV or Ingenico data except those that stand in place of a masked value. A setting that an operation has no use for still has to be readable (refuted that it does not matter): the program panics otherwise.", "quantifier": "all environments, configuration files, command lines, arguments and builds of 64 bits", "why_tests_cant": "Non-interference compares pairs of runs for all inputs and all values of a setting; tests compare a few.", "anchors": ["src/main.rs:95-217", "src/emv/tlv_parsing/mod.rs:65-143", "src/emv/tlv_parsing/mod.rs:521-547"]}
{"id": "C94", "title": "A change inside templates stays there", "statement": "Data put into a template (a constructed object, as BER-TLV or as an Ingenico field) is shown exactly as it is shown alone, one step further in, below the line of the template, its dump and the heading of the child tags; sorted or not. If an object inside cannot be interpreted the whole is refused with the same message as that data alone; if the data inside is not BER-TLV only the dump is shown (refuted that it is refused). Without sorting, replacing an object at any depth changes its own lines and the lines and dumps of the templates around it, and every other line of the screen, before and after, stays as it was.", "quantifier": "all templates, nesting depths, surrounding data, masking characters, arguments and builds of 64 bits", "why_tests_cant": "The claim compares the screens of two arguments for every context of any depth; tests fix a few trees.", "anchors": ["src/emv/tlv_parsing/ber_tlv.rs:13-119", "src/emv/tlv_parsing/mod.rs:65-143", "src/emv/tlv_parsing/mod.rs:275-373"]}
{"id": "C95", "title": "What is shown depends on the data, not on how it is written", "statement": "Every well-formed text holds exactly one list of objects: tags, each with its value or the fact that it is masked. Two texts that hold the same objects are shown alike, or refused alike, whichever of them is hex digits of BER-TLV data (with any length bytes and anything between the digits) or Ingenico fields (with any separators, either format letter, leading zero bytes and fields of other types), given as such or recognised; apart from the line that announces a recognised format, everything the program does is the same. The other way round, two texts shown alike hold the same objects: unsorted in the same order, sorted up to their order. That the bytes of the values decide is false (refuted): two mask bytes written as hex digits are masked in BER-TLV data and not in an Ingenico field.", "quantifier": "all pairs of BER-TLV, Ingenico and recognised texts, all masking characters, sorted or not, all builds of 64 bits", "why_tests_cant": "It relates all ways of writing all data in two formats, in both directions; a test compares a few pairs.", "anchors": ["src/emv/tlv_parsing/ber_tlv.rs:13-127", "src/emv/tlv_parsing/ingenico_tlv.rs:28-145", "src/emv/tlv_parsing/auto_tlv.rs:1-110", "src/main.rs:121-217"]}
{"id": "C96", "title": "Words that are not text are never acted upon", "statement": "The words of a command line are bytes. If all are UTF-8, the program does what it does for the texts they write. Otherwise it never gets to reading or showing data, and never panics: up to the first word that is not text it either has been asked for help or version, also by flags at the front of that very word, and shows that, or it is a usage error with status 2. Which of the two depends on nothing that comes after the first byte that is no text, nor on variables, files or the build, and is as if a non-ASCII character stood there.", "quantifier": "all command lines of bytes, all settings, all builds", "why_tests_cant": "All byte sequences that are not UTF-8, in all places of all command lines; tests try a few.", "anchors": ["src/main.rs:103-119", "src/cli.rs:18-317"]}
{"id": "C97", "title": "A 32-bit build reads ordinary data as a 64-bit build does", "statement": "Take data of less than 2^31 bytes that announces no huge length: its hex digits never read 84 followed by a digit of 8 or more, and no Ingenico length of eight or more digits begins with 4 or more. Then every build with pointers of at least 32 bits parses it to the same result, and the program does exactly the same in two builds that agree about overflow checks. So the specification of what is shown or complained about holds for 32-bit builds, and such a build crashes on that data exactly when the settings cannot be read or it checks for overflow and the output is indented 256 levels or more. Without the condition this is false (refuted).", "quantifier": "all data without huge announced lengths, all settings, all command lines, all builds of at least 32 bits with and without overflow checks", "why_tests_cant": "A test runs one build on some data; this compares all builds on all such data.", "anchors": ["src/emv/tlv_parsing/ber_tlv.rs:13-85", "src/emv/tlv_parsing/ingenico_tlv.rs:28-139", "src/emv/tlv_parsing/auto_tlv.rs:16-39", "src/main.rs:121-217"]}
{"id": "C98", "title": "A release build leaves exactly the man page and the completion scripts that were asked for", "statement": "The build script writes a man page if MAN_PAGE_OUT_DIR is set and five completion scripts if COMPLETION_SCRIPTS_OUT_DIR is set, where the environment counts before the .env file. In a release build in which all of them can be written it succeeds, each file is there in full under its own name, every other file is as before, and it announces each file or the missing variable, in order. If one cannot be written the build fails, the files before it are complete and those after it are not touched; the one that failed is as it was if it could not be created and cut off otherwise. A refused path or a cut off man page ends the build with an error, a cut off script with a panic. A debug build touches nothing and succeeds.", "quantifier": "all environments, .env entries, directories, rendered texts, file systems and patterns of failing writes", "why_tests_cant": "The script runs once per build in one environment; this covers every combination of variables and every failing write.", "anchors": ["build.rs:20-35", "build.rs:37-66", "build.rs:68-95", "build.rs:97-113"]}
{"id": "C99", "title": "A refusal gives away the kind of fault and a number of bytes, nothing else", "statement": "When the argument of an operation is refused, stdout stays empty and stderr is one of 5k+12 fixed lines, k being the length of the argument: the line names one of eight kinds of fault and at most the number of bytes of the argument or of the one value at fault. It is about the argument as a whole, or about an unmasked value of a tag that is explained. If the data contains a primitive object whose tag is only named, such as a card number, replacing its value by another of any length leaves the refusal as it was.", "quantifier": "all arguments of all operations, masking characters, positions of the object at the top level and what precedes and follows it", "why_tests_cant": "That no value ever reaches the error text is a statement about all values and all ways of failing.", "anchors": ["src/error.rs:46-98", "src/main.rs:113-206", "src/emv/tlv_parsing/process_emv_tag.rs:158-251", "src/emv/tlv_parsing/mod.rs:206-267"]}
{"id": "C100", "title": "Exactly which data crash a build: those with a value that ends beyond what the build can count", "statement": "With pointers of any width from 32 bits up and text of less than 2 GiB, the program crashes exactly when somewhere in the data, after objects that are in order and inside unmasked templates, a tag and a length announce a value that ends at or beyond 2 to the width of a pointer, counted from the start of the data or of the enclosing template, or when overflow checks are on and the breakdown is nested 256 deep or more. Otherwise the breakdown shown, or the refusal, is that of the 64-bit build. With pointers of 34 bits or more no data overrun. A build with wider pointers does what a narrower one that does not crash does.", "quantifier": "all builds, arguments, masking characters and settings", "why_tests_cant": "The tests run on one pointer width; that nothing else crashes needs all data and all widths.", "anchors": ["src/emv/tlv_parsing/ber_tlv.rs:13-86", "src/emv/tlv_parsing/ingenico_tlv.rs:28-120", "src/emv/tlv_parsing/auto_tlv.rs:16-37"]}
{"id": "C101", "title": "Only masking characters that stand twice in a row in the data matter", "statement": "The masking characters count as a set: their order and repetitions make no difference to what is printed. Two sets of masking characters give the same output for an argument if they contain the same of those characters that stand twice in a row in it: among its bytes for BER-TLV, in the text or among the bytes spelt by four hex digits in a row for Ingenico text. So a further masking character that does not stand twice in a row changes nothing.", "quantifier": "all builds, operations, arguments, lists of masking characters and settings", "why_tests_cant": "It compares all pairs of lists of masking characters on all arguments.", "anchors": ["src/emv/tlv_parsing/mod.rs:500-547", "src/emv/tlv_parsing/ber_tlv.rs:66-79", "src/emv/tlv_parsing/ingenico_tlv.rs:82-138", "src/main.rs:103-219"]}
{"id": "C102", "title": "32-bit builds without overflow checks ignore the highest bit of hex field lengths", "statement": "On 32-bit builds without overflow checks, twice a length of 2^31 or more wraps around. Such a build reads an Ingenico text as if the first length digit of every such field in hex digits were 8 less. For every text this gives exactly one other text of the same length, and the build shows, refuses or crashes for the given text as it does for that one: a 64-bit build would show the same sheet or message for the other text, and it crashes exactly when a length of the other text cannot be counted.", "quantifier": "all 32-bit builds without overflow checks, all texts below 2^31 characters, all settings", "why_tests_cant": "It describes the result for every text with such lengths in any number of fields; tests run on 64-bit builds.", "anchors": ["src/emv/tlv_parsing/ingenico_tlv.rs:74-121", "src/emv/tlv_parsing/auto_tlv.rs:16-37", "src/main.rs:103-219"]}
{"id": "C103", "title": "A whole run, from the bytes given to the process to the bytes it delivers", "statement": "For every command line of bytes, set of variables, disk and working directory, and any behaviour of stdout and stderr: if the words are text that spells acceptable options with one operation, the settings are those decided by words, variables, file and defaults, and the argument has a sheet, then stdout takes a beginning of the sheet's text and stderr nothing; with a stdout that keeps taking bytes the terminal shows exactly the sheet, coloured exactly if wanted, and the status is 0. If the argument is refused, stdout stays empty and stderr takes a beginning of the one-line message. In both cases a status of 0 means that the whole sheet or the whole message has arrived. No such run starts from words that are not text. A build of any other width delivers exactly what a 64-bit build with the same overflow checks delivers, unless a value of the argument ends beyond what it can count; then it delivers nothing and the status is 101. If a setting is decided by a value of the wrong kind, or the file that is found is not made of tables, nothing is delivered and the status is 101.", "quantifier": "all builds (see the last sentence of the statement for those below 64 bits), places (variables, disks, directories), command lines of bytes, device behaviours, ways in which print! cuts its text, arguments below 2^63 characters", "why_tests_cant": "A test fixes one environment, one disk and one well-behaved device; the claim composes all of them, including devices failing at any call.", "anchors": ["src/main.rs:103-219", "src/config/mod.rs:69-119", "src/cli.rs:18-317"]}
{"id": "C104", "title": "What the size of the stack decides", "statement": "Let only so many calls of each recursive function be open at the same time. A run that is not killed for want of stack does exactly what a run without limit does, and one that is killed has printed a beginning of what that prints. Data with as many unmasked templates inside one another as calls of the reader fit the stack kill the process before it has printed anything, whether or not what follows them is well formed; data with fewer are shown or refused as ever, if the other functions have one call more. A template takes at least two bytes, and for any limit twelve characters per call are enough to kill the process, whatever characters mean masked data.", "quantifier": "all limits, 64-bit builds, environments, settings, operations and arguments below 2^63 characters", "why_tests_cant": "A test runs with one stack size and one depth; the claim is about every limit and says exactly which texts are affected by it.", "anchors": ["src/emv/tlv_parsing/ber_tlv.rs:13-119", "src/emv/tlv_parsing/mod.rs:57-154", "src/main.rs:103-219"]}
{"id": "C105", "title": "How wide the lines and how large the output can get", "statement": "Right of its tabs no line of the output has more than 122 columns, and a terminal type has a line of exactly 122, unless the line shows a tag of more than four bytes, each of whose bytes may add two columns. The characters of the whole output are at most 378 for each line and two more for each character of the argument, hence at most quadratic in its length, and this also bounds what has been printed when the program stops early; without colours each character is at most four bytes. Colours, whether or not the terminal gets them, add at most 33 bytes to any line, a bound that is reached.", "quantifier": "all 64-bit builds, environments, settings, operations and arguments below 2^63 characters", "why_tests_cant": "The widest line is the result of some sixty texts, tables and layouts at every indentation; tests compare a few of them with expected strings and none asks about the others or about the size of the whole.", "anchors": ["src/emv/bitflag_values.rs:68-179", "src/util.rs:122-197", "src/emv/tlv_parsing/mod.rs:275-373", "src/main.rs:103-219"]}
{"id": "C106", "title": "Yellow and red are alarms, and every alarm is yellow or red", "statement": "Something on the screen is red exactly when the data hold a TVR, or the CVR of CCD issuer application data, with one of the bits declared as errors set, or CVM results that say failed; something is yellow exactly when such a value has one of the bits declared as warnings set. The bits are given as masks. It does not matter at which depth the value stands, in which format it is written, whether the output is sorted, or whether the value was given by itself. Action codes, which name the same bits, masked values and all other tags colour nothing. When a run breaks off, what it has printed is coloured only for such a reason.", "quantifier": "all 64-bit builds, environments, settings, operations and arguments below 2^63 characters", "why_tests_cant": "The claim that nothing else is ever coloured is about every other bit, tag, depth and way of writing the data; tests can only show some values with and some without a colour.", "anchors": ["src/emv/bitflag_values.rs:28-179", "src/macros.rs:380-420", "src/emv/cvm_results.rs:57-92", "src/main.rs:103-219"]}
{"id": "C107", "title": "Which slips of the keyboard are noticed", "statement": "If one hex digit of a value is left out, or something that is no hex digit stands in its place, the program never shows a wrong value: a TVR, issuer application data, CVR, TSI, CVM results or CVM list is refused, and the message names the sizes wherever the size is fixed. A digit too many and wrong or exchanged digits are never noticed for TVR, CVR and TSI; a digit too many in front even shows a different value. In TLV data and service codes a digit can go missing unnoticed, with different objects shown (refuted for these).", "quantifier": "all values, positions of the slip, characters in its place, masking and sort settings, and 64-bit builds", "why_tests_cant": "A test takes one value and one slip; that no value and no place exists where a lost digit leads to a wrong display needs every length and position.", "anchors": ["src/util.rs:parse_hex_str", "src/emv/tvr.rs", "src/emv/tsi.rs", "src/emv/ccd/cvr.rs", "src/emv/ccd/iad.rs", "src/emv/cvm_list.rs", "src/emv/cvm_results.rs", "src/main.rs:main"]}
{"id": "C108", "title": "Line breaks and other blanks in pasted data", "statement": "A tab, space, carriage return or line feed put in anywhere does not change anything for the operations that read hex digits (values, tag identification and BER-TLV). In Ingenico text a blank inside a field with a hex value, in front of a T field, or behind the last separator always makes the text refused, never misread. Automatic detection then reads the digits as BER-TLV: standard text with values shorter than 128 bytes still gives the same objects, whatever the place of the blank. A blank inside a value written as text becomes part of the value, and automatic detection can read a text damaged so as different data (both proved as refutations).", "quantifier": "all texts, places, blanks, masking characters, settings and 64-bit builds", "why_tests_cant": "The place of a line break depends on the width of the window the data was copied from; tests try a few texts and places, the claims are about every place in every text.", "anchors": ["src/util.rs:parse_hex_str", "src/emv/tlv_parsing/ingenico_tlv.rs", "src/emv/tlv_parsing/auto_tlv.rs", "src/emv/tlv_parsing/ber_tlv.rs"]}
{"id": "C109", "title": "On a sorted screen a changed or added object only changes its own lines", "statement": "With sorting (the default), adding an object to TLV data of either format, or changing an object without changing its tag, leaves every line of the other objects as it was and in the same order: its own lines stand below those of the objects of smaller tags and of the earlier objects of the same tag, and above all others. The same holds for an object changed at any depth inside BER-TLV templates, except for the line and dump of each template around it. Giving an object another tag can move it (refuted that its lines stay in place).", "quantifier": "all data before and after, objects, tags, nesting depths, masking characters, arguments and builds of 64 bits", "why_tests_cant": "Sorting rearranges the whole screen; that a change stays local relates two screens for every combination of tags around the object, including repeated tags.", "anchors": ["src/emv/tlv_parsing/mod.rs:57-63", "src/emv/tlv_parsing/mod.rs:65-143", "src/emv/tlv_parsing/mod.rs:275-373", "src/emv/tlv_parsing/ber_tlv.rs:13-85"]}
{"id": "C110", "title": "What status words and padding behind BER-TLV data do", "statement": "Two bytes behind whole BER-TLV objects, such as the status word of a card's response, make the whole input refused unless the second byte is 0 and the first is a tag of one byte; the message says unsupported exactly if the first byte is a tag of one byte and the second exceeds 84 hex, and non-compliant otherwise. If the second byte is 0, they are silently listed as one more object without bytes below the others, or at its place in a sorted screen (9000 as an empty Issuer Public Key Certificate); the other objects keep their lines. The tags 8A, 8E, 95, 9B and 9C are refused instead, with the number of bytes they need. One further byte is always refused. An even number of zero bytes is listed as that many half empty objects of tag 00, an odd number is refused. FF bytes are always refused. In front of objects the same bytes take the tag or length of the next object (refuted that they are harmless).", "quantifier": "all whole objects in front, all status words, all numbers of padding bytes, both sort orders, masking characters, arguments and builds of 64 bits", "why_tests_cant": "All 65536 pairs of bytes behind every possible list of objects; that the objects in front are unaffected relates two screens for every input.", "anchors": ["src/emv/tlv_parsing/ber_tlv.rs:13-128", "src/emv/tlv_parsing/process_emv_tag.rs:165-251", "src/emv/tlv_parsing/mod.rs:277-373", "src/main.rs:176-184"]}
{"id": "C111", "title": "What happens to a value given to the wrong option or as a whole object", "statement": "The options for TVR, CCD IAD, CCD CVR, TSI and CVM results accept only texts with twice as many hex digits as the value has bytes, or one more. A text with at least two more hex digits than an accepted one is therefore refused with the count of its bytes (the IAD option with the CCD message), in particular a whole TLV object around an accepted value, whatever its tag and however its length is written, and an Ingenico field. No two value options accept the same text, except TVR and CVR, and IAD and CVM list (both pairs do). A CVM list given as a whole object is misread: the object 8E of up to 127 bytes is always shown, with an X amount made of tag, length and the first two bytes and at least one rule too many; whether other objects are accepted depends on the parity of their tag and length bytes. A whole object given to the identify option is always shown as <Unknown>. Bare values can be taken for BER-TLV objects (refuted that they are refused).", "quantifier": "all texts accepted by a value option, all tags and length encodings around them, all pairs of options, arguments and builds of 64 bits", "why_tests_cant": "Every accepted value with every tag, every way of writing the length and every pair of options.", "anchors": ["src/main.rs:124-154", "src/emv/cvm_list.rs", "src/emv/ccd/iad.rs", "src/util.rs", "src/emv/tag_basic_info.rs"]}
{"id": "C112", "title": "What is reported as RFU", "statement": "Among the lines that explain bits or digits (those with a box-drawing arm), one says RFU exactly when the data have a reserved service code digit (first digit 0, 3, 4 or 8; second 1, 3 or 5 to 9; third 8 or 9) or a reserved cryptogram type (11) in the card verification results, given to their own options, in the issuer application data, or in an unmasked object 5F30 or 9F10 at any level of TLV data, sorted or not. TVR, TSI, CVM results, CVM lists and identified tags are never reported as RFU, so reserved bits of bit fields are not (refuted that they are). The letters RFU elsewhere mean nothing, since hex dumps repeat the data (refuted).", "quantifier": "all arguments, operations, masking characters, sort settings and builds of 64 bits", "why_tests_cant": "The report must be right for every value and at every place of every TLV tree, and absent from everything else, including every text of every table.", "anchors": ["README.md:9", "src/non_emv/service_code.rs", "src/emv/ccd/cvr.rs:81-91", "src/emv/ccd/iad.rs", "src/util.rs"]}
{"id": "C113", "title": "When sorting changes nothing", "statement": "What is shown with and without sorting is the same, down to the styles, exactly if at every level of the TLV data no object is directly followed by one of a smaller tag; if some object is, already the characters differ. The same holds for the outputs of two runs of the program that differ only in the sort setting.", "quantifier": "all TLV data in either format, nested to any depth, all masking characters, all environments, settings and builds of 64 bits", "why_tests_cant": "That the setting never changes ordered data, and never leaves unordered data unchanged however deep the disorder is, concerns every tree.", "anchors": ["src/main.rs", "src/emv/tlv_parsing/mod.rs", "src/emv/tlv_parsing/process_emv_tag.rs"]}
{"id": "C114", "title": "A TVR read against action codes", "statement": "The explanations behind the elbows of a TVR and of an action code (default, denial, online), each shown as an object or as an argument, have one in common exactly if some bit with a meaning is set in both values, which is what the terminal checks; every explanation of the first is one of the second exactly if all its bits with a meaning are set there; and the bitwise or (and) of two values has exactly the explanations of either (of both). The same holds for two runs of the program and for two objects anywhere in one piece of TLV data. Reserved bits set in both are not told.", "quantifier": "all pairs of TVRs and action codes of all bytes, all places, indentations, settings, TLV data and builds of 64 bits", "why_tests_cant": "2^80 pairs of values; that no text is shared by two bits and none is missing in one of the two displays concerns all of them.", "anchors": ["src/emv/tvr.rs", "src/emv/iac/default.rs", "src/emv/iac/denial.rs", "src/emv/iac/online.rs", "src/emv/bitflag_values.rs", "src/emv/tlv_parsing/mod.rs"]}
{"id": "C115", "title": "Hex data in the notations of other programs", "statement": "A notation of bytes (something before and behind everything, before and behind each byte, between two bytes) is read correctly for all data exactly if none of these parts holds a hex digit, except that one may stand at the very end: colons, blanks and \\x escapes are safe, C arrays with 0x are not. A C array of a TVR, IAD, CVR, TSI or CVM results is always refused; of a CVM list it is shown, misread, exactly if the list has a multiple of four bytes. A label or 0x with one hex digit in front of a whole value moves the value by half a byte (digit and value divided by 16): a TVR, CVR or TSI is shown nevertheless, and correctly only if all its digits equal that digit; issuer application data are always refused. TLV data with 0x in front of all or of each byte never begin with a template: the first object is primitive with a tag from 00 to 0F.", "quantifier": "all notations, all data of any length, all labels, masking characters, settings and 64-bit builds", "why_tests_cant": "Which of the infinitely many ways to write bytes are safe, for every data, is no finite set of cases.", "anchors": ["src/util.rs", "src/main.rs", "src/emv/tlv_parsing/ber_tlv.rs", "src/emv/bitflag_values.rs"]}
{"id": "C116", "title": "Data that lost its beginning", "statement": "Of the text of Ingenico fields with hex values, any end is either refused as non-compliant or shows the end of the screen of the whole text, never anything new; an end that begins within a field is skipped over in silence exactly if at least three digits of its tag are left, and refused otherwise. A BER-TLV object that lost the first byte of its two-byte tag, the second one being a primitive tag by itself, is shown with its value under the second byte as its tag, and one that lost the tag and length of its template shows the objects one step further out; everything below stays. A value of a fixed size is refused, unless no digit is lost or the single digit that was one too many: in a TVR, CVR or TSI the value is then shown moved by one digit. A tag to identify, a CVM list and a service code are never refused as long as enough is left. With the format guessed, what is left of a field can be taken for objects that were never there.", "quantifier": "all fields, data and places of the cut, masking characters, settings and 64-bit builds", "why_tests_cant": "Every text has as many ends as characters; that none of them shows something new is a statement about all of them.", "anchors": ["src/emv/tlv_parsing/ingenico_tlv.rs", "src/emv/tlv_parsing/ber_tlv.rs", "src/main.rs", "src/util.rs", "src/non_emv/service_code.rs"]}
{"id": "C117", "title": "The explanations tell the value by themselves", "statement": "Of a TVR, TSI, CVR, terminal capabilities or additional terminal capabilities, the explanations on two screens are the same exactly if the values agree in every bit that has a meaning; the bits and bytes beside them are not needed. Changing one bit changes no explanation if the bit has no meaning, and otherwise removes at most one and adds at most one, and changes at least one. The explanations of CVM results are the same exactly if the continue bit and the result are the same and method and condition are the same or both unknown. The same holds for two runs of --tvr, --tsi and --cvr and for objects 95, 9B, 9F33 and 9F40 anywhere in TLV data.", "quantifier": "all values, bits, indentations, colour settings, TLV data and 64-bit builds", "why_tests_cant": "There are 2^80 pairs of TVRs alone; that no two fields share a text and no bit is explained twice or not at all is a statement about all of them.", "anchors": ["src/emv/bitflag_values.rs", "src/emv/tvr.rs", "src/emv/tsi.rs", "src/emv/terminal_capabilities.rs", "src/emv/additional_terminal_capabilities.rs", "src/emv/cvm_results.rs"]}
{"id": "C118", "title": "What stands around Ingenico fields", "statement": "--ingenico-tlv turns data away as soon as anything without a colon stands between the separator (or the beginning) and a T field (two-character line ends included), as soon as anything with at most one colon stands behind the last separator, and whenever a character beyond ASCII occurs anywhere; one single character behind the last field is not noticed. --auto then reads the hex digits of the same text as BER-TLV, whatever else is in it. For fields in hex with values shorter than 128 bytes this shows exactly the lines that --ingenico-tlv shows of the clean text, so line ends, quotation marks, byte order marks and words without hex digits do no harm; hex digits among the words are read as data.", "quantifier": "all Ingenico text, all surroundings, all masking characters, sorted or not, all 64-bit builds", "why_tests_cant": "The surroundings are arbitrary text at arbitrary places of arbitrarily long data; a test tries a few.", "anchors": ["src/emv/tlv_parsing/ingenico_tlv.rs", "src/emv/tlv_parsing/auto_tlv.rs", "src/util.rs"]}
{"id": "C119", "title": "What nothing calls yet would work", "statement": "Config::try_from reads every setting from the strongest profile of the provider that mentions it (global, then the one it asks for, then default) and needs all three. A configuration used as a provider is found whichever profile is asked for, and comes back with the same settings, always under the default profile (refuted that its own profile comes back). Read as a whole from the sources of a run, the settings are exactly those the program reads one by one, and they cannot be read as a whole exactly when the program stops. What is written of a configuration, used as the default table of the file, gives these settings when nothing else mentions any. Issuer application data equal a format code exactly if it is the upper half of their second byte. An enum declared with enum_repr_infallible! converts from and to its values without loss and has the text declared with the value.", "quantifier": "all providers, configurations, environments, command lines, IADs and declarations the compiler takes", "why_tests_cant": "Nothing calls this code, so only its users-to-be could notice a fault; the profiles, settings and declarations are unbounded.", "anchors": ["src/config/mod.rs", "src/emv/ccd/iad.rs", "src/macros.rs", "src/error.rs"]}
{"id": "C120", "title": "Damage does not reach back", "statement": "If two BER-TLV arguments begin with the same bytes, an object that ends within them, at any depth inside templates, is the same in both and its lines stand on both unsorted screens, whatever bytes follow (changed, lost or inserted), provided an object still stands at its place in the other; at the top level that is so whenever the other is made of objects. Above the first damaged object of the top level the unsorted screens are the same; sorted, both have the objects before the damage with the same lines. An object before the damage that cannot be interpreted causes the same refusal, whatever follows, as long as the data are made of objects. Ingenico fields closed before the damage are shown the same. It is false (refuted) that objects before the damage stay on the screen if the damage keeps the value of their template from being read as objects.", "quantifier": "all bytes before and behind the damage, places, masking characters, builds of 64 bits; both formats", "why_tests_cant": "The damage is arbitrary bytes at an arbitrary place of arbitrarily nested data.", "anchors": ["src/emv/tlv_parsing/ber_tlv.rs", "src/emv/tlv_parsing/ingenico_tlv.rs", "src/main.rs"]}
{"id": "C121", "title": "Arguments put together without a break, or given twice", "statement": "If Ingenico fields are put together with further fields and no separator stands between them, the first character of the further fields is taken for the separator. So the first of the further fields loses its letter: with three or more digits in its tag it is missing from the unsorted screen without a message and everything else is shown; with fewer digits the argument is refused as non-compliant. TLV data given twice over (BER-TLV of an even number of hex digits, Ingenico fields that all have a separator) are shown twice, unsorted one screen below the other, sorted with every object of the top level twice in a row if no tag occurs more than once there. With an odd number of digits that is false (refuted): the second copy may be refused. TVR, TSI, CVR, CVM results and IAD given twice are refused with the number of bytes counted (the IAD as not CCD-compliant). A CVM list given twice is shown with the same amounts and all of its bytes as further rules, or refused if it has an odd number of digits. A service code of three digits given twice is refused unless it is 000.", "quantifier": "all arguments, fields, masking characters, builds of 64 bits", "why_tests_cant": "The two arguments are arbitrary, of any length and nesting; the claim is about every pair.", "anchors": ["src/emv/tlv_parsing/ingenico_tlv.rs", "src/emv/tlv_parsing/ber_tlv.rs", "src/util.rs", "src/main.rs"]}
{"id": "C122", "title": "CVM results read against a CVM list", "statement": "The explanations shown for CVM results (method, condition, whether the next rule applies) say the same as rule number k on the screen of a CVM list exactly if the list has a rule k, its continue bit is the one of the results, and its method and its condition are those of the results or both unknown to the program. For a method and condition of the EMV books that means the two bytes are equal but for the reserved bit. So the rule a terminal copied into the results is always found on the screen of the list, under its number. The same holds for objects 8E and 9F34 anywhere in one piece of TLV data and for runs of --cvm-list and --cvm-results. It is false (refuted) for methods the program does not know: they are all shown alike, and a rule that was not applied may be named.", "quantifier": "all CVM lists and CVM results, rule numbers, indentations, TLV data that hold both, runs", "why_tests_cant": "Lists have any number of rules; the claim is an equivalence over all pairs of values.", "anchors": ["src/emv/cv_rule/mod.rs", "src/emv/cvm_list.rs", "src/emv/cvm_results.rs"]}
{"id": "C123", "title": "CVM lists are shown rule by rule", "statement": "The screen of a CVM list is: the two amounts if one of them is not zero or a rule compares with them (conditions 06 to 09), the heading, and four lines for each rule, in the order of the rules and numbered from 1. A rule added at the end adds its four lines below and changes no other line; only if no amount was shown and the new rule compares with them the two amounts appear above. Replacing a rule changes its own lines and at most makes the amounts appear or disappear; exchanging two neighbouring rules exchanges their lines and changes nothing else; other amounts leave everything from the heading on as it was. The same holds for runs of --cvm-list. It is false (refuted) that changing a rule never changes lines outside it.", "quantifier": "all CVM lists with any number of rules, all rules and amounts, indentations, runs", "why_tests_cant": "Lists have any number of rules, and the claims relate all pairs of lists that differ by one edit.", "anchors": ["src/emv/cvm_list.rs", "src/emv/cv_rule/cvm_condition.rs"]}
{"id": "C124", "title": "Service codes in words", "statement": "For every service code up to 999 the screen says below each of its five titles exactly one text, and which one is decided by one digit as in ISO/IEC 7813: whether the card has a chip and where it may be used by the first, who authorises by the second, what may be bought and whether a PIN is needed by the third. Two codes are explained alike exactly if at each place the digits are the same or both have no meaning. RFU appears exactly if some digit has no meaning. The same holds for runs of --service-code and for objects 5F30 anywhere in TLV data. It is false (refuted) that nothing is claimed for a digit without a meaning: such a first digit is shown as magnetic stripe only.", "quantifier": "all service codes, indentations, runs and TLV data with an object 5F30", "why_tests_cant": "All codes, all pairs of codes and all places in TLV data.", "anchors": ["src/non_emv/service_code.rs", "references/ServiceCodeChart.jpg"]}
{"id": "C125", "title": "Codes in words", "statement": "The explanation of an authorisation response code, transaction type, terminal type or POS entry mode is one line, and for two values of the same object it is the same exactly if the codes are equal or are one of eight pairs that mean the same (response codes 33/54, 34/59, 35/60, 36/62, 37/66, 38/75, entry modes 07/83 and 08/92); so transaction types and terminal types can be told from the words alone. A terminal type is known exactly if its first digit is 1 to 3, its second 1 to 6, and no attended terminal belongs to the cardholder; its text says attended or not and online or not by the second digit, and who controls the terminal by the first. The same holds for objects 8A, 9C, 9F35 and 9F39 anywhere in TLV data of either format. That the words always tell the code is refuted.", "quantifier": "all values of the four objects, all pairs, indentations and TLV data that hold them", "why_tests_cant": "All pairs of codes and all places in all TLV data.", "anchors": ["src/emv/authorisation_response_code.rs", "src/emv/terminal_type.rs", "src/emv/transaction_type.rs", "src/emv/pos_entry_mode.rs"]}
{"id": "C126", "title": "Issuer application data part by part", "statement": "CCD issuer application data are shown as their parts in order: the common core identifier (Format A with Triple DES for A5, AES for A6), the derivation key index in hex, the card verification results, one line with the eight counter bytes in hex and one with the fifteen bytes of the issuer. The card verification results stand there line for line as they do when given to --ccd-cvr by themselves, only indented. Their explanations are exactly: each of the twenty statements whose bit is set, the two counts (PIN tries, script commands) as decimal numbers of the upper halves of bytes 2 and 4, and what the card returned for the first and second GENERATE AC. Four of the statements are yellow and four are red, as listed; every other explanation is without colour. Any five bytes are card verification results, and the fifth changes nothing on the screen. The same holds for tag 9F10 inside TLV data.", "quantifier": "all five-byte results, all key indices, counters and issuer bytes, all spellings of the argument, all settings, all builds; all objects 9F10 in any TLV data", "why_tests_cant": "There are 2^40 results and 2^224 data; a test looks at a few, and none looks at what is printed.", "anchors": ["src/emv/ccd/iad.rs:IssuerApplicationData", "src/emv/ccd/iad.rs:FormatSpecificData", "src/emv/ccd/cvr.rs:CardVerificationResults", "src/emv/ccd/cci.rs:CommonCoreIdentifier"]}
{"id": "C127", "title": "The names of tags", "statement": "A name shown for a tag tells the tag: no two tags have the same name, neither when identified nor as the title of an object in TLV data (including the three titles of unrecognised values), except that all tags without a name are called <Unknown>, which is no tag's name. Identification accepts everything with at least one byte, but only a complete BER tag gets a name: a tag followed by anything (a length, a value, another tag) and a tag that lost its end are shown as <Unknown>, never under a wrong name. Of the tags with a name exactly the nine templates of the EMV books are constructed, and every one is of the application or the context-specific class.", "quantifier": "all texts given to --identify, all pairs of texts, all pairs of objects in any two TLV data, all settings and builds", "why_tests_cant": "The claim compares every pair of entries of the table and speaks about all texts that are not in it; tests look up single tags.", "anchors": ["src/emv/tlv_parsing/process_emv_tag.rs:identify_tag", "src/emv/tag_basic_info.rs:TagBasicInfo", "src/emv/tlv_parsing/ber_tlv.rs:parse_tag_metadata"]}
{"id": "C128", "title": "Bits in words", "statement": "For terminal verification results, transaction status information, terminal capabilities, additional terminal capabilities and the three issuer action codes, the statements shown behind the elbows are exactly those that the EMV books give for the bits that are set: none is missing, none is added, each is in its colour (red for errors, yellow for warnings, action codes never coloured), and each stands for one bit alone. Every value of the right length is shown this way, as the value of --tvr or --tsi and as an object in TLV data.", "quantifier": "all values of the right length, all TLV data that contain such an object, all indentations, settings and builds", "why_tests_cant": "The claim is an equivalence over 2^40 values and every position in any TLV data; a test compares single screens, and a wrong or swapped row of the table shows up only for the value that sets it.", "anchors": ["src/emv/tvr.rs:TerminalVerificationResults", "src/emv/tsi.rs:TransactionStatusInformation", "src/emv/terminal_capabilities.rs:TerminalCapabilities", "src/emv/additional_terminal_capabilities.rs:AdditionalTerminalCapabilities", "src/emv/bitflag_values.rs:28-179", "src/emv/iac/default.rs:1-112"]}
{"id": "C129", "title": "The outline of TLV data, and counting on the screen", "statement": "In the output for TLV data the lines that begin (behind the indentation) with Tag: 0x are exactly the title lines of the objects, one for each object at any depth, indented by its depth and, unsorted, in the order of the data; sorted, they are the same lines in another order. In the same way the lines that begin with * Masked *, Raw:, Parsed: and Constructed Data Object's Child Tags: mark exactly the masked objects, those with a value, those with an explanation and those with objects inside. No explanation, name or hex dump ever looks like one of them. So counting such lines in the text that a run writes counts the objects, and counting those that begin with Tag: 0x, a tag and a dash counts the objects with that tag.", "quantifier": "all TLV data in both formats, all tags, all depths, sorted or not, all masking characters, settings and builds", "why_tests_cant": "The claim needs that no line of any explanation of any value can be taken for a mark, and that nothing is lost or doubled at any depth; tests look at single screens.", "anchors": ["src/emv/tlv_parsing/mod.rs:66-170", "src/emv/tlv_parsing/mod.rs:276-500", "src/emv/bitflag_values.rs:28-179", "src/emv/cvm_list.rs:60-146", "src/emv/ccd/iad.rs:102-156"]}
{"id": "C130", "title": "Cardholder verification in words", "statement": "The explanations of CVM results are exactly: the method named by the lower six bits of the first byte, the condition named by the second, the result named by the third, red if and only if it is Failed and otherwise uncoloured, and, if bit 7 of the first byte is set, that the next rule applies if this one is unsuccessful. The nine methods and ten conditions of the EMV books each have their own words and everything else is called unknown. Three bytes are accepted exactly if the third is 0, 1 or 2. On the screen of a CVM list a rule stands under number k with a method, a condition and Next CVM or Fail exactly if the list has a rule k with that method, that condition and that bit. The same holds for objects 9F34 and 8E anywhere in TLV data and for runs of the program.", "quantifier": "all CVM results and CVM lists of any length, all masking characters, settings and builds, at any depth of TLV data of either format", "why_tests_cant": "Tests show single values; this is about every combination of method, condition and result and about lists of any length, in both directions.", "anchors": ["src/emv/cv_rule/mod.rs", "src/emv/cv_rule/cv_method.rs", "src/emv/cv_rule/cvm_condition.rs", "src/emv/cvm_list.rs:60-146", "src/emv/cvm_results.rs:20-113"]}
{"id": "C131", "title": "Output with colours read by other programs", "statement": "Taking the sequences ESC [ digits and semicolons m out of stdout, as pagers, editors and sed do, gives one result: exactly the text that was printed, for every run, whether it shows data, refuses them or panics. It is byte for byte what the same call writes without colours, and line k of the one is line k of the other, so line numbers agree. For data that are shown these are the lines of the sheet. Messages on stderr contain no sequences. It is false (refuted) that whatever is found in the output without colours is found in the output with colours: sequences stand between the words of a line. It is also false (refuted) that output with colours can be cut behind any line: some lines end inside their colour, and the terminal keeps it until the next line. Cut behind any line, the output shows exactly the lines up to there in their styles, and the terminal is left in the style in which the last of them ends.", "quantifier": "all environments, settings, colour decisions, terminal variables, operations and arguments of 64-bit builds", "why_tests_cant": "Output with colours is not tested at all; the claim relates two outputs byte for byte over all arguments and all ways a run can end.", "anchors": ["src/main.rs:103-219", "src/output_colours.rs", "src/emv/bitflag_values.rs:68-179", "src/emv/tlv_parsing/mod.rs:275-373"]}
