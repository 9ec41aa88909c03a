{
 "claims": [
  {
   "property": "C01",
   "status": "proved",
   "theorems": [
    "C01_header_roundtrip"
   ],
   "note": ""
  },
  {
   "property": "C02",
   "status": "proved",
   "theorems": [
    "C02_header_grammar",
    "C02_tag_collision_refuted"
   ],
   "note": "The tag number is reported modulo 2^32; the witness theorem shows two tag numbers that collide."
  },
  {
   "property": "C03",
   "status": "proved",
   "theorems": [
    "C03_header_shortest"
   ],
   "note": ""
  },
  {
   "property": "C04",
   "status": "partial",
   "theorems": [
    "C04_announced_header_length",
    "C04_announced_header_length_refuted"
   ],
   "note": "Holds exactly for content lengths below 2^24 (proved as an equivalence); the statement without that bound is refuted."
  },
  {
   "property": "C05",
   "status": "proved",
   "theorems": [
    "C05_stability",
    "C05_types_stability",
    "C07_more_readers"
   ],
   "note": "Headers, objects, the four typed entry points for every codec, and every type built from base types, containers, tags and derived declarations (older from_der: types without BOOLEAN, which panics there, see C07)."
  },
  {
   "property": "C06",
   "status": "partial",
   "theorems": [
    "C06_incomplete_truthful_partial",
    "C06_types_incomplete_partial",
    "C07_more_readers",
    "C06_error_final_refuted",
    "C06_open_exact",
    "C06_ber_exact",
    "C06_types_final"
   ],
   "note": "The Incomplete half is proved in full, for headers, objects and every type; errors other than InvalidTag are final; the InvalidTag error on a truncated multi-octet tag is not final (refuted by a witness). C06_open_exact says exactly which errors of the header readers and of the DER reader of any value are not final: those on an unfinished tag (first octet with low bits 11111, then at most four octets with the high bit set), which two zero octets complete. C06_ber_exact: an error of the BER reader of any value is final, or it is InvalidTag on an object cut short inside its tag or the tag of an element, and then two zero octets change it. C06_types_final: for every type, errors of all four readers are final unless the input is cut short inside such a tag."
  },
  {
   "property": "C07",
   "status": "partial",
   "theorems": [
    "C07_objects_no_panic",
    "C07_types_no_panic_partial",
    "C07_more_readers",
    "C07_optional_readers",
    "C07_real_panics",
    "C07_boolean_panic_refuted"
   ],
   "note": "No panic for headers, objects, iterators, every type built from the base types, containers, tags and derived declarations, EMBEDDED PDV, untyped sequences, relative OIDs, TaggedParser and optional readers. bool::from_der and Boolean::from_der panic on 01 00 (witness). REAL, f64 and f32 panic on exactly the contents given by overflows (C07_real_panics, with witnesses)."
  },
  {
   "property": "C08",
   "status": "partial",
   "theorems": [
    "C08_object_split_partial",
    "C08_marker_in_data_refuted"
   ],
   "note": "The split is proved for every accepted input; the closing bytes are the last two bytes of the marker as read. A marker with a long-form zero length leaks its first octets into the data (refuted by a witness)."
  },
  {
   "property": "C09",
   "status": "partial",
   "theorems": [
    "C09_object_grammar",
    "C09_standard_objects_partial",
    "C09_standard_grammar_refuted"
   ],
   "note": "Exact grammar (iff) with the crate's own notion of marker: any header with tag number 0 and length 0. Standard objects not containing such look-alikes are accepted. The grammar with the standard marker is refuted by a witness."
  },
  {
   "property": "C10",
   "status": "proved",
   "theorems": [
    "C10_recursion_limit"
   ],
   "note": ""
  },
  {
   "property": "C100",
   "status": "partial",
   "theorems": [
    "C100_order_exact",
    "C100_generalized",
    "C100_utc",
    "C100_refuted"
   ],
   "note": "Proved: exactly which fields decide, for all values; the order of instants, for any day count of the Gregorian calendar, between times that exist, with one zone and (UTCTime) years of one century. Of one instant, no milliseconds come before 0. False otherwise (C100_refuted): offsets and the century of a UTCTime are not looked at."
  },
  {
   "property": "C101",
   "status": "partial",
   "theorems": [
    "C101_same",
    "C101_off",
    "C101_success",
    "C101_exact",
    "C101_slices",
    "C101_log",
    "C101_refuted",
    "C101_types",
    "C101_shape",
    "C101_names",
    "C101_slices_log",
    "C101_slices_items"
   ],
   "note": "False as stated for content parsers of users: the wrapper asserts that the remainder a content parser returns, which nobody uses, does not start before the content, so a parser that returns a fresh Input panics with feature debug in a build with assertions (C101_refuted). C101_exact says for every content parser when that happens and that otherwise results are the same. C101_same: for Any, Integer, types without inputs, Vec and explicit tags nested in any way, all twelve reading functions give the same result with any features in any build, for every located input. C101_slices: the same for from_ber and from_der of types and collections nested in any way. C101_off: with both features off nothing is written, and the results are those of the parsers with spans (C41). C101_success: without trace an object that is read writes nothing. C101_log: which lines are written, with the octets at the place of failure. C101_types: the same results, and silence, for arrays, sets, tags, Option, Alias, tuples, derived structs and choices of one another. Not covered: structs with custom parsers of fields; the wording of lines. C101_shape: the shape of the whole log for these types: entries matched by exits or reports, reports only without trace, each report with the octets at the place it names. C101_names: which function each report names. C101_slices_log, C101_slices_items: from slices, silence with the features off and on success without trace, a line for every refusal, and the lines of the functions called are kept."
  },
  {
   "property": "C102",
   "status": "partial",
   "theorems": [
    "C102_copy",
    "C102_again",
    "C102_typed",
    "C102_derive",
    "C102_derive_refuted",
    "C102_written",
    "C102_written_refuted",
    "C102_sequences"
   ],
   "note": "Copies, their types and idempotence are proved for all values. Two clauses are false: a reference to an Option is written differently from its copy (C102_written_refuted; see C90), and the derive cannot be used with type or const parameters or with references in fields (C102_derive_refuted; C102_derive says exactly when it can). Of a header all is kept but the octets it was read from (C85). C102_sequences: C77 without its assumption, for the types that can be used there."
  },
  {
   "property": "C103",
   "status": "proved",
   "theorems": [
    "C103_targets",
    "C103_tagged",
    "C103_honest",
    "C103_vec",
    "C103_slice",
    "C103_sink",
    "C103_types",
    "C103_containers"
   ],
   "note": "Writers are modelled with the calls of write_all they make; the times (write!) with one call for each argument. That the count is the number of octets is another matter: see the claims on UTCTime and UniversalString."
  },
  {
   "property": "C104",
   "status": "partial",
   "theorems": [
    "C104_refuted",
    "C104_left_partial",
    "C104_real",
    "C104_items"
   ],
   "note": "False: REAL with a base other than 2 and 10 is refused after its header 09 00 was written, and a container after its header and the items before. Proved: only a content can be refused, with its own error, and what is left is the header and what the content had written; exactly for REAL and for SEQUENCE OF and SET OF."
  },
  {
   "property": "C105",
   "status": "proved",
   "theorems": [
    "C105_linear",
    "C105_content",
    "C105_skip",
    "C105_counts"
   ],
   "note": "Headers read are counted in the log of MTrace and MKind, in which C105_counts shows one line for each call of the header parser; C101_types shows that the log changes no result. Proved for every type of MKind, with the segments of constructed strings, however nested, counted as well (the weight of a string is the nesting its parser allows). EmbeddedPdv, a struct written by hand which reads a fixed number of objects, is not among these types."
  },
  {
   "property": "C106",
   "status": "partial",
   "theorems": [
    "C106_class",
    "C106_place",
    "C106_errors",
    "C106_nom_refuted"
   ],
   "note": "Equal texts of Error mean equal errors with equal payloads, for any distinct names of nom's kinds (C106_errors). Equal texts of InnerError mean the same, except that all errors made by nom read Parse error: which of nom's parsers failed is lost (C106_nom_refuted). The text of a BerError determines both ends of its place and the text of the inner error, exactly; places read as stated (C106_place); names of classes and constraints are distinct and those of classes are the keywords (C106_class)."
  },
  {
   "property": "C107",
   "status": "partial",
   "theorems": [
    "C107_text",
    "C107_read",
    "C107_read_all",
    "C107_zero",
    "C107_refuted",
    "C107_small_refuted"
   ],
   "note": "C107_text: every finite nonzero mantissa and every exponent: the octets are an object with a text of ISO 6093 whose number without the exponent is within half a unit of the mantissa. C107_read: for a mantissa of 53 bits (every normal one) every parser reads a number within one part in 2^41 and 2^-1075, up to (2^53 - 2) 2^971, and an infinity from (2^53 + 1) 2^971 on. C107_read_all: the same for every finite mantissa, where half a unit of the mantissa times ten to the exponent is added to the distance. C107_zero: zeros. False for infinite and NaN mantissas (Real::binary takes them): the text infE1 is refused (C107_refuted). False for subnormal mantissas, which have few bits: 2^-1074 times 10^330 is written as the text of 5000000 and read as that, more than one part in a hundred away (C107_small_refuted). Display of f64 is modelled as the shortest digits that read back."
  },
  {
   "property": "C108",
   "status": "partial",
   "theorems": [
    "C108_der",
    "C108_ber",
    "C108_refuted",
    "C108_logged"
   ],
   "note": "C108_der and C108_ber: every base type, at every position: results are those of the model without locations; an error of the contents is at exactly their range, except that a character string with octets that are no characters and a DER BOOLEAN of another octet than 0 and 0xff have it at the empty range behind the contents; a wrong tag or header is reported where the object begins. False as stated for these two (C108_refuted): the code reports the remainder. For constructed octet, bit and character strings read by segments the location is within the contents.  The reader of INTEGER that logs reports the same errors at the same places (C108_logged)."
  },
  {
   "property": "C11",
   "status": "proved",
   "theorems": [
    "C11_der_subset"
   ],
   "note": ""
  },
  {
   "property": "C12",
   "status": "proved",
   "theorems": [
    "C12_iteration",
    "C12_collect"
   ],
   "note": ""
  },
  {
   "property": "C13",
   "status": "proved",
   "theorems": [
    "C13_integer_roundtrip",
    "C13_bigint_roundtrip"
   ],
   "note": "Width parameter w = 1..16 bytes covers i8..i128, u8..u128, isize, usize; the arbitrary-precision Integer separately."
  },
  {
   "property": "C14",
   "status": "proved",
   "theorems": [
    "C14_integer_minimal"
   ],
   "note": ""
  },
  {
   "property": "C15",
   "status": "proved",
   "theorems": [
    "C15_der_integer",
    "C15_der_canonical"
   ],
   "note": ""
  },
  {
   "property": "C16",
   "status": "proved",
   "theorems": [
    "C16_ber_integer",
    "C16_trim",
    "C16_trim_value"
   ],
   "note": "  trim_slice, the helper of decode_array_uint, is characterised for all octets (C16_trim, C16_trim_value)."
  },
  {
   "property": "C17",
   "status": "proved",
   "theorems": [
    "C17_integer_conversions"
   ],
   "note": ""
  },
  {
   "property": "C18",
   "status": "proved",
   "theorems": [
    "C18_boolean_ber",
    "C18_boolean_der",
    "C18_boolean_roundtrip",
    "C18_null",
    "C18_boolean_tagged"
   ],
   "note": " C18_boolean_tagged: what a Boolean writes under an IMPLICIT tag of any class and number below 31."
  },
  {
   "property": "C19",
   "status": "partial",
   "theorems": [
    "C19_octetstring_roundtrip",
    "C19_octetstring_accept",
    "C19_constructed_octetstring_partial",
    "C19_empty_constructed_refuted",
    "C19_hidden_segments_refuted"
   ],
   "note": "Round trip proved for every byte string (OctetString and &[u8]); exact acceptance proved for all four entry points; every standard segmentation with a non-empty value reassembles in order. Refuted: the constructed string without segments (24 00) is rejected; and an object with tag number 0 among segments silently hides the rest."
  },
  {
   "property": "C20",
   "status": "partial",
   "theorems": [
    "C20_bitstring_roundtrip",
    "C20_bitstring_accept",
    "C20_new_roundtrip_partial",
    "C20_constructed_bitstring_partial",
    "C20_padding_refuted",
    "C20_unaligned_refuted",
    "C20_new_empty_refuted",
    "C20_empty_constructed_refuted",
    "C20_slice"
   ],
   "note": "Round trip and zero padding proved for every bit sequence stored from bit 0 of its first byte; exact acceptance for the four entry points; segments concatenate. Refuted: BitString::new keeps padding bits that from_der then rejects; slices starting inside a byte are written with wrong bits and a wrong announced length; BitString::new panics on the empty string; 23 00 is rejected. C20_slice: what the readers make of a slice that begins inside a byte, exactly: when it touches no more bytes than its length needs they get as many zeros as bits were skipped and then its bits, cut to its length (so the same bits only if all are zero), otherwise no reader accepts it."
  },
  {
   "property": "C21",
   "status": "proved",
   "theorems": [
    "C21_enumerated_roundtrip"
   ],
   "note": ""
  },
  {
   "property": "C22",
   "status": "partial",
   "theorems": [
    "C22_from_accepts",
    "C22_oid_arcs_partial",
    "C22_relative_arcs",
    "C22_iterator_fused",
    "C22_iterator_stops",
    "C22_zero_zero_refuted",
    "C22_wrap_refuted",
    "C22_exact"
   ],
   "note": "Proved for every arc list except [0,0], which comes back as [0] (C22_zero_zero_refuted). Also proved: what is accepted, relative OIDs, arcs of 64 bits (iter gives None, iter_bigint is right), fusing and termination of the iterator on arbitrary contents. First arcs 3..6 are accepted and 6.16 to 6.39 wrap (C22_wrap_refuted).   C22_exact: what comes back for every accepted list."
  },
  {
   "property": "C23",
   "status": "partial",
   "theorems": [
    "C23_arc_minimal",
    "C23_injective",
    "C23_collision_refuted",
    "C23_exact"
   ],
   "note": "Minimality is proved for every list; injectivity for lists of at least two arcs with first arc at most 2, and for relative lists. [0] and [0,0] have the same encoding, and so have [6,39] and [0,23] (C23_collision_refuted). C23_exact: for all lists that are accepted, these are all: 0 and 0.0, and 6.16 to 6.39 and 0.0 to 0.23, with the same arcs behind."
  },
  {
   "property": "C24",
   "status": "partial",
   "theorems": [
    "C24_starts_with_partial",
    "C24_prefix_refuted",
    "C24_exact"
   ],
   "note": "Proved for lists of two or more arcs with first arc at most 2, and between relative OIDs. False for the one-arc list [0] and when a relative OID is compared with an absolute one (C24_prefix_refuted). C24_exact: the test exactly, for all absolute lists that are accepted, and between absolute ones of the roots 0 to 2 and relative ones in both directions."
  },
  {
   "property": "C25",
   "status": "partial",
   "theorems": [
    "C25_text_is_dotted",
    "C25_from_dotted",
    "C25_text_roundtrip_partial",
    "C25_text_roundtrip_bigint",
    "C25_text_refuted",
    "C25_from_str_accept",
    "C25_hex_text",
    "C25_hex_injective",
    "C25_display",
    "C25_relative_never_read",
    "C25_exact"
   ],
   "note": "Default features: proved when arcs after the second are below 2^63; an arc of 64 bits is printed as hexadecimal octets (exactly which: C25_hex_text; unambiguous: C25_hex_injective) which do not parse (C25_text_refuted). With feature bigint: proved for all u64 arcs. Relative OIDs have no parser for their text.  Display prints the dotted text, after a mark for relative identifiers, which FromStr never reads.   C25_exact: the text can be read exactly when no arc after the second needs 64 bits, and whenever it can be read the same identifier comes back."
  },
  {
   "property": "C26",
   "status": "partial",
   "theorems": [
    "C26_encoding_roundtrip",
    "C26_container_roundtrip",
    "C26_tuple",
    "C26_implicit_setof_refuted",
    "C26_implicit_explicit_refuted"
   ],
   "note": "Proved for every type expression over 17 base types, Vec, arrays, SetOf, BTreeSet, explicit and implicit tags, through to_ber/to_der and parse_ber/parse_der/from_ber/from_der, for encodings below 16 MiB; tuples have no writer and are proved to read the encodings of their components. False where an implicit tag is put on SetOf or on a tagged type: the two refutations. Those types are excluded by wf."
  },
  {
   "property": "C27",
   "status": "proved",
   "theorems": [
    "C27_all_types",
    "C27_length_prediction",
    "C27_large_refuted",
    "C27_option_refuted"
   ],
   "note": "C27_all_types covers every type expression, including those excluded in C26. C27_large_refuted shows that the 16 MiB bound is needed; C27_option_refuted shows that Option, which the statement does not cover, announces a wrong length for None and recurses without end for Some."
  },
  {
   "property": "C28",
   "status": "partial",
   "theorems": [
    "C28_optional_partial",
    "C28_indefinite_never",
    "C28_indefinite_refuted"
   ],
   "note": "Option<T>, parse_*_optional and Option's own parser agree with T on every input starting with an accepted header of definite length, and give None without consuming otherwise. False of Option's BerParser on indefinite lengths: it never reads an object of indefinite length (C28_indefinite_never; witness in C28_indefinite_refuted)."
  },
  {
   "property": "C29",
   "status": "partial",
   "theorems": [
    "C29_explicit_encoding",
    "C29_explicit_accept",
    "C29_explicit_reject",
    "C29_tagged_parser_accept_partial",
    "C29_form_refuted",
    "C29_helper_class_refuted",
    "C29_trailing_refuted",
    "C29_indefinite_refuted",
    "C29_closure_partial",
    "C29_closure_refuted"
   ],
   "note": "Proved for TaggedExplicit: encoding, exact acceptance, rejection of other class or number. The form bit is not checked by parse_ber/parse_der, the helpers do not check the class, bytes after the inner value are dropped, and indefinite lengths are rejected by some entry points (refuted). The helpers that take a closure are described exactly (C29_closure_partial); they ignore the class too."
  },
  {
   "property": "C30",
   "status": "partial",
   "theorems": [
    "C30_implicit_parse",
    "C30_implicit_from_partial",
    "C30_implicit_encoding",
    "C30_der_constraints_refuted",
    "C30_form_refuted",
    "C30_closure_partial"
   ],
   "note": "Reading is equivalent to reading the inner type with the identifier octets replaced, for parse_*; for from_der the inner DER constraints are not checked, and TaggedParser implicit writes the wrong form (refuted). The helper that takes a closure is described exactly (C30_closure_partial)."
  },
  {
   "property": "C31",
   "status": "proved",
   "theorems": [
    "C31_injective"
   ],
   "note": "For every well-formed type expression and values whose announced length is below 16 MiB."
  },
  {
   "property": "C32",
   "status": "partial",
   "theorems": [
    "C32_alphabet_partial",
    "C32_visible_partial",
    "C32_visible_refuted",
    "C32_roundtrip_partial",
    "C32_unchecked_refuted",
    "C32_written_exact"
   ],
   "note": "Exact acceptance by all four parsers is proved for the nine types. VisibleString also takes DEL (0x7f), which is outside its alphabet. Constructors do not check the alphabet, so the round trip is proved for strings over the alphabet only.   C32_written_exact: a string built from any text is read again by all four parsers exactly when the text is over the enforced alphabet."
  },
  {
   "property": "C33",
   "status": "partial",
   "theorems": [
    "C33_bmp_accept",
    "C33_bmp_roundtrip_partial",
    "C33_bmp_empty_refuted",
    "C33_bmp_odd_refuted",
    "C33_bmp_constructed_refuted",
    "C33_universal_accept",
    "C33_universal_roundtrip_partial",
    "C33_universal_refuted",
    "C33_bmp_charset",
    "C33_universal_exact"
   ],
   "note": "BMPString round trips for every non-empty text, UniversalString for every non-empty ASCII text. The witnesses show the empty text, the odd-length content, the constructed form and the wrong announced length of non-ASCII texts. The charset test of BMPString accepts exactly UTF-16 (C33_bmp_charset).   C33_universal_exact: what each parser makes of every written UniversalString."
  },
  {
   "property": "C34",
   "status": "proved",
   "theorems": [
    "C34_utf8_accept",
    "C34_utf8_roundtrip"
   ],
   "note": "For Utf8String, String and &str. &str rejects the constructed form."
  },
  {
   "property": "C35",
   "status": "proved",
   "theorems": [
    "C35_utc_roundtrip"
   ],
   "note": "Also shows the content is the canonical text. C35_year_case: with a year over 99, outside the property, the content is longer than the announced 13."
  },
  {
   "property": "C36",
   "status": "partial",
   "theorems": [
    "C36_gen_roundtrip_partial",
    "C36_milliseconds_lost",
    "C36_milliseconds_refuted"
   ],
   "note": "Holds for no milliseconds, 0, and 100 to 999. False for 1 to 99 (written unpadded, so read as a multiple) and from 1000 (rejected): C36_milliseconds_lost proves it for every such value."
  },
  {
   "property": "C37",
   "status": "partial",
   "theorems": [
    "C37_utc_accept",
    "C37_gen_accept",
    "C37_utc_instant_partial",
    "C37_gen_instant_partial",
    "C37_utc_reencode_partial",
    "C37_gen_reencode_partial",
    "C37_negative_offset_refuted",
    "C37_four_digits_refuted",
    "C37_date_refuted",
    "C37_reencode_refuted"
   ],
   "note": "Exact acceptance by all four parsers, with the fields returned. False parts: the sign of -00mm is lost, a four-digit fraction without zone is read as milliseconds, texts that are no dates are accepted, and re-encoding drops the offset (the exact shift is proved)."
  },
  {
   "property": "C38",
   "status": "partial",
   "theorems": [
    "C38_header_eq_partial",
    "C38_header_eq_refuted"
   ],
   "note": "Transitivity and hash compatibility are refuted; exactly what == and Hash compare is proved."
  },
  {
   "property": "C39",
   "status": "partial",
   "theorems": [
    "C39_der_header_partial",
    "C39_der_nonminimal_refuted"
   ],
   "note": "Refuted as stated: DER parsing accepts redundant tag and length octets. What it accepts is proved exactly."
  },
  {
   "property": "C40",
   "status": "partial",
   "theorems": [
    "C40_base2",
    "C40_base2_all",
    "C40_base8_16",
    "C40_refuted",
    "C40_four_octets_refuted",
    "C40_no_encoding_refuted",
    "C40_binary",
    "C40_binary_all",
    "C40_enc_base"
   ],
   "note": "Exact condition for every mantissa and exponent. Base 2 (C40_base2_all): the mantissa is between 2^-52 and 2^64 and the exponent of its odd number fits the octets chosen from its absolute value, at most three; of the numbers with four octets of exponent, which are read wrongly, exactly two come back by chance. Base 8/16: only exponents e = (d+1)(e quot d), so |e| at most 15, since the mantissa is scaled with a power of 2 of the wrong sign; the scaled mantissa between 2^-52 and 2^64. The full statement is false: witnesses for exponent 200, mantissa 2^64, base 8, four-octet exponents, mantissa 2^-52 (panic) and base 3 (error). The same through the constructors Real::binary and with_enc_base."
  },
  {
   "property": "C41",
   "status": "partial",
   "theorems": [
    "C41_objects",
    "C41_typed",
    "C41_items",
    "C41_steps",
    "C41_errors",
    "C41_from_ber_refuted",
    "C41_walk",
    "C41_types",
    "C41_strings"
   ],
   "note": "C41_steps: every input reached from a byte string by any sequence of steps of the BerParser/DerParser functions (headers, objects, Any, Vec, explicit tags, optional, as_input, AnyIterator) carries its exact byte range; C41_objects/C41_typed/C41_items give the layout and agreement with the functions without spans; C41_errors the locations in errors. False for the legacy FromBer functions, which re-slice: C41_from_ber_refuted. C41_walk: any number of calls of AnyIterator::next give what the iterator without positions gives (C12), with the items in a row from the start of the input. C41_types: the same for arrays, SET OF, BTreeSet, HashSet, tags, Option, Alias, tuples, derived structs and choices nested in any way (default values being constants), with any features. C41_strings: the same for octet, bit and character strings, constructed or not."
  },
  {
   "property": "C42",
   "status": "partial",
   "theorems": [
    "C42_unsigned_order_partial",
    "C42_boolean_order_partial",
    "C42_utc_order_partial",
    "C42_generalized_order_partial",
    "C42_signed_exact",
    "C42_slices_exact",
    "C42_texts_exact",
    "C42_signed_order_refuted",
    "C42_lengths_refuted",
    "C42_any_order",
    "C42_decoder_refuted",
    "C42_slice_order"
   ],
   "note": "BTreeSet of unsigned integers, booleans, UtcTime in UTC, and GeneralizedTime in UTC with fractions of one length is written in ascending order of the encodings. For signed integers, octet slices and texts the theorems give the exact condition on the values; without it the order is wrong (refuted). SetOf keeps the order given. The decoders accept elements in any order and more than once, and give the set of them (proved, and refuted as a property). C42_slice_order gives the order of slices exactly."
  },
  {
   "property": "C43",
   "status": "partial",
   "theorems": [
    "C43_int_macro_partial",
    "C43_int_macro_refuted"
   ],
   "note": "Exact condition under which int!(n) is n; int!(128) is -128 and int!(0) has empty content."
  },
  {
   "property": "C44",
   "status": "partial",
   "theorems": [
    "C44_ber_integer_complete_partial",
    "C44_padded_negative_refuted",
    "C44_exact"
   ],
   "note": "Full for unsigned types; signed types reject a negative content longer than the type.   C44_exact: exactly which contents are accepted."
  },
  {
   "property": "C45",
   "status": "partial",
   "theorems": [
    "C45_ber",
    "C45_der_kept",
    "C45_der_no_more",
    "C45_codec_ber",
    "C45_codec_der",
    "C45_reals",
    "C45_agree_refuted",
    "C45_derived_ber",
    "C45_derived_der",
    "C45_derived_refuted"
   ],
   "note": "Proved for BER: the two families accept the same octets with the same value and rest for every type built from base types with Vec, SetOf, BTreeSet, EXPLICIT and IMPLICIT, apart from arrays and from an implicit tag placed over a different explicit tag. Proved for DER in each direction for the largest class of such types found. Also for REAL and for any type that uses the default conversion from Any. For derived structs and aliases with any fields: what parse_ber reads is read the same by from_ber, and what parse_der reads by from_der (C45_derived_ber, C45_derived_der). False for the rest: from_der keeps leading zeroes of ENUMERATED and of implicit INTEGER, rejects BIT STRING padding that parse_der accepts, and accepts a primitive SEQUENCE; C45_agree_refuted has one witness each. For derived types the converse is false: a primitive struct, an optional field of indefinite length, an alias of Oid (C45_derived_refuted). Derived choices and enumerations have no from_ber and from_der (derive/src/choice.rs, derive/src/enumerated.rs), so there is nothing to compare for types that contain them."
  },
  {
   "property": "C46",
   "status": "partial",
   "theorems": [
    "C46_len_partial",
    "C46_len_refuted"
   ],
   "note": "Exact value of len for a fresh iterator: right for relative OIDs, for two arcs, and when the third arc is 128 or more; one too small when the third arc is below 128. It does not decrease while iterating (C46_len_refuted)."
  },
  {
   "property": "C47",
   "status": "proved",
   "theorems": [
    "C47_macro_agrees"
   ],
   "note": "The parsing of the macro tokens is not modelled; components are taken as numbers."
  },
  {
   "property": "C48",
   "status": "partial",
   "theorems": [
    "C48_oid_accept",
    "C48_oid_roundtrip_partial",
    "C48_relative_refuted",
    "C48_relative_accept"
   ],
   "note": "Absolute OIDs round trip by all four parsers. Relative ones round trip by from_ber_relative and from_der_relative; the ordinary parsers return them as absolute (C48_relative_refuted). Acceptance is exact."
  },
  {
   "property": "C49",
   "status": "partial",
   "theorems": [
    "C49_iter_x690_partial",
    "C49_second_arc_refuted",
    "C49_malformed_refuted"
   ],
   "note": "Proved for second arcs below 40. Arcs 2.40 and above are decoded wrongly and cannot be built (C49_second_arc_refuted); unfinished arcs and padded arcs are accepted (C49_malformed_refuted)."
  },
  {
   "property": "C50",
   "status": "partial",
   "theorems": [
    "C50_any_str_accept",
    "C50_any_str_agrees_partial",
    "C50_constructed_refuted",
    "C50_alphabet_refuted",
    "C50_exact"
   ],
   "note": "Agreement is proved on primitive objects accepted by the typed parser. On constructed objects the segment headers become text, and the alphabet is not checked.   C50_exact: on primitive objects the typed parser accepts exactly the texts of the untyped methods that are over its alphabet."
  },
  {
   "property": "C51",
   "status": "partial",
   "theorems": [
    "C51_parse_accept",
    "C51_from_accept_partial",
    "C51_consuming",
    "C51_form_refuted",
    "C51_option_elements_refuted"
   ],
   "note": "Proved for parse_ber and parse_der of Vec, arrays, SetOf and BTreeSet over any element parser, and for from_ber/from_der over every element which consumes input, hence over every type expression. from_der of Vec, SequenceOf and SetOf also accepts the primitive form, and Vec<Option<T>> loops for ever (refuted)."
  },
  {
   "property": "C52",
   "status": "partial",
   "theorems": [
    "C52_utc_complete",
    "C52_gen_complete_partial",
    "C52_utc_written",
    "C52_gen_written_partial",
    "C52_accepted_refuted",
    "C52_long_fraction_refuted",
    "C52_gen_written_exact"
   ],
   "note": "Canonical times are accepted (fractions of at most three digits). False: DER also accepts offsets in UTCTime, missing seconds, trailing zeros and empty fractions; milliseconds ending in 0 are written with the zero. Exact DER acceptance is in C37_utc_accept and C37_gen_accept.   C52_gen_written_exact: a written GeneralizedTime is canonical exactly when its milliseconds are absent or no multiple of 10."
  },
  {
   "property": "C53",
   "status": "partial",
   "theorems": [
    "C53_gen_instant",
    "C53_utc_instant_partial",
    "C53_timestamp_refuted",
    "C53_any_datetime",
    "C53_wrapped_year_refuted"
   ],
   "note": "Proved for GeneralizedTime and for UtcTime::utc_adjusted_datetime, for any numbering of the days of the Gregorian calendar. False for UtcTime::timestamp, for every content: the two digits are taken as the year. The time crate is modelled from its documentation. C53_any_datetime: to_datetime for arbitrary fields; the u32 year wraps to a signed number, so that 4294967295 is taken for -1 instead of being refused (C53_wrapped_year_refuted)."
  },
  {
   "property": "C54",
   "status": "partial",
   "theorems": [
    "C54_utc_display_partial",
    "C54_gen_display_partial",
    "C54_offsets",
    "C54_display_refuted"
   ],
   "note": "No panic on accepted contents and exact text. False: +00mm is displayed as -00mm and milliseconds below 100 are not padded. C54_offsets: exact form of the offset for values that were not read, including negative minutes and the panic at -128 hours."
  },
  {
   "property": "C55",
   "status": "partial",
   "theorems": [
    "C55_integers",
    "C55_special",
    "C55_refuted",
    "C55_negative_zero_refuted",
    "C55_large_integers",
    "C55_near",
    "C55_small_lost_refuted",
    "C55_text_closest",
    "C55_integers_near",
    "C55_near_above",
    "C55_small"
   ],
   "note": "Proved for every integer of absolute value below 2^53, the infinities and NaN. False in general: 0.3 comes back as 0.30000000000000004 and -0.0 as 0.0 (witnesses). Also proved: every f64 that is an integer not divisible by 10, of whatever size, survives (C55_large_integers); every f64 that is a nonzero integer comes back within a relative 2^-51 (C55_integers_near); every f64 of at least 2^-960 in absolute value comes back within a relative 2^-41 (C55_near_above; C55_near is the part up to 2^1022); every nonzero one below 1 comes back within a relative 2^-40 or as the zero of its sign, and always as that zero up to 2^-1024 (C55_small). So a normal number can come back as 0 (C55_small_lost_refuted: 1.2345678901234567e-300). C55_text_closest: of the decimal texts with as many zeros that read back, the one written for an integer of at least 2^53 is the closest."
  },
  {
   "property": "C56",
   "status": "partial",
   "theorems": [
    "C56_binary",
    "C56_binary_only",
    "C56_special",
    "C56_decimal",
    "C56_nr1",
    "C56_text_only",
    "C56_text_near",
    "C56_text_range",
    "C56_long_exponent_refuted",
    "C56_long_exponent_rejected_refuted",
    "C56_large_number_refuted",
    "C56_panic_refuted",
    "C56_decimal_refuted",
    "C56_names_refuted"
   ],
   "note": "Proved for exponents of 1 to 3 octets and numbers below 2^63, for special values, and that nothing else is accepted in these forms with those length codes; for character forms exactly which texts are read (C56_text_only), exact values for integers (NR1 below 2^32, NR2/NR3 with non-negative exponent below 2^53), and for every NR2/NR3 text of a number from 2^-1022 to 2^1023 a value within a relative 2^-42 (C56_text_near; the loops of Real::new round, so the nearest double is not always kept); outside that range within a relative 2^-42 plus 2^-1075, and from the middle between the largest f64 and 2^1024 on an infinity (C56_text_range). False for the length code 11, for 8-octet numbers with the top bit set, and panics are possible (witnesses)."
  },
  {
   "property": "C57",
   "status": "partial",
   "theorems": [
    "C57_iterate",
    "C57_prefix",
    "C57_input",
    "C57_input_refuted"
   ],
   "note": "The iterators return the elements in order, then the first error, then nothing, for every parser that reads at least one octet per call. SequenceIteratorInput ignores the tags of the elements, so it accepts contents that the collecting readers reject (C57_input_refuted); it agrees with them on contents they accept (C57_input)."
  },
  {
   "property": "C58",
   "status": "partial",
   "theorems": [
    "C58_accept",
    "C58_from_iter",
    "C58_and_then_partial",
    "C58_any_and_then",
    "C58_form_class_refuted"
   ],
   "note": "Exact acceptance for the parsers and from_* entry points; lists of values of every type round-trip through from_iter_to_der. Missing: the class of the object is not checked by any entry point and from_*_and_then/parse_*_and_then do not check the form (C58_form_class_refuted); trailing octets left by the inner parser in the content are dropped."
  },
  {
   "property": "C59",
   "status": "proved",
   "theorems": [
    "C59_accept",
    "C59_roundtrip"
   ],
   "note": "Exact acceptance (an object is of any class, as for every untagged type) and round trip of every list of untyped objects with definite lengths up to 16 MiB."
  },
  {
   "property": "C60",
   "status": "proved",
   "theorems": [
    "C60_opt_tagged"
   ],
   "note": "For every inner parser, class, tag and input."
  },
  {
   "property": "C61",
   "status": "partial",
   "theorems": [
    "C61_as_optional_partial",
    "C61_inner_tag_refuted",
    "C61_exact",
    "C61_base"
   ],
   "note": "Holds for every type with the default conversion from Any whose content parser does not itself report an unexpected tag. A present object whose inner object has the wrong tag is reported absent (C61_inner_tag_refuted). C61_exact: for any content parser, exactly when it is absent, a value or an error. C61_base: the base types never refuse contents for a tag, so of them it is absent exactly when the tag is another."
  },
  {
   "property": "C62",
   "status": "partial",
   "theorems": [
    "C62_indefinite_partial",
    "C62_cut",
    "C62_indefinite_refuted"
   ],
   "note": "Proved for lists in which no value is written without contents under tag number 0. Such a value, e.g. an empty [0] IMPLICIT OCTET STRING, is taken for the end-of-contents marker (C62_indefinite_refuted). C62_cut: the first such value ends the list, for every type, list and input that follows; what was written after it is left over."
  },
  {
   "property": "C63",
   "status": "partial",
   "theorems": [
    "C63_accept_partial",
    "C63_marker_refuted"
   ],
   "note": "Exact acceptance: empty objects with tag number 0 (modulo 2^32), of any class and form and with any header octets; so more than 00 00 is accepted."
  },
  {
   "property": "C64",
   "status": "partial",
   "theorems": [
    "C64_accept_partial",
    "C64_standard_rejected",
    "C64_standard_refuted"
   ],
   "note": "C64_accept_partial says exactly what the four readers accept: objects whose [0] holds two object identifiers directly, with ignored octets after. The identification is a CHOICE, so its tag [0] is explicit; the code reads it as implicit. C64_standard_rejected: every encoding of the standard, of each of the six alternatives, is rejected."
  },
  {
   "property": "C65",
   "status": "partial",
   "theorems": [
    "C65_derived_roundtrip_partial",
    "C65_derived_total_partial",
    "C65_optional_refuted",
    "C65_optional_never",
    "C65_implicit_refuted",
    "C65_default_refuted",
    "C65_set_variant_refuted",
    "C65_optional_absent",
    "C65_absent_refuted"
   ],
   "note": "Proved for every nested declaration without OPTIONAL components, with encodings below 2^24 octets, components under an implicit tag whose content and whole encoding have length octets of one size, and no SetOf variants in CHOICE. Each exclusion is refuted: Option fields are counted wrongly or panic (for every declaration), 126 octets under an implicit tag announce a length one too large, DER defaults are written, SetOf variants are written primitive. C65_optional_absent: exactly what is written for an absent component."
  },
  {
   "property": "C66",
   "status": "partial",
   "theorems": [
    "C66_derived_reads",
    "C66_struct_accept",
    "C66_reading_refuted"
   ],
   "note": "Every encoding below 2^24 octets is read (C66_derived_reads); acceptance is characterised exactly for all inputs (C66_struct_accept), which shows what is not as expected: trailing data ignored, class not looked at, SET in declaration order only, optional components recognised by number alone, DER defaults accepted. Witnesses in C66_reading_refuted."
  },
  {
   "property": "C67",
   "status": "partial",
   "theorems": [
    "C67_choice_reads",
    "C67_choice_none",
    "C67_choice_numbers",
    "C67_class_refuted",
    "C67_implicit_refuted"
   ],
   "note": "Which variant reads an object, and how, is proved for all inputs; numbering is proved. The class is never looked at and an implicit tag over a CHOICE cannot be read: refuted. Writing is C65."
  },
  {
   "property": "C68",
   "status": "proved",
   "theorems": [
    "C68_enum_accept",
    "C68_enum_roundtrip",
    "C68_enum_values"
   ],
   "note": "All inputs and all sets of discriminants. The class of the object is not looked at, which the statement leaves open."
  },
  {
   "property": "C69",
   "status": "partial",
   "theorems": [
    "C69_older_accept",
    "C69_check_partial",
    "C69_older_refuted"
   ],
   "note": "Acceptance is characterised exactly for all inputs; the form bit is not looked at (refuted). The constraint check accepts all encodings of structs of plain components; it rejects absent OPTIONAL and tagged components (refuted). That all encodings are read by from_ber and from_der is part of C66_derived_reads."
  },
  {
   "property": "C70",
   "status": "partial",
   "theorems": [
    "C70_alias_reads",
    "C70_alias_writes",
    "C70_alias_refuted"
   ],
   "note": "parse_ber, parse_der and from_ber are equal on all inputs; the octets written are equal for encodings below 2^24 octets. from_der of an alias skips the DER checks: refuted."
  },
  {
   "property": "C71",
   "status": "partial",
   "theorems": [
    "C71_complete_object_partial",
    "C71_from_der_partial",
    "C71_explicit_refuted",
    "C71_struct_refuted",
    "C71_explicit_exact",
    "C71_struct_exact",
    "C71_derived"
   ],
   "note": "Holds for all older from_ber, for parse_ber/parse_der of types without explicit tags, and for from_der of base types, vectors and choices. Explicit tags and derived structs answer Incomplete on a0 02 02 05 and 30 02 02 05 and keep doing so whatever follows.  C71_explicit_exact: an explicit tag asks for more on a complete object exactly when its header is the right one and the type inside asks for more on the content. C71_struct_exact: a derived struct without field attributes does so exactly when its header is the right one, the first fields are read and the next one is cut short; from_der checks only the tag number of the header.  C71_derived: parse_ber and parse_der of choices, enumerations, aliases and vectors of one another without explicit tags and structs ask for more only when the object itself is cut short."
  },
  {
   "property": "C72",
   "status": "proved",
   "theorems": [
    "C72_reading_ends",
    "C07_more_readers",
    "C07_optional_readers",
    "C07_real_panics"
   ],
   "note": "Loops are modelled with fuel bounded by the input length (400 rounds for the two loops of Real::new); running out of it is an outcome of its own, shown unreachable."
  },
  {
   "property": "C73",
   "status": "proved",
   "theorems": [
    "C73_real_new"
   ],
   "note": "f64 is spec_float of Coq.Floats.SpecFloat; valid_binary 53 1024 says that a value is a datum of the format."
  },
  {
   "property": "C74",
   "status": "partial",
   "theorems": [
    "C74_every_binary",
    "C74_binary",
    "C74_base2",
    "C74_base8_16",
    "C74_rewrite_refuted",
    "C74_text",
    "C74_text_refuted"
   ],
   "note": "C74_every_binary: for every binary object that some parser reads, with one to four octets of exponent and whatever its number, exactly when the value read is written and comes back as the same number (base 2: the exponent of the odd part fits in three octets, or one of two numbers for which the misplaced octet of length happens to do no harm; base 8 and 16: only exponent 0; mantissa 0 never; mantissas from 2^64 never). C74_binary: the same for one to three octets of exponent. C74_base2 and C74_base8_16: the same for numbers of at most 53 bits, where the value is exactly that of the object. C74_text: what is read from any text is written and read back by every parser; special values come back, integers below 2^53 exactly, every other number within a relative 2^-41, tiny and huge ones included; the text 3.E-93 comes back as another number (C74_text_refuted). The full statement is false: 09 04 91 7f ff 01 is read and the loop of the writer is never left; 09 03 80 00 00 is read and the writer panics."
  },
  {
   "property": "C75",
   "status": "partial",
   "theorems": [
    "C75_reads",
    "C75_roundtrip",
    "C75_length",
    "C75_der_order_refuted",
    "C75_implicit"
   ],
   "note": "Reading and round trip are proved for every element type and order. The last clause is false: the DER encoding depends on the order of iteration and is not sorted. C75_implicit: the same under an IMPLICIT tag."
  },
  {
   "property": "C76",
   "status": "partial",
   "theorems": [
    "C76_anyset",
    "C76_unique_refuted",
    "C76_from_ber",
    "C76_operations"
   ],
   "note": "False for AnySet: equality of Any compares the position in the input, so nothing is ever merged (C76_anyset, exact). HashSet<Any>::from_ber reads each item from its own slice and does merge (C76_from_ber). insert and remove of AnySet are described exactly (C76_operations)."
  },
  {
   "property": "C77",
   "status": "partial",
   "theorems": [
    "C77_ber",
    "C77_der",
    "C77_values",
    "C77_lifetime",
    "C77_form_refuted"
   ],
   "note": "BER: equal for every input. DER: the two ways differ exactly on objects in primitive form, which Vec and SetOf from_der accept. to_static is a parameter that copies values; that it does is C102."
  },
  {
   "property": "C78",
   "status": "partial",
   "theorems": [
    "C78_elements_partial",
    "C78_der_mode_refuted"
   ],
   "note": "The mode is ignored: elements are always read as BER. Proved for BER; refuted for DER."
  },
  {
   "property": "C79",
   "status": "partial",
   "theorems": [
    "C79_content_length",
    "C79_total_refuted"
   ],
   "note": "False: it returns the length of the content. Exact value proved for every type expression."
  },
  {
   "property": "C80",
   "status": "partial",
   "theorems": [
    "C80_methods",
    "C80_agree_partial",
    "C80_tag_refuted",
    "C80_relative"
   ],
   "note": "The methods do not look at class or tag number: C80_methods gives exactly what they return (what TryFrom returns after replacing the identifier by that of the type), C80_agree_partial the agreement for objects with the tag number of the type. Refuted for other objects: as_u8 of the OCTET STRING 04 01 05 is 5. relative_oid is described exactly (C80_relative); it accepts the constructed form."
  },
  {
   "property": "C81",
   "status": "partial",
   "theorems": [
    "C81_parse",
    "C81_from_partial",
    "C81_form_refuted",
    "C81_derived",
    "C81_derived_from_partial"
   ],
   "note": "Proved without condition for parse_der and parse_ber of every type, derived types included (structs, sets, choices, enumerations, aliases, with optional, default and tagged fields). For from_der and from_ber proved for all types except Vec, arrays and SetOf, and derived types without them outside an implicit tag or an alias. There it is false: from_der of Vec accepts the primitive form 10 03 02 01 01, from_ber rejects it (C81_form_refuted)."
  },
  {
   "property": "C82",
   "status": "partial",
   "theorems": [
    "C82_class_ignored",
    "C82_tagged_partial",
    "C82_class_refuted"
   ],
   "note": "Proved for tagged types. False for all others: C82_class_ignored shows for every reader of every untagged type that the class bits make no difference, C82_class_refuted has witnesses."
  },
  {
   "property": "C83",
   "status": "partial",
   "theorems": [
    "C83_der",
    "C83_ber_partial",
    "C83_depth_refuted"
   ],
   "note": "DER: equal results, errors included. BER: exact condition; the two-step reader has a recursion limit of 8 instead of 50, so eight nested indefinite lengths are refused (C83_depth_refuted)."
  },
  {
   "property": "C84",
   "status": "partial",
   "theorems": [
    "C84_sum",
    "C84_operators",
    "C84_order_refuted"
   ],
   "note": "Exact result for every list, with overflow checks on; only the order clause fails, for lists whose definite lengths overflow before an indefinite one is met (C84_order_refuted)."
  },
  {
   "property": "C85",
   "status": "proved",
   "theorems": [
    "C85_static_header"
   ],
   "note": "Header::to_static; raw_header is dropped, which no comparison, hash or encoding looks at."
  },
  {
   "property": "C86",
   "status": "partial",
   "theorems": [
    "C86_parse_partial",
    "C86_injective",
    "C86_from_partial",
    "C86_header_refuted",
    "C86_content_refuted",
    "C86_from_refuted",
    "C86_derived_partial",
    "C86_derived_injective",
    "C86_derived_refuted"
   ],
   "note": "Proved for all nested types whose contents have one form, when the headers of the input are the DER ones (any form bit for from_der), and for all derived types over them without OPTIONAL components (which cannot be written). Missing and refuted: foreign classes, long lengths and high tag forms; sets out of order; octets after the object under an explicit tag; odd BMPString; time offsets; through from_der also ENUMERATED, integers under an implicit tag, primitive sequences; in derived types octets after the last component, components with a default value left out, variants of another class."
  },
  {
   "property": "C87",
   "status": "partial",
   "theorems": [
    "C87_transcode_partial",
    "C87_transcode_refuted",
    "C87_derived_valid",
    "C87_derived_partial",
    "C87_derived_refuted"
   ],
   "note": "Proved for all types built from the rewritable base types, for values whose encoding is under 2^24 octets; for derived types over them the value read is one of the type, and is written and read back if there are no OPTIONAL and no implicitly tagged components. Refuted for Integer with redundant octets, BIT STRING with unused bits set, empty BMPString, UniversalString outside ASCII, UTCTime with an offset, OPTIONAL and implicitly tagged components of derived types."
  },
  {
   "property": "C88",
   "status": "partial",
   "theorems": [
    "C88_signed_ber",
    "C88_unsigned_ber_partial",
    "C88_signed_der",
    "C88_unsigned_der_partial",
    "C88_der_cases",
    "C88_too_large_refuted"
   ],
   "note": "Exact result of every reader for every content. Refuted: a negative value for an unsigned type is IntegerNegative, and a negative value with redundant octets that fits a signed type is IntegerTooLarge in BER."
  },
  {
   "property": "C89",
   "status": "partial",
   "theorems": [
    "C89_errors_kept",
    "C89_flatten",
    "C89_location",
    "C89_nom_text_refuted",
    "C89_incomplete_location_refuted",
    "C89_made",
    "C89_append_refuted"
   ],
   "note": "Conversions in both directions are inverse to each other and keep kind, details and message; flattening and locations exact. Two exceptions: the message of a nom error loses its kind in InnerError, and an Incomplete found by a derived reader loses its location. The constructors of Error and BerError agree (C89_made); append keeps the first error of a BerError and replaces that of an Error (C89_append_refuted)."
  },
  {
   "property": "C90",
   "status": "partial",
   "theorems": [
    "C90_reference",
    "C90_option_partial",
    "C90_option_refuted"
   ],
   "note": "References agree for every type but Option: ber_encode is overridden for Option only, so &None is written as 00 00, and &Some(x), or a tagged Some(x), recurses without end in DynTagged::tag."
  },
  {
   "property": "C91",
   "status": "partial",
   "theorems": [
    "C91_of_float",
    "C91_to_float_partial",
    "C91_to_float_refuted",
    "C91_base_two"
   ],
   "note": "Real::from exact. Converting back: one direction; a finite Real beyond the range of f64 is converted to infinity, and Real::binary accepts any mantissa.   C91_base_two: for base 2 (Real::binary with base 2 and everything read from the binary form), exactly when the float is finite, and what it is otherwise."
  },
  {
   "property": "C92",
   "status": "partial",
   "theorems": [
    "C92_check_partial",
    "C92_encodings_pass",
    "C92_hashset",
    "C92_tagged_parser",
    "C92_struct",
    "C92_alias",
    "C92_refuted",
    "C92_why",
    "C92_indefinite",
    "C92_why_list"
   ],
   "note": "Proved: exactly which objects every check accepts, and that every encoding of a value passes. False of the code: the rules of ENUMERATED (shortest form), NULL, UTCTime, SEQUENCE and SET (form and contents), the one octet of BOOLEAN, the bound 7 on unused bits and the form of an explicit tag are not looked at, and BOOLEAN without contents panics (C92_refuted).  For the base types the error of the check is the first rule broken (C92_why).  For lists it is the reason of the first element that does not pass (C92_why_list)."
  },
  {
   "property": "C93",
   "status": "partial",
   "theorems": [
    "C93_parse",
    "C93_from_der",
    "C93_from_ber_partial",
    "C93_fails",
    "C93_refuted"
   ],
   "note": "Proved for all four readers: same inputs, values and remainders; errors of fields go through their function, all others through the conversion. False of the code: a field cut short does not go through its map_err; FromBer gives the conversion of Error::Incomplete, the others report missing octets of a complete object (C93_refuted). Fields with the parse attribute are in C96."
  },
  {
   "property": "C94",
   "status": "proved",
   "theorems": [
    "C94_f32",
    "C94_negative_zero_refuted"
   ],
   "note": "Equality of numbers: the sign of a zero is lost (C94_negative_zero_refuted). f64::powi is modelled as the repeated squaring of compiler_builtins."
  },
  {
   "property": "C95",
   "status": "proved",
   "theorems": [
    "C95_read",
    "C95_build"
   ],
   "note": "For every primitive BIT STRING (any class, any following octets) parse_ber, from_ber and parse_der return one value, and from_der the same if it accepts; its length and every bit are those of the contents. BitString::new and slices of any alignment as well. Constructed BIT STRINGs are the concatenation of their segments (C20). The bitvec crate is modelled by its bytes, the position of the first bit and the number of bits."
  },
  {
   "property": "C96",
   "status": "proved",
   "theorems": [
    "C96_accept",
    "C96_same",
    "C96_roundtrip",
    "C96_orig_input",
    "C96_quiet"
   ],
   "note": "Exact acceptance for BER and DER; equal functions change no result, errors included; orig_input is the contents; no panics, stable under appended octets; values written are read back if the functions read back what is written for their fields, under the conditions of C65_derived_roundtrip_partial."
  },
  {
   "property": "C97",
   "status": "partial",
   "theorems": [
    "C97_header",
    "C97_object",
    "C97_built",
    "C97_compare_refuted"
   ],
   "note": "Proved: fields after any changes, octets written, what all four parsers read back, and equality for headers and objects that were built (not read). False of the code: an object that was read, changed with with_tag and written reads back as an object that does not compare equal, because with_tag and with_class keep the raw tag octets and == compares them (C97_compare_refuted)."
  },
  {
   "property": "C98",
   "status": "partial",
   "theorems": [
    "C98_field_exact",
    "C98_classes",
    "C98_read",
    "C98_optional_untagged",
    "C98_options_exact",
    "C98_generated",
    "C98_variants_exact",
    "C98_enum_exact",
    "C98_shape_exact",
    "C98_any_exact",
    "C98_classes_refuted",
    "C98_custom_tag_refuted",
    "C98_contradiction_refuted",
    "C98_largest_refuted",
    "C98_any_refuted",
    "C98_panics",
    "C98_error_refuted"
   ],
   "note": "Proved for every list of attributes and tokens: exactly which are accepted and what they mean. False in five places, each with a witness: the context-specific class cannot be named; a field with asn1(parse) is written with its tag but read without; tagged_explicit with tagged_implicit is accepted and the last wins; a variant numbered 2^32-1 panics; a type is taken for Any by the first letters of its text. Malformed tag arguments panic (C98_field_exact says which). syn's parser of expressions is a parameter. Refusals of a field are panics exactly at a second tag or a malformed one (C98_panics), against the statement (C98_error_refuted)."
  },
  {
   "property": "C99",
   "status": "partial",
   "theorems": [
    "C99_once",
    "C99_no_conflict",
    "C99_same_line_refuted",
    "C99_path_refuted",
    "C99_prefix_refuted",
    "C99_alias_refuted",
    "C99_everything"
   ],
   "note": "Proved for derives named by a plain word, one reader to a derive attribute, other than BerAlias, DerAlias. False otherwise: two readers in one derive attribute implement Tagged twice, as do readers named by a path and old aliases; a derive of another crate whose name begins like one of ours takes Tagged away. C99_everything: every trait asked for is implemented exactly as often as asked, and a parser or writer left out by asn1(parse/encode) not at all."
  }
 ]
}