{"id": "C01", "title": "Header encode/parse round trip", "statement": "Writing a header with the BER/DER encoder and parsing the bytes back (with any bytes after them) returns the same class, constructed flag, tag number and length, and leaves exactly the bytes that followed.", "quantifier": "every class, constructed flag, 32-bit tag number, 64-bit definite length (or indefinite length on a constructed object) and every trailing byte string", "why_tests_cant": "2^32 tags times 2^64 lengths times unbounded trailing input; boundaries at every 7-bit and 8-bit group", "anchors": ["src/header.rs:parse_header", "src/to_ber/encoder.rs:write_tag_generic", "src/to_ber/encoder.rs:write_length", "src/header.rs:impl ToBer for Header"]}
{"id": "C02", "title": "The header parser accepts exactly the BER identifier/length grammar it documents", "statement": "Header::from_ber succeeds on an input exactly when the input starts with BER identifier octets (low-tag form, or high-tag form with one to five tag octets) followed by BER length octets (short form, long form with 1..126 octets and value below 2^64, or indefinite on a constructed object); the returned header carries the class, form, tag number (modulo 2^32) and length these octets denote, the raw tag and raw header are the matching input bytes, and the rest of the input is returned untouched.", "quantifier": "every byte string", "why_tests_cant": "input space is unbounded; acceptance is an iff", "anchors": ["src/header.rs:parse_header", "src/header.rs:bytes_to_u64_g"]}
{"id": "C03", "title": "Encoded headers are the shortest the parser accepts", "statement": "No header encoding accepted by the parser that denotes the same class, form, tag number and definite length is shorter than the one the encoder writes, and any accepted encoding of the same length is identical to it.", "quantifier": "every header value and every byte string the parser accepts for it", "why_tests_cant": "quantifies over all alternative encodings of all headers", "anchors": ["src/to_ber/encoder.rs:write_tag_generic", "src/to_ber/encoder.rs:write_length", "src/header.rs:parse_header"]}
{"id": "C04", "title": "Announced sizes equal the bytes written", "statement": "For every tag and definite content length, the announced header length equals the number of header bytes the encoder writes, and the announced total length equals header bytes plus content bytes.", "quantifier": "every 32-bit tag and every content length", "why_tests_cant": "fails only for contents of 16 MiB or more, which tests do not build", "anchors": ["src/to_ber.rs:ber_tag_length", "src/to_ber.rs:ber_length_length", "src/to_ber.rs:ber_total_length", "src/to_ber.rs:ber_header_length"]}
{"id": "C05", "title": "Successful parses are stable under more input", "statement": "If parsing a header, an object (BER or DER) or a value of a type succeeds on some bytes, it succeeds with the same result on those bytes followed by anything, with the extra bytes appended to the remainder.", "quantifier": "every byte string and every extension of it", "why_tests_cant": "two unbounded inputs", "anchors": ["src/header.rs:parse_header", "src/asn1_types/any.rs:parse_ber_any", "src/asn1_types/any.rs:parse_der_any"]}
{"id": "C06", "title": "Incomplete is a truthful streaming answer", "statement": "If parsing a header, an object or a value of a type answers Incomplete(n), then n >= 1 and every extension by fewer than n bytes is answered Incomplete as well; and a definitive error on some bytes stays an error when more bytes arrive.", "quantifier": "every byte string and every extension of it", "why_tests_cant": "two unbounded inputs", "anchors": ["src/header.rs:parse_header", "src/asn1_types/any.rs:parse_ber_any", "src/asn1_types/any.rs:parse_der_any"]}
{"id": "C07", "title": "Parsing untrusted bytes never panics", "statement": "No byte string makes the object parsers (headers, objects, iterators and every primitive or constructed type) panic: each returns a value, an error or Incomplete.", "quantifier": "every byte string, for each parser entry point", "why_tests_cant": "absence of a panic over all inputs", "anchors": ["src/ber/parser.rs:get_object_content", "src/asn1_types/boolean.rs:check_constraints", "src/asn1_types/bitstring.rs", "src/input.rs:take"]}
{"id": "C08", "title": "An object parse splits its input", "statement": "A successful object parse splits the input into header bytes, content bytes, an end-of-contents marker exactly when the length is indefinite, and the remainder; the object's data is the content and, for a definite length, has exactly the announced length.", "quantifier": "every byte string on which parsing succeeds (BER and DER)", "why_tests_cant": "unbounded inputs with unbounded nesting", "anchors": ["src/asn1_types/any.rs:parse_ber_any", "src/asn1_types/any.rs:parse_der_any", "src/ber/parser.rs:get_object_content"]}
{"id": "C09", "title": "BER object parsing accepts exactly the nested TLV grammar", "statement": "Any::from_ber accepts an input exactly when it starts with a definite-length object or an indefinite-length object whose content is a sequence of objects closed by an end-of-contents marker, nested at most 49 indefinite levels.", "quantifier": "every byte string", "why_tests_cant": "recursive grammar over unbounded inputs", "anchors": ["src/ber/parser.rs:ber_skip_object_content", "src/asn1_types/any.rs:parse_ber_any"]}
{"id": "C10", "title": "Recursion limit is enforced exactly", "statement": "Indefinite-length objects nested d deep (each properly closed) are accepted for every d from 1 to 49; with 51 or more opening headers the answer is the max-depth error whatever follows, and with exactly 50 as soon as one more header can be read.", "quantifier": "every nesting depth and every trailing input", "why_tests_cant": "unbounded depth", "anchors": ["src/ber/parser.rs:MAX_RECURSION", "src/ber/parser.rs:ber_skip_object_content"]}
{"id": "C11", "title": "DER object parsing is a restriction of BER", "statement": "Whenever Any::from_der accepts an input, Any::from_ber accepts it with the same object and remainder; and an input accepted by from_ber is accepted by from_der exactly when its outer length is definite.", "quantifier": "every byte string", "why_tests_cant": "relates two parsers on all inputs", "anchors": ["src/asn1_types/any.rs:parse_der_any", "src/asn1_types/any.rs:parse_ber_any"]}
{"id": "C12", "title": "Object iteration partitions the content", "statement": "Iterating the sub-objects of a byte string yields objects whose encodings, concatenated in order, are a prefix of it; iteration ends after finitely many steps, with either all bytes consumed or a single final error, and yields nothing afterwards.", "quantifier": "every byte string, every number of calls to next", "why_tests_cant": "unbounded input and call sequences", "anchors": ["src/asn1_types/iterator.rs:AnyIterator"]}
{"id": "C13", "title": "Fixed-width integers round trip through DER and BER", "statement": "For each of i8..i128 and u8..u128 and each value v, decoding the encoding of v (DER or BER, any trailing bytes) returns v and the trailing bytes.", "quantifier": "every value of every fixed-width integer type and every trailing byte string", "why_tests_cant": "2^128 values per type", "anchors": ["src/asn1_types/integer.rs:impl_int", "src/asn1_types/integer.rs:impl_uint"]}
{"id": "C14", "title": "Integer encodings are the minimal two's complement form", "statement": "The content bytes written for an integer denote, as big-endian two's complement, exactly that integer, and no shorter byte string denotes it.", "quantifier": "every value of every fixed-width integer type and every competing byte string", "why_tests_cant": "quantifies over all competing byte strings", "anchors": ["src/asn1_types/integer.rs:impl_int", "src/asn1_types/integer.rs:impl_uint", "src/asn1_types/integer.rs:Integer"]}
{"id": "C15", "title": "DER integers are canonical", "statement": "If two contents are both accepted by the DER parser of an integer type and denote the same value, they are byte-for-byte equal; accepted contents are exactly the minimal ones in range.", "quantifier": "every pair of byte strings", "why_tests_cant": "pairs of unbounded inputs", "anchors": ["src/asn1_types/integer.rs:check_der_int_constraints", "src/asn1_types/integer.rs:impl_int", "src/asn1_types/integer.rs:impl_uint"]}
{"id": "C16", "title": "Integer decoding never silently truncates", "statement": "Whenever decoding an INTEGER content into a fixed-width type succeeds, the result is the two's complement value of the content; a content whose value does not fit is rejected.", "quantifier": "every non-empty content and every fixed-width integer type, BER and DER", "why_tests_cant": "unbounded contents", "anchors": ["src/asn1_types/integer.rs:decode_array_uint", "src/asn1_types/integer.rs:decode_array_int", "src/asn1_types/integer.rs:Integer::as_u8"]}
{"id": "C17", "title": "Integer (arbitrary precision) conversions agree with the value", "statement": "Integer::from(v).as_T() returns v for every value v of T, and as_T fails for values outside T.", "quantifier": "every value and every target type", "why_tests_cant": "all pairs of types and all values", "anchors": ["src/asn1_types/integer.rs:Integer"]}
{"id": "C18", "title": "BOOLEAN and NULL codecs", "statement": "true/false and NULL round trip through BER and DER; DER accepts only the octets 00 and ff, BER accepts any single octet and maps zero to false and everything else to true.", "quantifier": "every content byte string", "why_tests_cant": "acceptance is an iff over all contents", "anchors": ["src/asn1_types/boolean.rs", "src/asn1_types/null.rs"]}
{"id": "C19", "title": "OCTET STRING round trip and reassembly", "statement": "Every byte string round trips through DER and BER; a constructed BER OCTET STRING parses to the concatenation of its segments in order, at every nesting within the recursion limit.", "quantifier": "every byte string and every segmentation tree", "why_tests_cant": "unbounded segmentation trees", "anchors": ["src/asn1_types/octetstring.rs", "src/ber/appendable.rs:parse_ber_segmented"]}
{"id": "C20", "title": "BIT STRING round trip", "statement": "Every bit sequence round trips through DER and BER and the DER encoding has zero padding bits; a constructed BIT STRING parses to the concatenation of its segments' bits.", "quantifier": "every bit sequence and every segmentation", "why_tests_cant": "unbounded bit sequences", "anchors": ["src/asn1_types/bitstring.rs", "src/ber/appendable.rs:parse_ber_segmented"]}
{"id": "C21", "title": "ENUMERATED round trip", "statement": "Every 32-bit enumerated value round trips through BER and DER.", "quantifier": "every 32-bit value and trailing input", "why_tests_cant": "2^32 values", "anchors": ["src/asn1_types/enumerated.rs"]}
{"id": "C22", "title": "OID construction and iteration are inverse", "statement": "For arcs with first arc 0..2, second arc below 40 and later arcs of any u64 size below 2^63, Oid::from builds an OID whose iterator returns exactly these arcs.", "quantifier": "every arc list", "why_tests_cant": "unbounded lists of 64-bit arcs", "anchors": ["src/asn1_types/oid.rs:Oid::from", "src/asn1_types/oid.rs:Oid::iter", "src/asn1_types/oid.rs:encode_relative"]}
{"id": "C23", "title": "OID arcs are encoded minimally", "statement": "Each arc is encoded in base 128 with continuation bits on all but the last octet and no leading 0x80 octet, and distinct arc lists have distinct encodings.", "quantifier": "every arc list", "why_tests_cant": "unbounded lists", "anchors": ["src/asn1_types/oid.rs:encode_relative"]}
{"id": "C24", "title": "OID prefix test matches arcs", "statement": "For OIDs built from arcs, starts_with holds exactly when the arcs of one are a prefix of the arcs of the other.", "quantifier": "every pair of arc lists", "why_tests_cant": "pairs of unbounded lists", "anchors": ["src/asn1_types/oid.rs:starts_with"]}
{"id": "C25", "title": "OID textual form round trips", "statement": "Parsing the dotted text produced for an OID built from arcs gives back the same OID.", "quantifier": "every arc list", "why_tests_cant": "unbounded lists", "anchors": ["src/asn1_types/oid.rs:to_id_string", "src/asn1_types/oid.rs:FromStr"]}
{"id": "C26", "title": "SEQUENCE OF / tuples / arrays round trip compositionally", "statement": "If a component type round trips, so do vectors, fixed arrays, tuples and explicitly or implicitly tagged values of it; hence every type built from the primitive types with these constructors round trips through DER and BER.", "quantifier": "every type expression and every value of it", "why_tests_cant": "infinitely many types", "anchors": ["src/asn1_types/sequence/vec.rs", "src/asn1_types/sequence/tuple.rs", "src/asn1_types/sequence/array.rs", "src/asn1_types/tagged/explicit.rs", "src/asn1_types/tagged/implicit.rs"]}
{"id": "C27", "title": "Length prediction composes", "statement": "For every value of every such type whose encoding stays below 16 MiB, the announced content length is the number of content bytes written, the announced total length is the number of bytes written, and the count returned by the writer is the number of bytes written.", "quantifier": "every type expression and every value", "why_tests_cant": "infinitely many types", "anchors": ["src/to_ber.rs:ber_length_constructed_items", "src/to_ber.rs:ToBer", "src/to_der.rs:ToDer"]}
{"id": "C28", "title": "Optional fields are transparent", "statement": "Parsing Option<T> on input that starts with an accepted tag gives what T gives; on empty input or another tag it gives None and consumes nothing.", "quantifier": "every byte string and element type", "why_tests_cant": "all inputs", "anchors": ["src/asn1_types/optional.rs", "src/from_ber.rs:parse_ber_optional", "src/from_der.rs:parse_der_optional"]}
{"id": "C29", "title": "EXPLICIT tagging", "statement": "The encoding of an explicitly tagged value is an outer constructed header with the requested class and number around the inner encoding; parsing recovers the inner value and rejects any other class, number or form.", "quantifier": "every class, tag number, inner type and value", "why_tests_cant": "unbounded", "anchors": ["src/asn1_types/tagged/explicit.rs", "src/to_ber.rs:ber_encode_tagged_explicit"]}
{"id": "C30", "title": "IMPLICIT tagging", "statement": "The encoding of an implicitly tagged value is the inner encoding with only the identifier octets replaced; parsing recovers the inner value and rejects any other class or number.", "quantifier": "every class, tag number, inner type and value", "why_tests_cant": "unbounded", "anchors": ["src/asn1_types/tagged/implicit.rs", "src/to_ber.rs:ber_encode_tagged_implicit"]}
{"id": "C31", "title": "Distinct DER values have distinct, self-delimiting encodings", "statement": "For every round-tripping type, encodings are injective and prefix-free: if one value's encoding followed by any bytes equals another value's encoding followed by any bytes, the values and the following bytes are equal.", "quantifier": "every pair of values and trailing inputs", "why_tests_cant": "pairs over unbounded domain", "anchors": ["src/to_der.rs:ToDer"]}
{"id": "C32", "title": "Restricted string types enforce their alphabet", "statement": "A restricted string (Numeric, Printable, IA5, Visible, General, Graphic, Teletex, Videotex, ObjectDescriptor) parsed from bytes is returned exactly when every byte is in the documented alphabet, and then is those bytes.", "quantifier": "every content byte string", "why_tests_cant": "unbounded strings", "anchors": ["src/asn1_types/strings:test_valid_charset", "src/asn1_types/strings.rs:asn1_string"]}
{"id": "C33", "title": "BMPString and UniversalString code units", "statement": "Every text of basic/any code points round trips through BMPString (UTF-16BE) and UniversalString (UCS-4), with announced length equal to the written length.", "quantifier": "every text", "why_tests_cant": "unbounded texts", "anchors": ["src/asn1_types/strings/bmpstring.rs", "src/asn1_types/strings/universalstring.rs"]}
{"id": "C34", "title": "UTF8String round trip and validity", "statement": "A UTF8String content is accepted exactly when it is well-formed UTF-8 and then denotes that code point sequence; every text round trips.", "quantifier": "every byte string and every text", "why_tests_cant": "unbounded", "anchors": ["src/asn1_types/strings/utf8string.rs"]}
{"id": "C35", "title": "UTCTime round trip", "statement": "For every two-digit-year date-time with fields in range and zone Z, formatting and parsing returns the same fields, and the content is 13 bytes.", "quantifier": "every date-time", "why_tests_cant": "10^12 values", "anchors": ["src/asn1_types/utctime.rs"]}
{"id": "C36", "title": "GeneralizedTime round trip", "statement": "For every date-time with year up to 9999, fields in range, optional milliseconds and zone Z, formatting and parsing returns the same fields.", "quantifier": "every date-time", "why_tests_cant": "10^17 values", "anchors": ["src/asn1_types/generalizedtime.rs", "src/datetime.rs"]}
{"id": "C37", "title": "Time strings denote the instant they spell", "statement": "Whenever a UTCTime or GeneralizedTime content is accepted, the returned fields are the decimal fields of the content, and re-encoding keeps the instant.", "quantifier": "every content", "why_tests_cant": "all byte strings", "anchors": ["src/asn1_types/utctime.rs:from_bytes", "src/asn1_types/generalizedtime.rs:from_bytes"]}
{"id": "C38", "title": "Header equality is an equivalence compatible with hashing", "statement": "Header's == is reflexive, symmetric and transitive, and equal headers hash equally.", "quantifier": "every triple of headers", "why_tests_cant": "triples", "anchors": ["src/header.rs:impl PartialEq for Header", "src/header.rs:impl Hash for Header"]}
{"id": "C39", "title": "DER rejects non-minimal headers", "statement": "Every object accepted by a DER parser has its identifier and length octets in the shortest form.", "quantifier": "every byte string", "why_tests_cant": "all inputs", "anchors": ["src/header.rs:Header::from_der", "src/asn1_types/any.rs:parse_der_any"]}
{"id": "C40", "title": "REAL binary encoding denotes its value", "statement": "Decoding the encoding of a binary REAL returns a real with the same mathematical value, for every mantissa, base and exponent the type can hold.", "quantifier": "every mantissa, base and exponent", "why_tests_cant": "64-bit by 32-bit domains", "anchors": ["src/asn1_types/real.rs"]}
{"id": "C41", "title": "Input spans locate results in the original input", "statement": "Every input slice handed back by the parsers (remainder, content, iterated item) carries the byte range at which it occurs in the original input.", "quantifier": "every byte string and every sequence of parse steps", "why_tests_cant": "all inputs", "anchors": ["src/input.rs", "src/ber/parser.rs", "src/asn1_types/iterator.rs"]}
{"id": "C42", "title": "DER SET OF ordering", "statement": "The DER encoding of a SET OF lists its elements in ascending order of their encodings and the decoder accepts only that order.", "quantifier": "every set", "why_tests_cant": "all sets", "anchors": ["src/asn1_types/set/btreeset.rs", "src/asn1_types/set/set_of.rs"]}
{"id": "C43", "title": "int! yields the Integer of its literal", "statement": "For every u64 literal n, int!(n) is an Integer whose content is the shortest two's complement form of n.", "quantifier": "every 64-bit literal", "why_tests_cant": "2^64 literals", "anchors": ["src/asn1_types/integer.rs:int!", "impl/src/lib.rs:encode_int"]}
{"id": "C44", "title": "BER integer decoding accepts every content whose value fits", "statement": "Every primitive INTEGER content, padded with any number of sign octets, whose value lies in a fixed-width type is accepted by the BER parser of that type.", "quantifier": "every content and every fixed-width type", "why_tests_cant": "contents of unbounded length", "anchors": ["src/asn1_types/integer.rs:decode_array_int", "src/asn1_types/integer.rs:decode_array_uint"]}
{"id": "C46", "title": "OID iterator announces its number of arcs", "statement": "The length announced by the exact-size sub-identifier iterator is the number of arcs it still returns.", "quantifier": "every OID and every iterator position", "why_tests_cant": "unbounded arc lists and positions", "anchors": ["src/asn1_types/oid.rs:ExactSizeIterator for SubIdentifierIterator"]}
{"id": "C47", "title": "The oid! macro agrees with Oid::from", "statement": "For every arc list the macro accepts, the OID it builds equals the one built by Oid::from (Oid::from_relative for rel), and for first arcs up to 2 it accepts the same lists.", "quantifier": "every arc list", "why_tests_cant": "unbounded arc lists; the macro runs at compile time", "anchors": ["impl/src/lib.rs:encode_oid", "impl/src/lib.rs:encode_base128", "src/asn1_types/oid.rs:oid!"]}
{"id": "C48", "title": "OID values round trip through BER and DER", "statement": "Every OID with non-empty contents, absolute or relative, written and parsed by the BER and DER parsers is returned unchanged, with the bytes after it; the parsers accept exactly the primitive non-empty objects of tag 6 or 13.", "quantifier": "every OID, every trailing input", "why_tests_cant": "unbounded contents", "anchors": ["src/asn1_types/oid.rs:ToBer", "src/asn1_types/oid.rs:BerParser", "src/asn1_types/oid.rs:from_ber_relative"]}
{"id": "C49", "title": "OID contents are decoded as in X.690", "statement": "If the contents octets are the X.690 8.19 encoding of a list of arcs below 2^63, the iterator returns these arcs; other contents are rejected.", "quantifier": "every contents string", "why_tests_cant": "unbounded byte strings", "anchors": ["src/asn1_types/oid.rs:SubIdentifierIterator::next", "src/asn1_types/oid.rs:from_ber_content"]}
{"id": "C50", "title": "Any::as_any_str returns the text of a string object", "statement": "For every string object, as_any_str/as_any_string on the untyped object return the text that the parser of the type named by its tag returns, and fail when that parser rejects the object.", "quantifier": "every object", "why_tests_cant": "relates two decoders on all contents of all string types, in both forms", "anchors": ["src/asn1_types/any.rs:as_any_str", "src/asn1_types/any.rs:as_any_string"]}
{"id": "C51", "title": "SEQUENCE OF and SET OF accept exactly the sequences of their elements", "statement": "A vector, fixed array, SET OF or set is accepted, by every entry point, exactly when the input starts with a constructed object of the right tag whose content is a sequence of encodings accepted by the element type, and the values returned are the values of these elements in order; reading always ends.", "quantifier": "every element type and every byte string", "why_tests_cant": "infinitely many types, unbounded element lists, and non-termination", "anchors": ["src/asn1_types/sequence/vec.rs", "src/asn1_types/sequence/array.rs", "src/asn1_types/set/set_of.rs", "src/asn1_types/set/btreeset.rs", "src/asn1_types/sequence/iterator.rs"]}
{"id": "C52", "title": "DER times are canonical", "statement": "In DER, exactly the UTCTimes of the form YYMMDDhhmmssZ and the GeneralizedTimes of the form YYYYMMDDhhmmss[.f]Z, f without trailing zero, are accepted, and the writers produce only these.", "quantifier": "every content and every date-time value", "why_tests_cant": "all byte strings, 10^17 values", "anchors": ["src/asn1_types/utctime.rs", "src/asn1_types/generalizedtime.rs"]}
{"id": "C53", "title": "Times convert to the instant they spell", "statement": "For every accepted UTCTime or GeneralizedTime that is a calendar date, the conversions to a date-time and to a timestamp give the instant written in the content (UTCTime years being 1950 to 2049).", "quantifier": "every accepted content", "why_tests_cant": "all dates, leap years and offsets", "anchors": ["src/datetime.rs:to_datetime", "src/asn1_types/utctime.rs:utc_adjusted_datetime", "src/asn1_types/utctime.rs:timestamp", "src/asn1_types/generalizedtime.rs:utc_datetime"]}
{"id": "C54", "title": "Displayed times spell the instant read", "statement": "For every accepted UTCTime or GeneralizedTime, Display does not panic and prints the date, time, fraction and offset that were read.", "quantifier": "every accepted content", "why_tests_cant": "all byte strings", "anchors": ["src/asn1_types/utctime.rs:impl Display", "src/asn1_types/generalizedtime.rs:impl Display"]}
{"id": "C56", "title": "REAL contents read as the number X.690 gives them", "statement": "For every REAL object of definite length with binary, special or character contents octets, the parsers return the number X.690 8.5 (and ISO 6093) assigns to the octets (rounded to the nearest double when the number has more than 53 bits), never panic, and accept no contents octets outside the standard.", "quantifier": "every contents octets", "why_tests_cant": "all byte strings", "anchors": ["src/asn1_types/real.rs:decode_real"]}
{"id": "C55", "title": "f64 values survive writing as REAL and reading back", "statement": "Every f64 (NaN taken as one value) written by its ToBer/ToDer implementation is read back equal, sign of zero included, by parse_ber, parse_der, from_ber and from_der, with the octets that follow left over.", "quantifier": "all f64 values, all following octets", "why_tests_cant": "There are 2^64 values, and the failing ones are decided by repeated rounding in normalization to base 10; sample values such as 10.5 or integers pass.", "anchors": ["src/asn1_types/real/f64.rs", "src/asn1_types/real.rs"]}
{"id": "C57", "title": "Iterators return each element once, in order, and stop", "statement": "SequenceIterator and SetIterator return the elements that successive parser calls read from the content, in order, then the first error if there is one, and then nothing, for any number of further calls; collecting them all and the typed input iterator agree on what a content holds.", "quantifier": "every element parser, every content, every number of calls", "why_tests_cant": "unbounded call counts and contents, arbitrary parsers", "anchors": ["src/asn1_types/sequence/iterator.rs:SequenceIterator", "src/asn1_types/sequence/iterator.rs:SequenceIteratorInput", "src/asn1_types/set/iterator.rs"]}
{"id": "C58", "title": "Raw Sequence and Set wrap exactly one constructed object", "statement": "Sequence and Set read exactly the constructed objects of their universal tag and return the content unchanged; built from a list of values they hold the concatenated encodings and read back as this list; and_then entry points run the inner parser on the content of exactly such an object.", "quantifier": "every byte string, every list of values of every type", "why_tests_cant": "unbounded contents and arbitrary inner parsers", "anchors": ["src/asn1_types/sequence.rs", "src/asn1_types/set.rs", "src/asn1_types/any.rs:from_ber_and_then"]}
{"id": "C59", "title": "AnySequence and AnySet preserve arbitrary members", "statement": "AnySequence and AnySet accept exactly the constructed objects whose content is a sequence of readable objects, return these objects in order, and a list of untyped objects written and read back is the same list of objects.", "quantifier": "every list of objects, every byte string", "why_tests_cant": "unbounded lists of arbitrary objects", "anchors": ["src/asn1_types/sequence/any_sequence.rs", "src/asn1_types/set/any_set.rs"]}
{"id": "C60", "title": "OptTaggedParser reads a tagged object if and only if it is there", "statement": "OptTaggedParser returns None and consumes nothing when the input is empty or starts with an object of another class or tag; otherwise it returns the header and the value that the inner parser reads from the content.", "quantifier": "every input, class, tag and inner parser", "why_tests_cant": "arbitrary inner parsers and inputs", "anchors": ["src/asn1_types/tagged/parser.rs", "src/asn1_types/tagged/optional.rs", "src/asn1_types/tagged/builder.rs"]}
{"id": "C61", "title": "Any::as_optional is None exactly for another type's object", "statement": "as_optional returns None exactly when the object's tag is not one of the type, and otherwise the type's value or its error.", "quantifier": "every type and every object", "why_tests_cant": "all objects of all types", "anchors": ["src/asn1_types/any.rs:as_optional"]}
{"id": "C62", "title": "Indefinite-length sequences read back", "statement": "A list written by IndefiniteVec is 30 80, the encodings of the elements, 00 00; read as BER it is the same list with the bytes after it left over; DER readers reject it.", "quantifier": "every element type and list of values, every following input", "why_tests_cant": "infinitely many types, unbounded lists", "anchors": ["src/to_ber/constructed_indefinite.rs"]}
{"id": "C63", "title": "EndOfContent is read from 00 00 only", "statement": "EndOfContent parses exactly the inputs that start with the two octets 00 00.", "quantifier": "every input", "why_tests_cant": "all byte strings", "anchors": ["src/asn1_types/end_of_content.rs"]}
{"id": "C64", "title": "EMBEDDED PDV encodings read as their value", "statement": "The readers of EmbeddedPdv accept exactly the encodings of EMBEDDED PDV values (X.680 36.5, automatic tags), for each of the six alternatives of identification, and return the value.", "quantifier": "every value and every encoding of it, every byte string", "why_tests_cant": "six alternatives with unbounded contents, free length forms", "anchors": ["src/asn1_types/embedded_pdv.rs"]}
{"id": "C65", "title": "Values of derived types are written and read back", "statement": "A value of a type declared with the derive macros (Sequence, Set, Choice, Enumerated, Alias, nested at will, with tag, optional and default attributes) is written as the one DER encoding of its declaration, the announced lengths are those of the octets written, and parse_ber, parse_der, from_ber and from_der give the value back with the octets that follow.", "quantifier": "every declaration built from the supported types and attributes, every value", "why_tests_cant": "infinitely many declarations and values; the macro expands differently for each", "anchors": ["derive/src/container.rs", "derive/src/sequence.rs", "derive/src/set.rs", "derive/src/choice.rs", "derive/src/enumerated.rs", "derive/src/alias.rs"]}
{"id": "C66", "title": "Derived SEQUENCE and SET read exactly their encodings", "statement": "Every encoding of a derived struct is read, with OPTIONAL and DEFAULT components present or absent; and what is accepted is exactly an object with the tag of the struct, constructed, whose contents are the components in order (for SET in any order) and nothing else, DER components with their default value absent.", "quantifier": "every declaration, every byte string", "why_tests_cant": "all byte strings, infinitely many declarations", "anchors": ["derive/src/container.rs:gen_berparser", "derive/src/container.rs:get_field_berparser"]}
{"id": "C67", "title": "Derived CHOICE takes the variant its tag names", "statement": "A derived CHOICE reads an object as the first variant that has its class and tag (the tag type of the variant, or context-specific with the number of the variant) and rejects any other; the numbers are those given, or one more than the variant before, and no two are alike.", "quantifier": "every CHOICE declaration, every input", "why_tests_cant": "all tag numbers, classes and variant types", "anchors": ["derive/src/choice.rs:derive_choice_parser_tagged", "derive/src/choice.rs:derive_choice_parser_untagged", "derive/src/choice.rs:parse_tag_variants"]}
{"id": "C68", "title": "Derived ENUMERATED accepts exactly its declared values", "statement": "A derived ENUMERATED is read exactly from a primitive object with tag number 10 whose contents are an unsigned 32-bit integer equal to one of the declared discriminants (in DER, in shortest form); every declared value is written in DER and read back; discriminants follow the rule of Rust enums.", "quantifier": "every set of discriminants below 2^32, every byte string", "why_tests_cant": "2^32 discriminants and all byte strings", "anchors": ["derive/src/enumerated.rs"]}
{"id": "C69", "title": "The older derives read what the newer ones read", "statement": "from_ber and from_der of BerSequence, DerSequence, BerSet and DerSet accept exactly a constructed object with the tag of the struct whose contents are the components, and their constraint check accepts every DER encoding of the struct.", "quantifier": "every declaration, every byte string", "why_tests_cant": "all byte strings, infinitely many declarations", "anchors": ["derive/src/container.rs:gen_tryfrom", "derive/src/container.rs:gen_fromder", "derive/src/container.rs:gen_checkconstraints"]}
{"id": "C70", "title": "A derived alias behaves as the type it names", "statement": "An Alias reads exactly what the aliased type reads, through parse_ber, parse_der, from_ber and from_der, and writes the same octets.", "quantifier": "every aliased type, every value, every byte string", "why_tests_cant": "all types and byte strings", "anchors": ["derive/src/alias.rs"]}
{"id": "C71", "title": "A complete object is never answered Incomplete", "statement": "When the input starts with a complete object, no typed reader answers Incomplete: a truncated element inside it is an error, since no further input can complete it.", "quantifier": "every type, every input", "why_tests_cant": "all types and inputs; the wrong answer makes a streaming caller wait for ever", "anchors": ["src/traits.rs:BerParser", "src/asn1_types/tagged/explicit.rs:from_ber_content", "derive/src/container.rs"]}
{"id": "C72", "title": "Reading ends", "statement": "No input makes a reading loop run on: every loop of the readers of every type over the input is left after at most as many rounds as there are octets in the input, and the loops of REAL are left.", "quantifier": "every type, every input", "why_tests_cant": "absence of endless loops over all inputs", "anchors": ["src/ber/parser.rs", "src/asn1_types/sequence/iterator.rs", "src/asn1_types/iterator.rs", "src/ber/appendable.rs"]}
{"id": "C73", "title": "Real::new returns a decimal form close to its argument", "statement": "For every f64, Real::new returns. Infinities, NaN and zero give the special values. Any other number gives an integral mantissa that is not a multiple of 10 with an exponent of 10, within one part in 2^43 of the argument, and exactly the argument when it is an integer.", "quantifier": "every f64", "why_tests_cant": "2^64 arguments, rounding at every step of a loop", "anchors": ["src/asn1_types/real.rs:new", "src/asn1_types/real.rs:normalize_base10"]}
{"id": "C74", "title": "A REAL that has been read can be written", "statement": "Every REAL value returned by a reader is written by the writer, without panic or endless loop, as octets that read back as the same number.", "quantifier": "every byte string accepted as a REAL", "why_tests_cant": "all byte strings; one of the failures is a loop that is not left", "anchors": ["src/asn1_types/real.rs:decode_real", "src/asn1_types/real.rs:drop_floating_point"]}
{"id": "C75", "title": "A HashSet holds the distinct elements of the encoded set", "statement": "Reading a HashSet<T> gives what reading a SetOf<T> gives, with the set of the elements in place of the list, errors included; writing it in any order of iteration gives an encoding that reads back as the same set; its DER encoding is the one encoding of the set (X.690 11.6).", "quantifier": "every element type, every input, every set and order of iteration", "why_tests_cant": "all inputs, and every order a hasher may give", "anchors": ["src/asn1_types/set/hashset.rs"]}
{"id": "C76", "title": "An AnySet holds each object once", "statement": "The items of an AnySet are unique: two objects of the content with the same octets are one item; every object of the content is represented.", "quantifier": "every input", "why_tests_cant": "equality depends on where an object lies in the input", "anchors": ["src/asn1_types/set/any_set.rs", "src/asn1_types/any.rs:Any", "src/input.rs:Input"]}
{"id": "C77", "title": "Converting a Sequence or Set gives what reading SEQUENCE OF or SET OF gives", "statement": "Reading a Sequence (Set) and then calling ber_sequence_of, der_sequence_of, into_ber_sequence_of, into_der_sequence_of or into_der_sequence_of_ref (likewise for Set) gives the same as reading Vec<T> or SequenceOf<T> (SetOf<T>), also from a static copy for those that allow it.", "quantifier": "every element type, every input", "why_tests_cant": "all types and inputs", "anchors": ["src/asn1_types/sequence.rs:into_der_sequence_of", "src/asn1_types/set.rs:into_der_set_of", "src/asn1_types/sequence/vec.rs"]}
{"id": "C78", "title": "iter_elements reads in the mode asked for", "statement": "Any::iter_elements::<Mode> iterates over the objects of the content, read as Mode says.", "quantifier": "every object, both modes", "why_tests_cant": "all contents", "anchors": ["src/asn1_types/any.rs:iter_elements"]}
{"id": "C79", "title": "to_der_len is the length of the encoding", "statement": "to_der_len returns the length of the object, including the header, when encoded.", "quantifier": "every type, every value", "why_tests_cant": "all types and values", "anchors": ["src/to_der.rs:to_der_len"]}
{"id": "C45", "title": "from_ber and parse_ber accept the same octets, and so do from_der and parse_der", "statement": "The two families of readers of one type agree: from_ber(i) = Ok(rem, v) exactly when parse_ber(i) = Ok(rem, v), and from_der(i) = Ok(rem, v) exactly when parse_der(i) = Ok(rem, v).", "quantifier": "every type, every input", "why_tests_cant": "all nested types and all inputs; the exceptions are single bits and octets deep in an encoding", "anchors": ["src/from_ber.rs:FromBer", "src/from_der.rs:FromDer", "src/from_ber.rs:BerParser", "src/from_der.rs:DerParser"]}
{"id": "C81", "title": "Everything read as DER is read the same as BER", "statement": "DER is a subset of BER: if parse_der(i) = Ok(rem, v) then parse_ber(i) = Ok(rem, v); if from_der(i) = Ok(rem, v) then from_ber(i) = Ok(rem, v).", "quantifier": "every type, every input", "why_tests_cant": "all nested types and all inputs", "anchors": ["src/from_der.rs:DerParser", "src/asn1_types/sequence/vec.rs", "src/asn1_types/set/set_of.rs"]}
{"id": "C80", "title": "The methods of Any agree with TryFrom", "statement": "Any::as_u8, Any::bool and the other methods that attempt to convert an object to one ASN.1 type succeed exactly when TryFrom<Any> of that type does, with the same value; in particular an object of another type is refused.", "quantifier": "every type with a method, every object", "why_tests_cant": "every pair of types and every content", "anchors": ["src/asn1_types/any.rs:impl_any_as", "src/asn1_types/any.rs:impl_any_into", "src/asn1_types/any.rs:relative_oid"]}
{"id": "C82", "title": "A typed reader accepts only objects of the class of its type", "statement": "Every reader of a type succeeds only on objects whose class is the class of the type: universal for base types and containers, the given class for tagged types.", "quantifier": "every type, every input", "why_tests_cant": "the class is two bits that no test varies", "anchors": ["src/from_ber.rs:BerParser", "src/from_der.rs:DerParser", "src/asn1_types/any.rs:impl_tryfrom_any"]}
{"id": "C83", "title": "Reading the header and then its contents is reading the object", "statement": "Header::parse_ber followed by Header::parse_ber_content (or Any::parse_ber_content) gives the header, contents and rest that Any::parse_ber gives, and fails when it fails; likewise for DER.", "quantifier": "every input", "why_tests_cant": "all inputs; the recursion limits differ", "anchors": ["src/header.rs:parse_ber_content", "src/header.rs:parse_der_content", "src/asn1_types/any.rs:parse_ber_content"]}
{"id": "C84", "title": "Adding lengths", "statement": "The sum of lengths is indefinite when one of them is and otherwise the total; all operators agree; the sum does not depend on the order; it panics only when the total does not fit usize.", "quantifier": "every list of lengths", "why_tests_cant": "all lists and all values of usize", "anchors": ["src/length.rs"]}
{"id": "C85", "title": "A static copy of a header is as good as the original", "statement": "Header::to_static gives a header that compares equal to the original, to whatever the original is equal to, hashes to the same value, and is written as the same octets.", "quantifier": "every header", "why_tests_cant": "all headers", "anchors": ["src/header.rs:to_static"]}
{"id": "C86", "title": "What is accepted as DER is the encoding of its value", "statement": "DER has one encoding per value: if parse_der(i) (or from_der(i)) of a type returns Ok(rem, v), the octets consumed are those that to_der_vec of v writes; so two inputs read as the same value consume the same octets.", "quantifier": "every type, every input", "why_tests_cant": "malleable encodings differ from the canonical one in single octets at any depth", "anchors": ["src/from_der.rs:DerParser", "src/from_der.rs:FromDer", "src/header.rs", "src/to_der.rs"]}
{"id": "C87", "title": "Every value that is read can be written as DER and read back", "statement": "If a reader of a type returns Ok(rem, v) on any input (BER or DER), then to_der_vec of v succeeds, and every reader of the type returns v from the octets written.", "quantifier": "every type, every input", "why_tests_cant": "values that only come from unusual BER are never written in tests", "anchors": ["src/from_ber.rs:BerParser", "src/to_der.rs", "src/asn1_types/integer.rs", "src/asn1_types/bitstring.rs"]}
{"id": "C88", "title": "An integer that does not fit is reported as IntegerTooLarge", "statement": "If the object is an INTEGER and its value does not fit the integer type, the reader returns IntegerTooLarge; if it fits it is returned. DER readers first name the redundant octets.", "quantifier": "every integer type, every content", "why_tests_cant": "all contents of all lengths; the error depends on sign and width", "anchors": ["src/asn1_types/integer.rs", "src/lib.rs"]}
{"id": "C89", "title": "Converting an error keeps what it says", "statement": "Converting an error between Error, InnerError and BerError, and back, gives the same error: the same kind, details and message, and a BerError keeps its location. Flattening a nom::Err gives the error inside, and for Incomplete an error with the same number of octets missing.", "quantifier": "every error with every payload, every location", "why_tests_cant": "a wrong arm in one of two 21-way matches shows only for the errors a test provokes", "anchors": ["src/error.rs:from_nom_berr", "src/error.rs:from_nom_error", "src/error.rs:from_nom_bererror"]}
{"id": "C90", "title": "A reference or an Option is written as the value behind it", "statement": "For every value, a reference to it is written as the same octets as the value, by every method of ToBer and ToDer; an Option is written as the value it holds, or as nothing, also through a reference and with a tag.", "quantifier": "every value and tag", "why_tests_cant": "the methods differ in which defaults they reach; tests call only one of them", "anchors": ["src/to_ber.rs:ber_encode", "src/to_der.rs:der_encode", "src/asn1_types/optional.rs"]}
{"id": "C91", "title": "Real::is_finite and is_infinite tell what the float tells", "statement": "For every f64, Real::from it is finite or infinite exactly as the float is, and converting a Real back to f64 gives a finite float exactly when is_finite says so.", "quantifier": "every f64, every Real", "why_tests_cant": "2^64 floats and unbounded exponents", "anchors": ["src/asn1_types/real.rs:is_finite", "src/asn1_types/real.rs:is_infinite"]}
{"id": "C92", "title": "check_constraints accepts exactly the objects that keep to the DER rules of the type", "statement": "For every type and every object (header and contents), CheckDerConstraints::check_constraints of the type returns Ok if and only if the object has definite length, the form of the type and contents allowed by DER, recursively for the elements of containers and the value under a tag; it never panics.", "quantifier": "every type built from the primitive ones, every header and contents", "why_tests_cant": "types nest without bound and the checks are written by hand for each of them, so a forgotten line in one shows only on a malformed object of that type", "anchors": ["src/traits.rs", "src/asn1_types/sequence/vec.rs", "src/asn1_types/set/set_of.rs", "src/asn1_types/set/btreeset.rs", "src/asn1_types/set/hashset.rs", "src/asn1_types/tagged/explicit.rs", "src/asn1_types/tagged/implicit.rs", "src/asn1_types/optional.rs", "src/asn1_types/bitstring.rs", "src/asn1_types/boolean.rs", "derive/src/container.rs"]}
{"id": "C93", "title": "Custom errors of derived structs change nothing but errors", "statement": "For every struct derived with the attributes error and map_err, every reader accepts the same inputs with the same values and remainders as without them; when a field cannot be read, the error is that of the field passed through its map_err function, or through From if it has none; errors outside the fields pass through From.", "quantifier": "every struct, every error type, conversion and map_err functions, every input", "why_tests_cant": "user-supplied functions and types are arbitrary; tests fix one", "anchors": ["derive/src/container.rs:get_field_parser", "derive/src/container.rs:get_field_berparser", "derive/src/container.rs:gen_tryfrom", "derive/src/container.rs:gen_fromder", "derive/src/container.rs:gen_berparser", "src/error.rs:from_nom_error"]}
{"id": "C94", "title": "f32 values survive writing as REAL and reading back", "statement": "Every f32 written by its ToBer/ToDer implementation is read back equal by parse_ber, parse_der, from_ber and from_der, with the octets that follow left over; a NaN is read back as a NaN (zeros of either sign are equal).", "quantifier": "all f32 values, all following octets", "why_tests_cant": "There are 2^32 values, each going through repeated multiplication and division by 10 in f64, shortest decimal text, parsing, a power of 10 and rounding to f32; whether the accumulated errors stay below half a unit of f32 for all of them is not visible from samples, and for f64 they do not.", "anchors": ["src/asn1_types/real/f32.rs", "src/asn1_types/real.rs"]}
{"id": "C95", "title": "A BitString tells the bits of its contents", "statement": "For every primitive BIT STRING accepted by a reader, len is eight times the number of octets after the first, less the first octet, and is_set(n) is bit 7 - n mod 8 of octet n / 8 of these when n is below len and false otherwise; the same holds for BitString::new, and a BitString built from a slice of bits tells these bits, wherever in a byte the slice begins.", "quantifier": "every contents, every index, every slice and position", "why_tests_cant": "every index of every length and alignment; a wrong bit order or an index that reaches the padding shows only for some", "anchors": ["src/asn1_types/bitstring.rs"]}
{"id": "C96", "title": "Custom parsers of derived structs see the octets the fields before them left", "statement": "For every struct derived with Sequence or Set, with the attribute asn1(parse) on any of its fields, the generated parse_ber and parse_der accept exactly the constructed objects with the tag of the struct whose contents can be read field by field, a field with the attribute by its function, from the octets left by the fields before it, with the header and (orig_input) all of the contents at hand; the next field is read from what the function leaves; a function that does what the generated reader does changes no result; functions that do not panic give readers that do not panic and never read past the end the header announces; and where values of the struct are read back without the attribute (C65), they are read back with functions that read back what is written for their fields.", "quantifier": "every struct, every function, every input", "why_tests_cant": "the functions are arbitrary, may depend on fields before them and may return any octets; tests fix a constant function", "anchors": ["derive/src/container.rs:get_field_berparser", "derive/src/options.rs", "doc/DERIVE.md"]}
{"id": "C97", "title": "Objects and headers built or changed by hand are written as described", "statement": "A Header made from a tag, or an Any made from a tag and contents, is universal, constructed exactly for SEQUENCE and SET, and of definite length. After any number of with_class, with_constructed, with_tag and with_length each field has the last value given to it; the header or object is written with these values and the same contents, every parser reads exactly that back, and what is read back compares equal to what was written.", "quantifier": "every tag, every contents, every sequence of changes, also of objects that were read", "why_tests_cant": "all tags, contents and sequences of changes; a stale field shows only when an object is read, changed and compared", "anchors": ["src/header.rs:new_simple", "src/header.rs:with_tag", "src/asn1_types/any.rs:from_tag_and_data", "src/asn1_types/any.rs:with_tag"]}
{"id": "C98", "title": "The attributes of a derived declaration mean what they say, or the declaration is refused", "statement": "For every struct, enum and field with every list of attributes, the macros either refuse the declaration or generate code that does exactly what the attributes say: a field is optional if it has the attribute optional or default, takes the default given, is read and written with the tag named (any class, any number that fits), and is read by the function given; the implementations generated are those named by asn1(parse) and asn1(encode), all if none is named; variants are numbered by their attribute or discriminant, else one more than the variant before, and no two variants of a Choice have one number. Attributes that contradict each other are refused, as are unknown items and malformed arguments, by an error and not a panic.", "quantifier": "every declaration, every list of attributes and tokens in them", "why_tests_cant": "attributes can come in any number, order and spelling; tests use the few spellings of the documentation, and a declaration that should be refused cannot be in a test that compiles", "anchors": ["derive/src/container.rs:from_datastruct", "derive/src/container.rs:try_from", "derive/src/container.rs:parse_tag_args", "derive/src/options.rs:from_struct", "derive/src/asn1_type.rs:parse_multi", "derive/src/choice.rs:parse_tag_variants", "derive/src/choice.rs:get_variant_tag", "derive/src/enumerated.rs:parse_enum_variants"]}
{"id": "C99", "title": "Several derives on one declaration implement each trait once", "statement": "For every list of derive attributes naming macros of the crate, without asking twice for the same thing, what is generated implements no trait twice, and implements Tagged (or DynTagged) exactly once if any reader is derived, whatever the order of the derives and however they are written.", "quantifier": "every list and order of derives", "why_tests_cant": "each macro sees only the attributes below its own and decides alone; the combinations are many and a wrong one does not compile, so no test contains it", "anchors": ["derive/src/check_derive.rs:check_lastderive_fromber", "derive/src/sequence.rs", "derive/src/alias.rs", "derive/src/choice.rs", "derive/src/lib.rs"]}
{"id": "C100", "title": "Times are ordered by the instants they denote", "statement": "For every two times of the same type (UTCTime or GeneralizedTime), the order of the values (Ord, by which a BTreeSet keeps them) is the order of the instants they denote; equal means equal.", "quantifier": "every two values, with any zones", "why_tests_cant": "the order is derived from the fields; whether that is the order of instants depends on calendar, offsets and the century of a UTCTime", "anchors": ["src/datetime.rs", "src/asn1_types/utctime.rs", "src/asn1_types/generalizedtime.rs"]}
{"id": "C101", "title": "Logging changes no result", "statement": "Switching the features debug and trace on or off changes no result of any reader, in any build: the same objects are accepted with the same values, remainders and spans, the others are rejected with the same errors, and nothing panics that did not. With both off nothing is logged; with debug, every traced function that fails logs its message, the start of its input, the error and the first sixteen octets there, and an object that is read logs nothing unless trace is on.", "quantifier": "every input at every position, every type, every combination of features and build", "why_tests_cant": "tests run with one combination of features, and logging code runs on paths that tests of results do not look at", "anchors": ["src/debug.rs:trace_input", "src/debug.rs:log_error_hex_dump", "src/debug.rs:trace", "src/debug.rs:trace_generic", "src/from_ber.rs:parse_ber", "src/from_der.rs:parse_der"]}
{"id": "C102", "title": "A static copy is the same value and borrows nothing", "statement": "For every type with ToStatic, nested in any way (integers, bool, String, str, Cow, Sequence, Set, Header, Vec, Option, Box, references, and types with derive(ToStatic)), to_static returns a value of type Owned with the same contents in which nothing is borrowed; a copy of a copy is the copy; the copy is written as the same octets; and derive(ToStatic) works for every declaration whose fields have ToStatic.", "quantifier": "every value of every such type", "why_tests_cant": "types nest without bound and the derive is used on declarations that do not exist yet; a field left out or a variant mixed up shows only for the value that uses it", "anchors": ["src/tostatic.rs", "src/header.rs:to_static", "src/asn1_types/sequence.rs:to_static", "src/asn1_types/set.rs:to_static", "derive/src/tostatic.rs:derive_tostatic"]}
{"id": "C103", "title": "What a target receives", "statement": "Encoding a value to any std::io::Write target which hands on what it is given: when the call succeeds the target has received exactly the octets to_ber_vec or to_der_vec returns, in that order and once, and the count is the same; when the target fails, it has received a beginning of them. A byte slice as target succeeds exactly when the encoding fits.", "quantifier": "every target, every state of it, every value of every type, plain, tagged, or inside containers and derived structs", "why_tests_cant": "targets fail after any number of octets, and values nest without bound; tests write to vectors", "anchors": ["src/to_ber.rs:ber_encode", "src/to_ber.rs:write_ber", "src/to_der.rs:der_encode", "src/to_der.rs:write_der", "src/to_ber/encoder.rs:write_tag_generic", "src/to_ber/encoder.rs:write_length", "src/asn1_types/real.rs:ber_content_len"]}
{"id": "C104", "title": "A refused value leaves the target untouched", "statement": "When encoding returns an error because the value cannot be encoded (and not because the target failed), nothing of the value has been written to the target.", "quantifier": "every target and every value that is refused", "why_tests_cant": "a refused value may sit at any depth and after any number of items; tests look at the error, not at what the target holds", "anchors": ["src/to_ber.rs:ber_encode", "src/to_der.rs:der_encode", "src/asn1_types/real.rs:ber_write_content", "src/asn1_types/sequence/vec.rs:ber_write_content"]}
{"id": "C105", "title": "Reading takes linear work", "statement": "The number of headers read while an object of a type is read is at most a constant of the type (one more than its weight, which counts the containers, tags and fields it is built from) times one more than the number of octets; when the object is read with success, the octets it consumed count and not those which follow. Finding the end of an object whose length is not known reads at most one header for each octet consumed, however deep the nesting.", "quantifier": "every input at every position, every type built from the containers, tags, tuples, structs and choices, parse_ber and parse_der, success and failure", "why_tests_cant": "time limits in tests say nothing about the growth; nesting chosen by an attacker is not among the test inputs", "anchors": ["src/ber/parser.rs:ber_skip_object_content", "src/from_ber.rs:parse_ber", "src/from_der.rs:parse_der", "src/asn1_types/iterator.rs:try_parse_collect", "src/asn1_types/optional.rs:parse_ber", "derive/src/container.rs", "src/asn1_types/sequence/vec.rs:from_ber_content"]}
{"id": "C106", "title": "The text of an error tells which error it is and where it happened", "statement": "Two errors (Error, InnerError, or BerError with its place) whose Display texts are equal are the same error, with the same payload; the text of a BerError tells the start and the end of its place in decimal. Classes and DER constraints are displayed by distinct names, the classes by their keywords.", "quantifier": "every two errors with any payload: tags, classes, sizes, messages with any characters, every place", "why_tests_cant": "texts are filled with unbounded numbers and messages; a text that runs two fields together or leaves one out is ambiguous only for particular payloads", "anchors": ["src/error.rs", "src/input.rs", "src/class.rs"]}
{"id": "C107", "title": "A REAL of base 10 is written as the text of its number", "statement": "Every Real::Binary of base 10, whatever its f64 mantissa and i32 exponent, is written as octets that every reader accepts, as a REAL within one part in 2^41 of mantissa times ten to the exponent (and half the smallest f64), as an infinity when that is beyond the range of f64, and as zero when the mantissa is zero.", "quantifier": "all f64 mantissas, all i32 exponents, all octets that follow", "why_tests_cant": "The text is the shortest decimal text of the mantissa, with or without a point, up to 340 places long; a fault in one of the 2^64 mantissas or 2^32 exponents is not met by samples.", "anchors": ["src/asn1_types/real.rs:ber_write_content"]}
{"id": "C108", "title": "The error of a base type points at the contents it refuses", "statement": "When parse_ber or parse_der of a base type (booleans, NULL, numbers, strings, object identifiers, times, REAL, f32 and f64, raw SEQUENCE and SET) finds an object of its tag and refuses its contents, the location in the error is the range of these contents in the whole input; when it finds no such object, the location is where the object was to begin.", "quantifier": "every base type, every input at every position of every whole input, parse_ber and parse_der", "why_tests_cant": "tests compare the kind of an error and never its location, and each type builds its locations by hand", "anchors": ["src/asn1_types/boolean.rs:from_der_content", "src/asn1_types/integer.rs:from_ber_content", "src/asn1_types/strings.rs", "src/asn1_types/strings/str.rs:from_ber_content", "src/asn1_types/strings/string.rs:from_ber_content", "src/asn1_types/strings/bmpstring.rs:from_ber_content", "src/asn1_types/bitstring.rs:from_ber_content", "src/asn1_types/utctime.rs:from_der_content", "src/asn1_types/real.rs:from_ber_content", "src/ber/appendable.rs"]}
