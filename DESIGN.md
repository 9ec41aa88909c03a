# Formal model of asn1-rs in Rocq (Coq 8.16.1)

The code under study is `/repo` (crate `asn1-rs`, plus the `asn1-rs-impl` and `asn1-rs-derive` proc-macro crates).
The model is executable Gallina. Theorems are about the model; the tie to the code is the citation
(`file:lines`) carried by every model definition.

## Layout

| file (rocq/theories) | content |
|---|---|
| `Base.v` | bytes, result type, nom streaming `take`/`be_u8` |
| `M*.v` | model files: definitions only, each citing the source lines it models |
| `S*.v` | specifications: written from X.680/X.690 and the crate documentation, independent of the model's helpers |
| `P*.v` | proofs |
| `Prop*.v` | the property theorems, each followed by `Print Assumptions` and a concrete non-trivial case (`Cnn_case`) |

## Modelling conventions

* A byte is an `N` below 256 (`bytes_ok` states it where it matters); a byte string is `list N`.
* `usize` is 64 bits wide. Lengths read from the wire are `N`, compared with the list length before
  they are ever converted to `nat`.
* A parse result is `Ok v`, `Err e`, `Incomplete n` (nom's `Needed::Size(n)`) or `Panic`
  (assert!, slice index out of range, arithmetic overflow in debug builds, unreachable!).
* `nom::Err::Error`/`Failure` are not distinguished (the crate never builds `Failure`).
  Error payloads (location, message, expected tag) are dropped; the error kind is kept.
* `&[u8]`, `Cow`, `Vec<u8>` are all `list N`. A writer is modelled by the bytes
  it appends together with the count it returns (`Vec<u8>`); `MIo` adds targets which fail.
* Tracing (`trace_input`, `log`) is the identity.
* Loops become structural recursion or recursion on fuel; running out of fuel yields the error
  `EFuel`, and a theorem shows it is never produced.

## Plan per property

* C01-C03 (headers): model `parse_header`, `write_tag_generic`, `write_length`; specification of
  identifier/length octets as a relation; round trip by base-128/base-256 digit lemmas; exact
  acceptance by case analysis both ways; minimality from digit-count lemmas.
* C04, C27: model `ber_tag_length` etc.; digit counts. Known counterexample at 2^24 (refutation).
* C05, C06: monotonicity by induction over the parser; Incomplete by the same induction. The second
  half of C06 is refuted by truncated multi-byte tags; `PropOpen.v` proves that these are the only
  exceptions for headers and DER values, `PropCut.v` for BER values and `PropFinal.v` for all types.
* C07: panics are explicit values; show they are unreachable, or exhibit the input.
* C08-C12: model `ber_skip_object_content`, `get_object_content`, `parse_*_any`, `AnyIterator`;
  grammar as an inductive relation; soundness and completeness by induction on depth and length.
* C13-C17, C21: model `trim_slice`, `decode_array_*`, `from_const_array*`, the DER checks; two's
  complement specification over `Z`; induction on the byte list. PropTrim.v: what `trim_slice` leaves of any octets.
* C18-C20: direct; segmented strings by induction over segmentation trees.
* C22-C25: model `encode_relative`, `Oid::from`, the sub-identifier iterator, text conversion. PropOidText.v combines the cases into one statement for every accepted list.
* C26-C31: a record of codec operations per type and a predicate of lawfulness closed under the
  type constructors; then a deep embedding of type expressions and an induction over it.
* C32-C34: charset predicates; UTF-8/16/32 codecs with their inverse laws. PropTextExact.v: exact conditions for written strings, and C50 on primitive objects.
* C35-C37 (and PropExact.v for C44 and C52): model `from_bytes` and the writers; decimal digit lemmas; refutations where the code
  loses information.
* C38: direct refutation of transitivity and of hash compatibility, with what does hold.
* C39: refuted by the faithful model (witnesses).
* C42: encodings under one identifier are ordered by length, then by content (PropOrder.v); with the order of each element type
  (`MOrd`) this gives the exact condition under which a `BTreeSet` is written in the order of X.690 11.6; witnesses elsewhere.
* C40, C55, C56 (REAL): `f64` is `spec_float` of `Coq.Floats.SpecFloat` (an executable IEEE 754 over `Z`, no axioms);
  values are rationals; dyadic lemmas in `PFloat`/`PReal`; exact conditions for survival, witnesses elsewhere.
* C41: a second layer of the model with explicit spans, proved to erase to the first. C41_walk (PropWalk.v) follows any number
  of calls of the iterator: the items lie in a row from the start of the input. C41_types (PropKind.v) is by mutual induction on
  types, fields and variants; it relates three parsers at once: with spans and log, with spans, and plain.
* C105 (PropCost.v): the lines of the log which announce a header are counted; weights of types are a mutual recursion, the bound is
  an induction over types with the facts about remainders from C41_types. Segments of strings are an inner induction on the nesting
  their parser allows.
* C106 (PropShow.v): templates are filled by a scanner for braces; texts are taken apart from the left, numbers end where digits end.
* C64: exact acceptance by composition of C28 and C30 style lemmas; the standard's encodings as a relation, shown to be rejected.
* C57-C63: iterators as states under repeated calls; raw and untyped sequences by the lemmas of C26 and C51; refutations by
  witness where tags, form or class are not looked at. C61 (PropAbsent.v): `plain` says that contents are not refused for a tag,
  which is followed through every base type.
* C65-C70 (derive macros): the code generated for a declaration is a function of the records of its component types; declarations
  are a mutually inductive universe (`dty`, `dfields`, `dvariants`); `derive_sound` is one induction over it; exact acceptance
  by a recursive relation over the fields.
* C05-C07, C72 for types: `steady` (PSafe.v) says of a reader that it is stable, waits truthfully, keeps its errors, does not
  panic and does not run out of fuel; it is closed under all constructors, so one induction over declarations gives the four.
* C71: `quiet` (PropQuiet.v): a content parser that never answers Incomplete; witnesses for explicit tags and derived structs; PropStuck.v says exactly when these two do.
* C73, C74, C07 for REAL: PRound.v bounds the error of each product with 10 and shows that the loops of `Real::new` are left;
  a codec that returns a value for a panic carries the lemmas of PSafe.v over to the exact panic condition; witnesses of
  values that are read and cannot be written. The change of base of the writer is followed outside the range of normal numbers
  (end of PFloat.v), so that C40 and C74 are exact for base 8 and 16. PropExpo.v follows exponents of four octets,
  so that both are exact for base 2 and every exponent. PropRewrite.v does the character form: every text that is read can be written
  again. PNearest.v shows that the reading of a decimal is nearest over the whole range (subnormal numbers and overflow included),
  so the second reading is close for tiny and huge numbers too.
* C56, character forms (PropNumber.v): the grammar of `f64::from_str` as relations, shown equal to the parser; the quotient and the
  rounding of the executable IEEE 754 bounded over the rationals, then combined with the bound of C73. PropRange.v: numbers outside the
  normal range, from PNearest.v.
* C40, exponents of four octets (PropExpo.v): the octets are read one place further left; an odd number and its exponent come back
  only if a linear equation with a bounded error has a solution, which leaves two numbers. The loops of the writer do the same steps
  whatever the exponent, so that an exponent outside of i32 is never written.
* C107 (PropDecText.v): the loop that looks for the shortest digits finds some for every finite number (what is within an eighth of a
  unit of an f64 is rounded to it), so the text written is a number text; reading it is C56. A subnormal
  mantissa has few bits, so its shortest digits may be far from it (C107_small_refuted).
* C108 (PropWhere.v): the contents with locations are shown to give the results of the first layer (`simple_tracks`), and each kind of
  error to be at the contents or at their end. Errors of constructed strings, which may be in any segment, are shown to be within
  the contents: the same parser on the input cut off behind them gives the same location, and no step goes back (`since`). PropLogged.v: the reader of INTEGER that logs gives the same errors at the same places.
* C75-C79: sets as duplicate-free lists; the spans of `MSpan` show that `AnySet` never merges; the conversions of `Sequence` and
  `Set` are compared with `Vec`, `SequenceOf` and `SetOf`; witnesses where the documentation says otherwise.
* C45, C81: one induction over the types each; a reader is described by the contents it accepts, so `from_ber` and `parse_ber`
  (and BER and DER) are compared on contents; witnesses for each kind of type where the two differ.
  For derived types (PropSame.v) the same comparison by mutual induction over types, fields and variants.
* C80, C82: readers are shown to give equal results on objects that differ in class (or tag number) only; C83: the grammar of
  C09 at depth 8 and 50; C84: the sum as an explicit function of the list; C85: field by field.
* C89: every arm of the conversions of errors, with payloads and messages; it justifies the one error type of the other files
  (Base.v), which stands for both `Error` and `InnerError`. C90: the writer a reference is; witnesses for `Option`. C91: from C73; PropFinite.v follows the product with a power of two through underflow and overflow.
* C92 (PropCheck.v): `passes` says by recursion on the type which objects the checks let through, in terms of form, tag number,
  length octets and contents; the checks are shown to accept exactly those (containers, tagged values, `HashSet`, derived structs
  and aliases, `TaggedParser`, `Option`). The DER rules they do not look at are in `C92_refuted`.
  PropWhy.v: `breaks` names the rule an object of a base type breaks; the error of the check is exactly that one. PropWhyList.v: for a list
  it is that of the first element which is no object or does not pass.
* C93 (PropCustom.v): `fails` gives the field at which reading stops and the function its errors go through; the readers with
  `error` and `map_err` (MCustom.v) are compared with those without (MDerive.v), result by result.
* C55, C94 (PropNear.v, PropHuge.v, PropF32.v): magnitudes as rationals; the text written for an integral mantissa is shown to be an integer
  that rounds to it, and the errors of `Real::new` (twice), of the parse, of the power of ten and of the last product are added up:
  less than 2^-41 for every f64 from 2^-960 to 2^1022, hence no loss for f32. The powers of ten with exponents -307 to 307 are
  computed, all of them, inside the proof.
* C86, C87: inverse of the encoding relation of C26: what a reader accepts, with the headers of DER, satisfies the relation (C86);
  a value returned by a reader is one the relation is defined for (C87); both also for derived types, by mutual induction over
  declarations, fields and variants (PropCanonDerive.v). Parts of C29, C30, C33 and C65 found missing by mutation are in PropHelper.v. Those of C18, C53 and C55
  (tagged booleans, `TryFrom` of times with any year, nearest text) are in PropMore.v. C88: contents by value, from the lemmas of C10.
* C95 (PropBits.v): bit k of a bit string is read off the octets it was given, most significant first, with bitvec's storage.
* C96 (PropParse.v): a field is declared, or read by a function of the header, the contents of the struct and the octets left; what
  comes after may depend on its value. Exact acceptance as for C66; a function equal to the generated reader changes no result.
* C97: lists of changes folded over a header; `last_of` says which value a field must have at the end; then the round trips of
  C01 and of objects.
* C98 (PropAttr.v): relations say which tokens spell a tag, an item, a list of rules; `latest`, `first` and "only one" say which of
  several attributes counts. Each reading function is proved equal to such a description, in both directions.
* C99: `declaration_traits` runs each macro on the derives below it; traits are counted. Conditions on the derives are in `lines_ok`.
* C100 (PropChrono.v): the derived order against `first_differs` on the list of fields; against `value_instant` for any day count.
* C101 (PropTrace.v): each parser with logging against the same parser with the features off; `dump_of` and `spaced` say what text a
  failure leaves; `bracketed` and `reports` (PLog.v) say what a whole log looks like. `C101_exact` says when a content parser of a user makes the wrapper panic.
  `items_written` (PropSlices.v) says what reading the items of a collection from a slice writes.
* C102 (PropStatic.v): `value` is what an object says and `owned` that it borrows nothing, both apart from the model; `typed` its type.
* C103, C104 (PropIo.v): a writer as the calls of `write_all` it makes; `honest` (SIo.v) is what is assumed of a target. `as_tober` forgets the
  calls and gives the writers of the other theorems.

## Trusted base

1. Coq's kernel (`coqc` 8.16.1; the compiled files are re-checked with `coqchk`).
2. Axioms: none. `Print Assumptions` follows every property theorem and prints "Closed under the global
   context" for each of them.
3. The correspondence between each model definition and the source lines it cites (read, not extracted).
4. What the model takes from outside the crate, written from its documentation: nom's streaming
   `take`/`be_u8`; `core::str` UTF-8/UTF-16 functions; `bitvec`'s `BitVec` (see below);
   integer parsing and formatting of `core`/`num-bigint`; `Vec` as a `Write` target; of `f64`: the `as` casts,
   `fract`, `rem_euclid` on integers, `powi` (by repeated squaring as in `compiler_builtins`), correctly rounded
   `str::parse`, shortest `Display`. A NaN has no sign and no payload in the model.

### What is modelled

| source | model |
|---|---|
| `header.rs`, `length.rs`, `tag.rs`, `class.rs` (parsing, writing, equality, hashing) | `MHeader`, `MEncode` |
| `to_ber.rs`, `to_ber/encoder.rs`, `to_der.rs` (lengths, identifier, headers, `encode`) | `MEncode` |
| `ber/parser.rs`, `asn1_types/iterator.rs`, `traits.rs`, `any.rs` (object parsing, skipping, iteration, generic `parse_*`/`from_*`) | `MBer` |
| `integer.rs`, `boolean.rs`, `null.rs`, `enumerated.rs` | `MInt` |
| `octetstring.rs`, `bitstring.rs`, `ber/appendable.rs` | `MSeg` |
| `oid.rs`, `asn1-rs-impl` (`oid!`, `int!`) | `MOid`, `MInt` |
| `strings.rs`, `strings/*.rs`, `any.rs:as_any_str` | `MText` |
| `sequence/{vec,sequence_of,array,tuple,iterator,any_sequence}.rs`, `set/{set_of,btreeset,iterator,any_set}.rs`, `tagged/*.rs`, `optional.rs` (the checks of `TaggedParser` and `Option` are in MCheck.v), `sequence.rs`, `set.rs` (raw content, `from_iter_to_der`, `*_and_then`), `end_of_content.rs`, `to_ber/constructed_indefinite.rs` | `MCont` |
| `real.rs`, `real/{f32,f64}.rs` (reading, writing, conversions) | `MReal`, `MF32` |
| `datetime.rs`, `asn1_types/{utctime,generalizedtime}.rs` (reading, writing, `Display`, conversions) | `MTime` |
| `embedded_pdv.rs` | `MPdv` |
| `derive/src/{container,sequence,set,choice,enumerated,alias}.rs`: the implementations they generate | `MDerive`, `MCustom`, `MParse` |
| `set/hashset.rs`, `set/any_set.rs` (as a hash set), the conversions of `sequence.rs` and `set.rs` (`Cow`), `Any::iter_elements`, `to_der_len` | `MColl` |
| methods `as_*` of `any.rs`, `parse_*_content` of `header.rs` and `any.rs`, operators of `length.rs` | `MAny` |
| `with_*` and constructors of `header.rs` and `any.rs` | `MEdit` |
| `derive/src/{options,asn1_type,check_derive}.rs`, the reading of attributes in `container.rs`, `choice.rs`, `enumerated.rs`, and which traits each macro of `derive/src/lib.rs` implements | `MAttr` |
| `tostatic.rs`, `derive/src/tostatic.rs`, `ToStatic` of `Header`, `Sequence`, `Set`, `Vec`; the types and declarations which have it | `MStatic` |
| `debug.rs`; the parsers of `MSpan`, `Integer`, `Option`, and `from_ber`/`from_der` of collections once more, with what they log | `MTrace` |
| containers, tagged types, tuples, arrays, `Option`, `Alias`, derived structs and choices of one another, and segmented strings, with spans and log | `MKind` |
| the contents of booleans, numbers, strings, times, `Oid`, `Real`, raw `Sequence` and `Set` once more, with the location of errors | `MWhere` |
| the writers once more, with each call of `write_all`; targets which fail, `Vec<u8>`, `&mut [u8]`, `io::Sink` | `MIo` |
| the orders (`Ord`) of `ASN1DateTime`, `ASN1TimeZone`, slices and `str`, by which a `BTreeSet` is kept | `MOrd` |
| `error.rs`: `Error`, `InnerError`, `BerError` with payloads, conversions, messages | `MErr` |
| the texts (`Display`) of errors, `DerConstraint`, `Class`, `Input`, `BerError`, with the derived `Debug` of what fills them | `MShow` |
| `ToBer`/`ToDer` for references, default writing methods on `Option`, `Real::is_finite`, `is_infinite` | `MRef` |
| `input.rs`; headers, objects, `Any`, `AnyIterator`, `Vec`, explicit tags once more, with positions | `MSpan` |

`MCont` describes a type by three records: `parser` (`Ber/DerParser`), `legacy` (`FromBer`/`FromDer`/
`TryFrom<Any>`/`CheckDerConstraints`) and `writer` (`ToBer`/`ToDer`); a generic impl is a function between
such records. `MTime` models the `time` crate (0.3) from its documentation: date validation, offsets,
`unix_timestamp`; `STime` states instants for any function that counts the days of the Gregorian calendar.
`SBase` and `PTypes` give the type expressions `ty`: 19 base types closed under `Vec`
(also `SequenceOf`), arrays, `SetOf`, `BTreeSet`, explicit and implicit tags. `syntax_of` is the specification
of a type expression and `types_sound` its induction. The model gives a `legacy` record to more types than Rust
does (for instance `TaggedImplicit<Oid>` has no `TryFrom<Any>`); the theorems then speak of more than exists.

`MSpan` repeats the parsing functions on `Input` values (octets with a range) and keeps the location of errors;
`PSpan` proves each of them equal to its counterpart once ranges are forgotten. Types whose values hold no input
(`s_plain_parser`) reuse the first layer, and their errors are located at their content. Where the code has them is in `MWhere`,
which C108 is about; `MSpan`, `MTrace` and `MKind` keep the simpler location.

`MColl`: a hash set is the list of its elements in order of first insertion; the order of iteration of a real set is unknown, so
theorems about reading speak of the set of elements and theorems about writing of every order. A set merges by a test `same`; for
`Any` it is any test between "equal" and "equal with equal hashes".

`MDerive` models what the derive macros generate, not the token manipulation: a struct is a nested pair of its fields, an enum
a nested sum of its variants. The attributes `error` and `map_err` are in `MCustom`, custom parsers of fields (`parse`, `orig_input`) in `MParse`.
`MAttr` models how the macros read attributes. An attribute is its name and its tokens, as `syn` splits them; `syn`'s parser of
expressions is a parameter (`expr`), and a literal is a number without suffix. `CheckDerConstraints` is counted for `DerAlias` also
where the type is `Any`, where the macro leaves it out. Which attributes `rustc` lets through to a macro is not modelled.
Left out: lifetimes and bounds, unnamed and generic parameters, compile-time errors found by `rustc` in generated code.

### What is not modelled

* `derive.rs` re-exports; `const_int.rs`, which no module declares, so that it is not compiled.
* The log and spans inside an `EmbeddedPdv` (its contents are modelled without them in the plain layer).
* The wording of log lines (`MTrace` keeps their arguments and the dump of octets), names of types in them, and what a logger does.
* `serde`; `Debug`/`Display` other than `Oid`'s, times', those of errors, classes and `Input` (`MShow`);
  the names of nom's `ErrorKind`s, which are a parameter there, and `Display` of `Tag`, which a macro of another crate makes;
  kinds of I/O errors; allocation failure; the deprecated re-exports; conversion to `time` and `num-bigint`
  types beyond what is stated.
* Endianness and width of `usize`: 64 bits is assumed.
* `BitVec<u8, Msb0>`: a bit vector is its backing bytes, start offset and length. Assumed of `bitvec`:
  `from_bitslice` keeps the offset inside the first byte and clears the bits outside, `append` copies
  bits and leaves the rest of the last byte zero, equality compares bits only.
* A Rust `str` is the list of its characters; `as_bytes` is their UTF-8 form.
