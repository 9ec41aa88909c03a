(** Model of the error types with their payloads and of the conversions between them. *)
From Coq Require Import String.
From Verif Require Import Base MHeader.
Local Open Scope string_scope.

(** [nom::Needed]. *)
Inductive needed := NeededUnknown | NeededSize (n : N).

(** src/error.rs:42-99 ([Error]).  [ErrorKind] of nom is a number here, a [String] its octets. *)
Inductive lib_error :=
| LBerTypeError | LBerValueError | LInvalidLength | LInvalidValue (tag : N) (msg : bytes) | LInvalidTag
| LUnknownTag (tag : N) | LUnexpectedTag (expected : option N) (actual : N)
| LUnexpectedClass (expected : option class) (actual : class) | LIndefiniteLengthUnexpected
| LConstructExpected | LConstructUnexpected | LIntegerTooLarge | LIntegerNegative | LBerMaxDepth
| LStringInvalidCharset | LInvalidDateTime | LDerConstraintFailed (c : der_constraint) | LLifetimeError
| LUnsupported | LIncomplete (n : needed) | LNomError (kind : N).

(** src/error.rs:264-322 ([InnerError]). *)
Inductive inner_error :=
| IBerTypeError | IBerValueError | IInvalidLength | IInvalidValue (tag : N) (msg : bytes) | IInvalidTag
| IUnknownTag (tag : N) | IUnexpectedTag (expected : option N) (actual : N)
| IUnexpectedClass (expected : option class) (actual : class) | IIndefiniteLengthUnexpected
| IConstructExpected | IConstructUnexpected | IIntegerTooLarge | IIntegerNegative | IBerMaxDepth
| IStringInvalidCharset | IInvalidDateTime | IDerConstraintFailed (c : der_constraint) | INom (kind : N)
| ILifetimeError | IUnsupported | IIncomplete (n : needed).

(** src/error.rs:351-379 ([From<Error> for InnerError]) *)
Definition inner_of_error (e : lib_error) : inner_error :=
  match e with
  | LBerTypeError => IBerTypeError
  | LBerValueError => IBerValueError
  | LInvalidLength => IInvalidLength
  | LInvalidValue tag msg => IInvalidValue tag msg
  | LInvalidTag => IInvalidTag
  | LUnknownTag tag => IUnknownTag tag
  | LUnexpectedTag expected actual => IUnexpectedTag expected actual
  | LUnexpectedClass expected actual => IUnexpectedClass expected actual
  | LIndefiniteLengthUnexpected => IIndefiniteLengthUnexpected
  | LConstructExpected => IConstructExpected
  | LConstructUnexpected => IConstructUnexpected
  | LIntegerTooLarge => IIntegerTooLarge
  | LIntegerNegative => IIntegerNegative
  | LBerMaxDepth => IBerMaxDepth
  | LStringInvalidCharset => IStringInvalidCharset
  | LInvalidDateTime => IInvalidDateTime
  | LDerConstraintFailed c => IDerConstraintFailed c
  | LLifetimeError => ILifetimeError
  | LUnsupported => IUnsupported
  | LIncomplete n => IIncomplete n
  | LNomError kind => INom kind
  end.

(** src/error.rs:457-490 ([From<InnerError> for Error]) *)
Definition error_of_inner (e : inner_error) : lib_error :=
  match e with
  | IBerTypeError => LBerTypeError
  | IBerValueError => LBerValueError
  | IInvalidLength => LInvalidLength
  | IInvalidValue tag msg => LInvalidValue tag msg
  | IInvalidTag => LInvalidTag
  | IUnknownTag tag => LUnknownTag tag
  | IUnexpectedTag expected actual => LUnexpectedTag expected actual
  | IUnexpectedClass expected actual => LUnexpectedClass expected actual
  | IIndefiniteLengthUnexpected => LIndefiniteLengthUnexpected
  | IConstructExpected => LConstructExpected
  | IConstructUnexpected => LConstructUnexpected
  | IIntegerTooLarge => LIntegerTooLarge
  | IIntegerNegative => LIntegerNegative
  | IBerMaxDepth => LBerMaxDepth
  | IStringInvalidCharset => LStringInvalidCharset
  | IInvalidDateTime => LInvalidDateTime
  | IDerConstraintFailed c => LDerConstraintFailed c
  | INom kind => LNomError kind
  | ILifetimeError => LLifetimeError
  | IUnsupported => LUnsupported
  | IIncomplete n => LIncomplete n
  end.

(** src/error.rs:101-107 ([BerError]); [I] is the type of inputs. *)
Record ber_error (I : Type) := mk_ber_error { be_input : I; be_inner : inner_error }.
Arguments mk_ber_error {I}.
Arguments be_input {I}.
Arguments be_inner {I}.

(** [nom::Err]. *)
Inductive nom_err (E : Type) := NIncomplete (n : needed) | NError (e : E) | NFailure (e : E).
Arguments NIncomplete {E}.
Arguments NError {E}.
Arguments NFailure {E}.

(** src/error.rs:451-455 ([From<BerError<I>> for Error]) *)
Definition error_of_ber {I} (e : ber_error I) : lib_error := error_of_inner (be_inner e).

(** src/error.rs:400-406 ([Error::from_nom_berr]) *)
Definition from_nom_berr {I} (e : nom_err (ber_error I)) : lib_error :=
  match e with
  | NIncomplete n => LIncomplete n
  | NError e | NFailure e => error_of_inner (be_inner e)
  end.

(** src/error.rs:442-449 ([From<nom::Err<Error>> for Error]) and 418-422 (the other way) *)
Definition error_of_nom (e : nom_err lib_error) : lib_error :=
  match e with
  | NIncomplete n => LIncomplete n
  | NError e | NFailure e => e
  end.
Definition nom_of_error (e : lib_error) : nom_err lib_error := NError e.

(** src/error.rs:231-236 ([From<Error> for BerError]; [nowhere] is the empty input), 238-248
    ([From<(Input, Error)>]) and 250-262 ([From<(Input, BerError)>]) *)
Definition ber_of_error {I} (nowhere : I) (e : lib_error) : ber_error I := mk_ber_error nowhere (inner_of_error e).
Definition ber_of_located {I} (x : I * lib_error) : ber_error I := mk_ber_error (fst x) (inner_of_error (snd x)).
Definition ber_of_ber {I} (x : I * ber_error I) : ber_error I := snd x.

(** src/error.rs:497-506 ([from_nom_error]); [f] and [g] are [F: From<E>] and [F: From<Error>]. *)
Definition from_nom_error {E F} (f : E -> F) (g : lib_error -> F) (e : nom_err E) : F :=
  match e with
  | NError e | NFailure e => f e
  | NIncomplete n => g (LIncomplete n)
  end.

(** src/error.rs:508-519 ([from_nom_bererror]) *)
Definition from_nom_bererror {I E F} (f : I * E -> F) (g : lib_error -> F) (i : I) (e : nom_err E) : F :=
  match e with
  | NError e | NFailure e => f (i, e)
  | NIncomplete n => g (LIncomplete n)
  end.

(** src/error.rs:216-229 and 409-416 ([ParseError::from_error_kind], [append]) *)
Definition ber_from_error_kind {I} (i : I) (kind : N) : ber_error I := mk_ber_error i (INom kind).
Definition ber_append {I} (i : I) (kind : N) (other : ber_error I) : ber_error I := other.
Definition error_from_error_kind {I} (i : I) (kind : N) : lib_error := LNomError kind.
Definition error_append {I} (i : I) (kind : N) (other : lib_error) : lib_error := LNomError kind.

(** src/error.rs:157-187 and 381-398: the constructors, [BerError::invalid_value], [unexpected_tag], [unexpected_class],
    [incomplete] and those of [Error]. *)
Definition ber_invalid_value {I} (i : I) (tag : N) (msg : bytes) : ber_error I := mk_ber_error i (IInvalidValue tag msg).
Definition ber_unexpected_tag {I} (i : I) (expected : option N) (actual : N) : ber_error I :=
  mk_ber_error i (IUnexpectedTag expected actual).
Definition ber_unexpected_class {I} (i : I) (expected : option class) (actual : class) : ber_error I :=
  mk_ber_error i (IUnexpectedClass expected actual).
Definition ber_incomplete {I} (i : I) (n : needed) : ber_error I := mk_ber_error i (IIncomplete n).
Definition error_unexpected_tag (expected : option N) (actual : N) : lib_error := LUnexpectedTag expected actual.
Definition error_unexpected_class (expected : option class) (actual : class) : lib_error := LUnexpectedClass expected actual.

(** The text [displaydoc] makes of the doc comment of each variant, with the values it is filled with. *)
Inductive detail := DTag (t : N) | DOptTag (t : option N) | DClass (c : class) | DOptClass (c : option class) | DText (m : bytes)
                  | DConstraint (c : der_constraint) | DNeeded (n : needed) | DKind (k : N) | DNumber (n : N).

(** src/error.rs:46-98 *)
Definition error_display (e : lib_error) : string * list detail :=
  match e with
  | LBerTypeError => ("BER object does not have the expected type", [])
  | LBerValueError => ("BER object does not have the expected value", [])
  | LInvalidLength => ("Invalid Length", [])
  | LInvalidValue tag msg => ("Invalid Value when parsing object with tag {tag:?} {msg:}", [DTag tag; DText msg])
  | LInvalidTag => ("Invalid Tag", [])
  | LUnknownTag tag => ("Unknown tag: {0:?}", [DNumber tag])
  | LUnexpectedTag expected actual => ("Unexpected Tag (expected: {expected:?}, actual: {actual:?})", [DOptTag expected; DTag actual])
  | LUnexpectedClass expected actual =>
      ("Unexpected Class (expected: {expected:?}, actual: {actual:?})", [DOptClass expected; DClass actual])
  | LIndefiniteLengthUnexpected => ("Indefinite length not allowed", [])
  | LConstructExpected => ("DER object was expected to be constructed (and found to be primitive)", [])
  | LConstructUnexpected => ("DER object was expected to be primitive (and found to be constructed)", [])
  | LIntegerTooLarge => ("Integer too large to fit requested type", [])
  | LIntegerNegative => ("BER integer is negative, while an unsigned integer was requested", [])
  | LBerMaxDepth => ("BER recursive parsing reached maximum depth", [])
  | LStringInvalidCharset => ("Invalid encoding or forbidden characters in string", [])
  | LInvalidDateTime => ("Invalid Date or Time", [])
  | LDerConstraintFailed c => ("DER Failed constraint: {0:?}", [DConstraint c])
  | LLifetimeError => ("Requesting borrowed data from a temporary object", [])
  | LUnsupported => ("Feature is not yet implemented", [])
  | LIncomplete n => ("incomplete data, missing: {0:?}", [DNeeded n])
  | LNomError kind => ("nom error: {0:?}", [DKind kind])
  end.

(** src/error.rs:269-321 *)
Definition inner_display (e : inner_error) : string * list detail :=
  match e with
  | IBerTypeError => ("BER object does not have the expected type", [])
  | IBerValueError => ("BER object does not have the expected value", [])
  | IInvalidLength => ("Invalid Length", [])
  | IInvalidValue tag msg => ("Invalid Value when parsing object with tag {tag:?} {msg:}", [DTag tag; DText msg])
  | IInvalidTag => ("Invalid Tag", [])
  | IUnknownTag tag => ("Unknown tag: {0:?}", [DNumber tag])
  | IUnexpectedTag expected actual => ("Unexpected Tag (expected: {expected:?}, actual: {actual:?})", [DOptTag expected; DTag actual])
  | IUnexpectedClass expected actual =>
      ("Unexpected Class (expected: {expected:?}, actual: {actual:?})", [DOptClass expected; DClass actual])
  | IIndefiniteLengthUnexpected => ("Indefinite length not allowed", [])
  | IConstructExpected => ("DER object was expected to be constructed (and found to be primitive)", [])
  | IConstructUnexpected => ("DER object was expected to be primitive (and found to be constructed)", [])
  | IIntegerTooLarge => ("Integer too large to fit requested type", [])
  | IIntegerNegative => ("BER integer is negative, while an unsigned integer was requested", [])
  | IBerMaxDepth => ("BER recursive parsing reached maximum depth", [])
  | IStringInvalidCharset => ("Invalid encoding or forbidden characters in string", [])
  | IInvalidDateTime => ("Invalid Date or Time", [])
  | IDerConstraintFailed c => ("DER Failed constraint: {0:?}", [DConstraint c])
  | INom kind => ("Parse error", [])
  | ILifetimeError => ("Requesting borrowed data from a temporary object", [])
  | IUnsupported => ("Feature is not yet implemented", [])
  | IIncomplete n => ("incomplete data, missing: {0:?}", [DNeeded n])
  end.

(** The one type of errors of the rest of the model (Base) for both types; [Needed::Unknown] is never
    made by the readers modelled. *)
Definition kind_of_error (e : lib_error) : error :=
  match e with
  | LBerTypeError => EBerTypeError
  | LBerValueError => EBerValueError
  | LInvalidLength => EInvalidLength
  | LInvalidValue _ _ => EInvalidValue
  | LInvalidTag => EInvalidTag
  | LUnknownTag _ => EUnknownTag
  | LUnexpectedTag _ _ => EUnexpectedTag
  | LUnexpectedClass _ _ => EUnexpectedClass
  | LIndefiniteLengthUnexpected => EIndefiniteLengthUnexpected
  | LConstructExpected => EConstructExpected
  | LConstructUnexpected => EConstructUnexpected
  | LIntegerTooLarge => EIntegerTooLarge
  | LIntegerNegative => EIntegerNegative
  | LBerMaxDepth => EBerMaxDepth
  | LStringInvalidCharset => EStringInvalidCharset
  | LInvalidDateTime => EInvalidDateTime
  | LDerConstraintFailed c => EDerConstraintFailed c
  | LLifetimeError => ELifetimeError
  | LUnsupported => EUnsupported
  | LIncomplete NeededUnknown => EIncomplete 0
  | LIncomplete (NeededSize n) => EIncomplete n
  | LNomError _ => ENomError
  end.
Definition kind_of_inner (e : inner_error) : error :=
  match e with
  | IBerTypeError => EBerTypeError
  | IBerValueError => EBerValueError
  | IInvalidLength => EInvalidLength
  | IInvalidValue _ _ => EInvalidValue
  | IInvalidTag => EInvalidTag
  | IUnknownTag _ => EUnknownTag
  | IUnexpectedTag _ _ => EUnexpectedTag
  | IUnexpectedClass _ _ => EUnexpectedClass
  | IIndefiniteLengthUnexpected => EIndefiniteLengthUnexpected
  | IConstructExpected => EConstructExpected
  | IConstructUnexpected => EConstructUnexpected
  | IIntegerTooLarge => EIntegerTooLarge
  | IIntegerNegative => EIntegerNegative
  | IBerMaxDepth => EBerMaxDepth
  | IStringInvalidCharset => EStringInvalidCharset
  | IInvalidDateTime => EInvalidDateTime
  | IDerConstraintFailed c => EDerConstraintFailed c
  | INom _ => ENomError
  | ILifetimeError => ELifetimeError
  | IUnsupported => EUnsupported
  | IIncomplete NeededUnknown => EIncomplete 0
  | IIncomplete (NeededSize n) => EIncomplete n
  end.
