(** Model of the text of errors and of the places where they happened. *)
From Coq Require Import String Ascii.
From Verif Require Import Base MHeader MOid MErr MSpan.

(** A text is the list of its characters. *)
Fixpoint text_of (s : string) : list N :=
  match s with EmptyString => [] | String c r => N_of_ascii c :: text_of r end.

(** src/class.rs:54-64 ([Display for Class]) *)
Definition class_display (c : class) : list N :=
  text_of match c with
          | Universal => "UNIVERSAL" | Application => "APPLICATION" | ContextSpecific => "CONTEXT-SPECIFIC" | Private => "PRIVATE"
          end.
(** src/class.rs:8-19: the derived [Debug]. *)
Definition class_debug (c : class) : list N :=
  text_of match c with
          | Universal => "Universal" | Application => "Application" | ContextSpecific => "ContextSpecific" | Private => "Private"
          end.
(** src/tag.rs:10-11: the derived [Debug] of a tuple struct. *)
Definition tag_debug (t : N) : list N := text_of "Tag(" ++ decimal t ++ text_of ")".
(** The derived [Debug] of [Option]. *)
Definition option_debug {A} (f : A -> list N) (o : option A) : list N :=
  match o with Some a => text_of "Some(" ++ f a ++ text_of ")" | None => text_of "None" end.
(** src/error.rs:17-40: the derived [Debug] of [DerConstraint]. *)
Definition constraint_debug (c : der_constraint) : list N :=
  text_of match c with
          | DCIndefiniteLength => "IndefiniteLength" | DCConstructed => "Constructed" | DCNotConstructed => "NotConstructed"
          | DCMissingTimeZone => "MissingTimeZone" | DCMissingSeconds => "MissingSeconds" | DCUnusedBitsNotZero => "UnusedBitsNotZero"
          | DCInvalidBoolean => "InvalidBoolean" | DCIntegerEmpty => "IntegerEmpty"
          | DCIntegerLeadingZeroes => "IntegerLeadingZeroes" | DCIntegerLeadingFF => "IntegerLeadingFF"
          end.
(** src/error.rs:17-40: [Display], from the doc comments. *)
Definition constraint_display (c : der_constraint) : list N :=
  text_of match c with
          | DCIndefiniteLength => "Indefinite length not allowed" | DCConstructed => "Object must not be constructed"
          | DCNotConstructed => "Object must be constructed" | DCMissingTimeZone => "DateTime object is missing timezone"
          | DCMissingSeconds => "DateTime object is missing seconds" | DCUnusedBitsNotZero => "Bitstring unused bits must be set to zero"
          | DCInvalidBoolean => "Boolean value must be 0x00 of 0xff" | DCIntegerEmpty => "Integer must not be empty"
          | DCIntegerLeadingZeroes => "Leading zeroes in Integer encoding"
          | DCIntegerLeadingFF => "Leading 0xff in negative Integer encoding"
          end.
(** The derived [Debug] of [nom::Needed]. *)
Definition needed_debug (n : needed) : list N :=
  match n with NeededUnknown => text_of "Unknown" | NeededSize n => text_of "Size(" ++ decimal n ++ text_of ")" end.

Section Text.
(** The derived [Debug] of [nom::error::ErrorKind]. *)
Variable kind_debug : N -> list N.

Definition detail_text (d : detail) : list N :=
  match d with
  | DTag t => tag_debug t
  | DOptTag t => option_debug tag_debug t
  | DClass c => class_debug c
  | DOptClass c => option_debug class_debug c
  | DText m => m
  | DConstraint c => constraint_debug c
  | DNeeded n => needed_debug n
  | DKind k => kind_debug k
  | DNumber n => decimal n
  end.

(** [displaydoc]: the doc comment with each pair of braces replaced, in order. *)
Fixpoint fill (t : list N) (inside : bool) (args : list (list N)) : list N :=
  match t with
  | [] => []
  | c :: r =>
      if inside then fill r (negb (c =? 125)) args
      else if c =? 123 then match args with a :: args => a ++ fill r true args | [] => fill r true [] end
      else c :: fill r false args
  end.
Definition render (x : string * list detail) : list N := fill (text_of (fst x)) false (map detail_text (snd x)).

(** src/error.rs:46-98 ([Display for Error]) *)
Definition error_text (e : lib_error) : list N := render (error_display e).
(** src/error.rs:269-321 ([Display for InnerError]) *)
Definition inner_text (e : inner_error) : list N := render (inner_display e).

(** src/input.rs:125-129 ([Display for Input]) *)
Definition input_text (i : input) : list N :=
  text_of "Input(start=" ++ decimal (in_start i) ++ text_of " end=" ++ decimal (in_end i) ++ text_of ")".
(** src/error.rs:211-215 ([Display for BerError]) *)
Definition ber_error_text (e : ber_error input) : list N :=
  text_of "BerError: input=" ++ input_text (be_input e) ++ text_of " error=" ++ inner_text (be_inner e).
End Text.
