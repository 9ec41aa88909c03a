(** The readers generated for structs with the attributes [error] (a type of errors) and [map_err] (a function on
    the errors of a field); derive/src/container.rs.  Fields with a [parse] attribute, which ignores [map_err], are in MParse.v. *)
From Verif Require Import Base MHeader MEncode MBer MInt MCont MDerive.

(** Results with errors of type [E]. *)
Inductive cres (E A : Type) := COk (x : A) | CErr (e : E) | CIncomplete (n : N) | CPanic.
Arguments COk {E A}.
Arguments CErr {E A}.
Arguments CIncomplete {E A}.
Arguments CPanic {E A}.
Definition cbind {E A B} (r : cres E A) (f : A -> cres E B) : cres E B :=
  match r with COk x => f x | CErr e => CErr e | CIncomplete n => CIncomplete n | CPanic => CPanic end.

(** nom [Err::map]; [Err::convert] is the same with [E::from]. *)
Definition cmap {E A} (f : error -> E) (r : res A) : cres E A :=
  match r with Ok x => COk x | Err e => CErr (f e) | Incomplete n => CIncomplete n | Panic => CPanic end.

(** src/error.rs:497-506 ([from_nom_error]); [conv] is [E::from]. *)
Definition cflat {E A} (conv : error -> E) (r : cres E A) : cres E A :=
  match r with CIncomplete n => CErr (conv (EIncomplete n)) | _ => r end.

(** derive/src/container.rs:958-963: [map_err] if present, else the conversion. *)
Definition on_err {E} (conv : error -> E) (m : option (error -> E)) : error -> E :=
  match m with Some f => f | None => conv end.

(** What is put after each call: derive/src/container.rs:958-963 ([BerParser], [DerParser]) and 851-874, the [Der]
    arms ([FromDer]); 851-874, the [Ber] arms ([TryFrom]).  Without [error], [conv] is the identity, and the
    conversion done by [?] is [cflat]. *)
Definition wrap_new {E} (conv : error -> E) (m : option (error -> E)) {A} (r : res A) : cres E A := cmap (on_err conv m) r.
Definition wrap_old {E} (conv : error -> E) (m : option (error -> E)) {A} (r : res A) : cres E A :=
  cflat conv (cmap (on_err conv m) r).

(** ** Fields *)

(** The kinds of field by their readers: one call; a default over an optional value; tagged and optional, without
    and with a default.  A tagged field that is not optional is one call. *)
Inductive kind : Type -> Type :=
| KCall A (p : bytes -> res (bytes * A)) : kind A
| KCallDefault A (d : A) (p : bytes -> res (bytes * option A)) : kind A
| KTagged A (ph : bytes -> res (bytes * header)) (t : N) (p : bytes -> res (bytes * A)) : kind (option A)
| KTaggedDefault A (d : A) (ph : bytes -> res (bytes * header)) (t : N) (p : bytes -> res (bytes * A)) : kind A.
Arguments KCall {A}.
Arguments KCallDefault {A}.
Arguments KTagged {A}.
Arguments KTaggedDefault {A}.

(** derive/src/container.rs:969-995 and 876-892: both calls are wrapped. *)
Definition ctagged_optional {E T} (w : forall A, res A -> cres E A) (ph : bytes -> res (bytes * header)) (t : N)
    (p : bytes -> res (bytes * T)) (i : bytes) : cres E (bytes * option T) :=
  if blen i =? 0 then COk (i, None)
  else cbind (w _ (ph i)) (fun '(_, h) =>
    if h_tag h =? t then cbind (w _ (p i)) (fun '(rem, x) => COk (rem, Some x))
    else COk (i, None)).
(** derive/src/container.rs:952-956 and 846-850 *)
Definition cdefault {E T} (d : T) (r : cres E (bytes * option T)) : cres E (bytes * T) :=
  cbind r (fun '(rem, o) => COk (rem, match o with Some x => x | None => d end)).

(** derive/src/container.rs:934-1020 and 830-910 *)
Definition kind_custom {E A} (w : forall A, res A -> cres E A) (k : kind A) : bytes -> cres E (bytes * A) :=
  match k with
  | KCall p => fun i => w _ (p i)
  | KCallDefault d p => fun i => cdefault d (w _ (p i))
  | KTagged ph t p => ctagged_optional w ph t p
  | KTaggedDefault d ph t p => fun i => cdefault d (ctagged_optional w ph t p i)
  end.
(** The same without attributes, by the definitions of MDerive.v. *)
Definition kind_plain {A} (k : kind A) : bytes -> res (bytes * A) :=
  match k with
  | KCall p => p
  | KCallDefault d p => with_default d p
  | KTagged ph t p => tagged_optional ph t p
  | KTaggedDefault d ph t p => with_default d (tagged_optional ph t p)
  end.

(** ** Structs *)

Inductive cstruct (E : Type) : Type -> Type :=
| SNil : cstruct E unit
| SCons A B (m : option (error -> E)) (k : kind A) (s : cstruct E B) : cstruct E (A * B).
Arguments SNil {E}.
Arguments SCons {E A B}.

Fixpoint plain_fields {E T} (s : cstruct E T) : fields T :=
  match s with SNil => no_field | SCons _ k s => field (kind_plain k) (plain_fields s) end.

(** derive/src/container.rs:911-922, 815-828 *)
Fixpoint custom_fields {E T} (w : option (error -> E) -> forall A, res A -> cres E A) (s : cstruct E T)
  : bytes -> cres E (bytes * T) :=
  match s with
  | SNil => fun i => COk (i, tt)
  | SCons m k s => fun i =>
      cbind (kind_custom (w m) k i) (fun '(rem, x) =>
      cbind (custom_fields w s rem) (fun '(rem, y) => COk (rem, (x, y))))
  end.

(** derive/src/container.rs:264-404 *)
Definition custom_content {E T} (conv : error -> E) (s : cstruct E T) (h : header) (i : bytes) : cres E (bytes * T) :=
  cbind (cmap conv (assert_constructed h)) (fun _ => custom_fields (fun m _ => wrap_new conv m) s i).
(** with src/from_ber.rs:98-116 and src/from_der.rs:140-162 *)
Definition custom_parse_ber {E T} (conv : error -> E) (tag : N) (s : cstruct E T) (i : bytes) : cres E (bytes * T) :=
  cbind (cmap conv (header_parse_ber i)) (fun '(rem, h) =>
  if is_tag tag (h_tag h) then
    cbind (cmap conv (ber_object_content h rem MAX_RECURSION)) (fun '(rem, data) =>
    cbind (custom_content conv s h data) (fun '(_, x) => COk (rem, x)))
  else CErr (conv EUnexpectedTag)).

Definition custom_parse_der {E T} (conv : error -> E) (tag : N) (s : cstruct E T) (i : bytes) : cres E (bytes * T) :=
  cbind (cmap conv (header_parse_der i)) (fun '(rem, h) =>
  match h_length h with
  | Indefinite => CErr (conv EIndefiniteLengthUnexpected)
  | Definite l =>
      if is_tag tag (h_tag h) then
        cbind (cmap conv (take l rem)) (fun '(rem, data) =>
        cbind (custom_content conv s h data) (fun '(_, x) => COk (rem, x)))
      else CErr (conv EUnexpectedTag)
  end).

(** derive/src/container.rs:162-212 *)
Definition custom_try_from {E T} (conv : error -> E) (tag : N) (s : cstruct E T) (a : any) : cres E T :=
  cbind (cmap conv (assert_tag (any_header a) tag)) (fun _ =>
  cbind (custom_fields (fun m _ => wrap_old conv m) s (any_data a)) (fun '(_, v) => COk v)).
(** src/from_ber.rs:59-77 *)
Definition custom_from_ber {E T} (conv : error -> E) (tag : N) (s : cstruct E T) (i : bytes) : cres E (bytes * T) :=
  cbind (cmap conv (parse_ber_any i)) (fun '(rem, a) =>
  cbind (custom_try_from conv tag s a) (fun v => COk (rem, v))).
(** derive/src/container.rs:453-503 *)
Definition custom_from_der {E T} (conv : error -> E) (tag : N) (s : cstruct E T) (i : bytes) : cres E (bytes * T) :=
  cbind (cmap conv (from_der any_codec i)) (fun '(rem, a) =>
  cbind (cmap conv (assert_tag (any_header a) tag)) (fun _ =>
  cbind (custom_fields (fun m _ => wrap_new conv m) s (any_data a)) (fun '(_, v) => COk (rem, v)))).
