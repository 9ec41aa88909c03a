(** Where the errors of the base types point: C108. *)
From Verif Require Import Base MHeader MEncode MBer MInt MSeg MOid MText MTime MReal MCont MSpan SSpan PSpan PropSpan MTrace PropTrace MKind PKind PTypes MWhere.
From Verif Require PropText.

(** The base types: those of PTypes, [Boolean] (which keeps its octet), [Real], [f64] and [f32]. *)
Inductive simple : Type -> Type :=
| SBase A (b : base A) : simple A
| SBoolean : simple N
| SReal : simple real
| SF64 : simple f64
| SF32 : simple SpecFloat.spec_float.
Arguments SBase {A}.

Definition simple_codec {A} (t : simple A) : codec A :=
  match t with SBase b => base_codec b | SBoolean => boolean_codec | SReal => real_codec | SF64 => f64_codec | SF32 => f32_codec end.

(** Their content parsers with locations, BER and DER. *)
Definition simple_ber {A} (t : simple A) : sheader -> input -> sres (input * A) :=
  match t with
  | SBase b =>
      match b in base A return sheader -> input -> sres (input * A) with
      | BBool => w_bool w_boolean_ber | BNull => w_null
      | BInt w => w_number (int_ber_content w) | BUint w => w_number (uint_ber_content w)
      | BEnum => w_number enum_ber_content | BInteger => w_integer_ber
      | BOctets => w_octets | BSlice => w_slice | BBits => w_bits | BOid => w_oid
      | BString k => w_string k | BStr => w_str | BOwnedString => w_string Utf8
      | BBmp => w_bmp | BUniversal => w_universal
      | BSequence | BSet => w_raw
      | BUtcTime => w_time w_supported (fun _ => Ok tt) utc_from_bytes
      | BGeneralizedTime => w_time w_supported (fun _ => Ok tt) gen_from_bytes
      end
  | SBoolean => w_boolean_ber
  | SReal => w_number real_content
  | SF64 => w_float real_f64
  | SF32 => w_float real_f32
  end.
Definition simple_der {A} (t : simple A) : sheader -> input -> sres (input * A) :=
  match t with
  | SBase b =>
      match b in base A return sheader -> input -> sres (input * A) with
      | BBool => w_bool w_boolean_der | BNull => w_null
      | BInt w => w_number (int_der_content w) | BUint w => w_number (uint_der_content w)
      | BEnum => w_number enum_der_content | BInteger => w_integer_der
      | BOctets => w_der w_octets | BSlice => w_der w_slice | BBits => w_der w_bits | BOid => w_oid
      | BString k => w_der (w_string k) | BStr => w_str_der | BOwnedString => w_str_der
      | BBmp => w_der w_bmp | BUniversal => w_der w_universal
      | BSequence | BSet => w_raw
      | BUtcTime => w_time w_primitive (fun _ => Ok tt) utc_from_bytes
      | BGeneralizedTime => w_time w_primitive gen_der_text gen_from_bytes
      end
  | SBoolean => w_boolean_der
  | SReal => w_number real_content
  | SF64 => w_float real_f64
  | SF32 => w_float real_f32
  end.
Definition simple_parser {A} (t : simple A) : sparser A :=
  mk_sparser (accept_tag (simple_codec t)) (simple_ber t) (simple_der t).

(** ** Taking everything *)

(** The empty input at the end of [i]. *)
Definition end_of (i : input) : input := mk_input [] (in_end i) (in_end i).

Section located.
Context (whole : bytes) (W : small whole).

Lemma end_located i : located whole i -> located whole (end_of i).
Proof.
  intros (pre & post & E & S & F). exists (pre ++ in_data i), post. cbn [end_of in_data in_start in_end app]. rewrite <- app_assoc. split; [exact E|].
  unfold blen in *. rewrite app_length. cbn [length]. split; lia.
Qed.
Lemma from_all i : located whole i -> in_take_from i (blen (in_data i)) = SOk (end_of i).
Proof.
  intros L. destruct (located_take_from whole i (blen (in_data i)) W L ltac:(lia)) as ([d s e] & E & D & S & F & _). cbn in D, S, F.
  rewrite E. pose proof (located_end _ _ L) as [G _]. unfold end_of. rewrite skipn_all2 in D by (unfold blen; lia). subst d. f_equal. f_equal; lia.
Qed.
Lemma take_all i : located whole i -> in_take i (blen (in_data i)) = SOk i.
Proof.
  intros L. destruct (located_take whole i (blen (in_data i)) W L ltac:(lia)) as ([d s e] & E & D & S & F & _). cbn in D, S, F.
  rewrite E. pose proof (located_end _ _ L) as [G _]. rewrite firstn_all2 in D by (unfold blen; lia). subst d. destruct i as [d s' e']. cbn in *. f_equal. f_equal; lia.
Qed.
Lemma split_all i : located whole i -> w_all i = SOk (end_of i, i).
Proof. intros L. unfold w_all, in_take_split. rewrite from_all, take_all by exact L. reflexivity. Qed.
Lemma s_take_all i : located whole i -> s_take (blen (in_data i)) i = SOk (end_of i, i).
Proof. intros L. unfold s_take. rewrite N.leb_refl. exact (split_all i L). Qed.

(** ** The results of the model without locations *)

Lemma sim_text {T} (read : T -> res (list N)) (r : sres (input * T)) (r' : res (bytes * T)) (g : bytes * T -> res (bytes * list N)) :
  (forall b x, value' (g (b, x)) = read x) ->
  sim whole (fun x => x) (fun _ => True) (value r) (value' r') -> (forall rem x, r = SOk (rem, x) -> located whole rem) ->
  sim whole (fun x => x) (fun _ => True) (value (w_text read r)) (value' (bind r' g)).
Proof.
  intros G S L. unfold w_text, value, value' in *. destruct r as [[rem x]| | |], r' as [[b y]| | |]; cbn in *; try contradiction; auto.
  destruct S as [-> _]. specialize (G b x). destruct (g (b, x)) as [[? ?]| | |]; cbn in *; subst; rewrite <- G; cbn; auto.
  - split; [reflexivity | exact (L _ _ eq_refl)].
Qed.

Lemma segments_sim {T} (g : segments T) h i : header_located whole h -> located whole i ->
  sim whole (fun q => snd q) (fun q => suffix whole i (fst q)) (w_segments g h i)
      (value' (parse_ber_segmented (sg_accept g) (sg_default g) (sg_append g) (sg_prim g) (sg_limit g) (sh_fields h) (in_data i))).
Proof.
  intros H L. destruct (segmented_rel no_log whole W g (sg_limit g) h i H L) as (_ & S & _). revert S. apply sim_weaken. intros q [S _]. exact S.
Qed.
Lemma sim_value {A} (P : input * A -> Prop) r r' :
  sim whole (fun q => snd q) P r (value' r') -> sim whole (fun x : A => x) (fun _ => True) (value r) (value' r').
Proof. unfold value, value'. destruct r as [[a x]| | |], r' as [[b y]| | |]; cbn; auto. intros [E _]. auto. Qed.

Definition agrees {A} (r : sres (input * A)) (r' : res (bytes * A)) : Prop := sim whole (fun x : A => x) (fun _ => True) (value r) (value' r').

Lemma agrees_step {A B} (i : input) (r : res B) (k : sres (input * A)) (k' : res (bytes * A)) :
  located whole i -> agrees k k' -> agrees (let+ _ := at_input i r in k) (let* _ := r in k').
Proof. intros L H. destruct r; cbn; auto. Qed.
Lemma agrees_err {A} i e : located whole i -> agrees (A:=A) (SErr i e) (Err e).
Proof. intros L. cbn. auto. Qed.
Lemma agrees_ok {A} rem b (x : A) : agrees (SOk (rem, x)) (Ok (b, x)).
Proof. cbn. auto. Qed.

Lemma number_agrees {A} (f : header -> bytes -> res (bytes * A)) h i : located whole i -> agrees (w_number f h i) (f (sh_fields h) (in_data i)).
Proof. intros L. unfold w_number. rewrite from_all by exact L. destruct (f (sh_fields h) (in_data i)) as [[b x]| | |]; cbn; auto. Qed.
Lemma float_agrees {A} (f : real -> A) h i : located whole i ->
  agrees (w_float f h i) (let* (rem, r) := real_content (sh_fields h) (in_data i) in Ok (rem, f r)).
Proof. intros L. unfold w_float, w_number. rewrite from_all by exact L. destruct (real_content (sh_fields h) (in_data i)) as [[b x]| | |]; cbn; auto. Qed.
Lemma octets_agrees h i : header_located whole h -> located whole i ->
  agrees (w_octets h i) (octet_ber_content (sh_fields h) (in_data i)) /\ (forall rem x, w_octets h i = SOk (rem, x) -> located whole rem).
Proof.
  intros H L. unfold w_octets, octet_ber_content. rewrite split_all by exact L. destruct (h_constructed (sh_fields h)); cbn [negb].
  - pose proof (segments_sim octets h i H L) as S. split; [exact (sim_value _ _ _ S)|]. intros rem x E. destruct (sim_ok _ _ _ _ _ _ S E) as [_ Q]. apply Q.
  - split; [apply agrees_ok|]. intros rem x E. cbn in E. injection E as <- _. apply end_located. exact L.
Qed.
Lemma wide_agrees h i : header_located whole h -> located whole i ->
  agrees (w_wide h i) (wide_data (sh_fields h) (in_data i)) /\ (forall rem x, w_wide h i = SOk (rem, x) -> located whole rem).
Proof.
  intros H L. unfold w_wide, wide_data. rewrite split_all by exact L. destruct (h_constructed (sh_fields h)).
  - split; [apply agrees_ok|]. intros rem x E. cbn in E. injection E as <- _. apply end_located. exact L.
  - pose proof (segments_sim octets h i H L) as S. split; [exact (sim_value _ _ _ S)|]. intros rem x E. destruct (sim_ok _ _ _ _ _ _ S E) as [_ Q]. apply Q.
Qed.
Lemma slice_agrees h i : located whole i ->
  agrees (w_slice h i) (slice_ber_content (sh_fields h) (in_data i)) /\ (forall rem x, w_slice h i = SOk (rem, x) -> located whole rem).
Proof.
  intros L. unfold w_slice, slice_ber_content. rewrite split_all by exact L. destruct (h_constructed (sh_fields h)).
  - split; [apply agrees_err; exact L | discriminate].
  - split; [apply agrees_ok|]. intros rem x E. cbn in E. injection E as <- _. apply end_located. exact L.
Qed.
Lemma bits_agrees h i : header_located whole h -> located whole i -> agrees (w_bits h i) (bitstring_ber_content (sh_fields h) (in_data i)).
Proof.
  intros H L. unfold w_bits, bitstring_ber_content. destruct (h_constructed (sh_fields h)); cbn [negb].
  - exact (sim_value _ _ _ (segments_sim bits h i H L)).
  - unfold bitstring_prim, ber_get_content, agrees. pose proof (ber_object_content_sim whole h i MAX_RECURSION W L) as S.
    destruct (s_ber_object_content h i MAX_RECURSION) as [[r d]| | |], (ber_object_content (sh_fields h) (in_data i) MAX_RECURSION) as [[r' d']| | |];
      cbn [sim] in S; try contradiction; [|cbn; auto..].
    destruct S as [S (_ & D & _)]. unfold data2 in S. cbn [fst snd] in S, D. injection S as _ ->. cbn [sbind bind].
    destruct (in_data d) as [|g bs]; [cbn; auto|]. destruct (g <=? 7); [|cbn; auto]. destruct (_ <? g); cbn; auto.
Qed.
Lemma boolean_agrees h i : located whole i -> agrees (w_boolean_ber h i) (boolean_ber_content (sh_fields h) (in_data i))
  /\ agrees (w_boolean_der h i) (boolean_der_content (sh_fields h) (in_data i)).
Proof.
  intros L. unfold w_boolean_der, boolean_der_content, w_boolean_ber, boolean_ber_content, w_primitive, agrees.
  destruct (assert_primitive (sh_fields h)); cbn [at_input sbind bind]; try (cbn; auto; fail).
  destruct (blength_eqb _ _); [|cbn; auto]. pose proof (be_u8_sim whole i W L) as S.
  destruct (s_be_u8 i) as [[r b]| | |], (be_u8 (in_data i)) as [[r' b']| | |]; cbn [sim] in S; try contradiction; [|cbn; auto..].
  destruct S as [S R]. unfold dataN in S. cbn [fst snd] in S, R. injection S as _ ->. cbn [sbind bind].
  split; [cbn; auto|]. destruct (_ || _); cbn; auto. split; [reflexivity | apply R].
Qed.
Lemma bool_agrees (f : sheader -> input -> sres (input * N)) f' h i : agrees (f h i) (f' (sh_fields h) (in_data i)) ->
  agrees (w_bool f h i) (map_snd to_bool (f' (sh_fields h) (in_data i))).
Proof.
  unfold agrees, w_bool, map_snd. destruct (f h i) as [[r b]| | |], (f' (sh_fields h) (in_data i)) as [[r' b']| | |]; cbn; auto. intros [-> _]. auto.
Qed.
Lemma integer_agrees h i : located whole i -> agrees (w_integer_ber h i) (integer_ber_content (sh_fields h) (in_data i)).
Proof.
  intros L. unfold w_integer_ber, integer_ber_content. apply agrees_step; [exact L|]. unfold agrees. pose proof (der_get_content_sim whole h i W L) as S.
  destruct (s_der_get_content h i) as [[r d]| | |], (der_get_content (sh_fields h) (in_data i)) as [[r' d']| | |]; cbn [sim] in S; try contradiction; [|cbn; auto..].
  destruct S as [S (_ & D & _)]. unfold data2 in S. cbn [fst snd] in S, D. injection S as _ ->. cbn [sbind bind].
  destruct (in_data d); cbn; auto.
Qed.
Lemma oid_agrees h i : located whole i -> agrees (w_oid h i) (oid_ber_content (sh_fields h) (in_data i)).
Proof.
  intros L. unfold w_oid, oid_ber_content. apply agrees_step; [exact L|]. rewrite split_all by exact L.
  destruct (in_data i) eqn:E; [apply agrees_err; exact L|]. cbn [blen]. destruct (N.eqb_spec (blen (n :: l)) 0) as [Z|_]; [discriminate Z|]. cbn. rewrite E. auto.
Qed.
Lemma time_agrees text read h i : located whole i ->
  agrees (w_time w_supported text read h i)
    (if h_constructed (sh_fields h) then Err EUnsupported
     else if negb (forallb is_visible (in_data i)) then Err EStringInvalidCharset
     else let* _ := text (in_data i) in let* t := read (in_data i) in Ok ([], t))
  /\ agrees (w_time w_primitive text read h i)
    (let* _ := assert_primitive (sh_fields h) in
     if negb (forallb is_visible (in_data i)) then Err EStringInvalidCharset
     else let* _ := text (in_data i) in let* t := read (in_data i) in Ok ([], t)).
Proof.
  intros L.
  assert (X : agrees (if negb (forallb is_visible (in_data i)) then SErr i EStringInvalidCharset
                      else let+ (rem, data) := w_all i in let+ _ := at_input data (text (in_data data)) in
                           let+ t := at_input data (read (in_data data)) in SOk (rem, t))
                     (if negb (forallb is_visible (in_data i)) then Err EStringInvalidCharset
                      else let* _ := text (in_data i) in let* t := read (in_data i) in Ok ([], t))).
  { rewrite split_all by exact L. destruct (negb _); [apply agrees_err; exact L|]. cbn [sbind].
    apply agrees_step; [exact L|]. destruct (read (in_data i)); cbn; auto. }
  split.
  - unfold w_time, w_supported. destruct (h_constructed (sh_fields h)); [apply agrees_err; exact L | exact X].
  - unfold w_time, w_primitive. apply agrees_step; [exact L | exact X].
Qed.

Lemma text_value k b (d : bytes) : value' (let* _ := test_valid_charset k d in match from_utf8 d with Some s => Ok (b, s) | None => Err EStringInvalidCharset end) = text k d.
Proof. unfold text, value'. destruct (test_valid_charset k d); cbn [bind]; auto. destruct (from_utf8 d); reflexivity. Qed.
Lemma string_agrees k h i : header_located whole h -> located whole i -> agrees (w_string k h i) (string_ber_content k (sh_fields h) (in_data i)).
Proof.
  intros H L. destruct (octets_agrees h i H L) as [S R]. unfold w_string, string_ber_content. refine (sim_text (text k) _ (octet_ber_content (sh_fields h) (in_data i)) _ _ S R).
  intros b x. apply text_value.
Qed.
Lemma str_agrees h i : located whole i -> agrees (w_str h i) (str_ber_content (sh_fields h) (in_data i))
  /\ agrees (w_str_der h i) (str_der_content (sh_fields h) (in_data i)).
Proof.
  intros L. unfold w_str, w_str_der, w_text, w_slice, str_ber_content, str_der_content. rewrite split_all by exact L.
  pose proof (end_located i L) as Z. split.
  - destruct (h_constructed (sh_fields h)); [apply agrees_err; exact L|]. cbn [sbind]. unfold utf8_text. destruct (from_utf8 (in_data i)); cbn; auto.
  - apply agrees_step; [exact L|]. cbn [sbind]. unfold utf8_text. destruct (from_utf8 (in_data i)); cbn; auto.
Qed.
Lemma bmp_agrees h i : header_located whole h -> located whole i -> agrees (w_bmp h i) (bmp_ber_content (sh_fields h) (in_data i)).
Proof.
  intros H L. destruct (wide_agrees h i H L) as [S R]. unfold w_bmp, bmp_ber_content. refine (sim_text bmp_text _ _ _ _ S R).
  intros b x. unfold bmp_text. destruct (from_utf16 _); reflexivity.
Qed.
Lemma universal_agrees h i : header_located whole h -> located whole i -> agrees (w_universal h i) (universal_ber_content (sh_fields h) (in_data i)).
Proof.
  intros H L. destruct (wide_agrees h i H L) as [S R]. unfold w_universal, universal_ber_content. refine (sim_text universal_text _ _ _ _ S R).
  intros b x. unfold universal_text. destruct (negb _); [reflexivity|]. destruct (universal_chars x); reflexivity.
Qed.
Lemma raw_agrees h i : located whole i -> agrees (w_raw h i) (raw_content (sh_fields h) (in_data i)).
Proof.
  intros L. unfold w_raw, w_constructed, raw_content. apply agrees_step; [exact L|]. rewrite split_all by exact L. cbn [sbind].
  pose proof (take_sim whole i (blen (in_data i)) W L) as S. rewrite s_take_all in S by exact L. destruct (take _ _) as [[b d]| | |]; cbn [sim] in S; try contradiction.
  destruct S as [S _]. unfold data2 in S. cbn [fst snd] in S. injection S as -> ->. apply agrees_ok.
Qed.

Lemma simple_agrees {A} (t : simple A) h i : header_located whole h -> located whole i ->
  agrees (simple_ber t h i) (ber_content (simple_codec t) (sh_fields h) (in_data i))
  /\ agrees (simple_der t h i) (der_content (simple_codec t) (sh_fields h) (in_data i)).
Proof.
  intros H L. assert (D : forall {T} (f : sheader -> input -> sres (input * T)) f', agrees (f h i) f' -> agrees (w_der f h i) (let* _ := assert_primitive (sh_fields h) in f')).
  { intros T f f' F. unfold w_der, w_primitive. apply agrees_step; assumption. }
  destruct t as [A b| | | |]; [destruct b|..]; cbn [simple_ber simple_der simple_codec base_codec].
  - destruct (boolean_agrees h i L) as [B C]. split; [exact (bool_agrees _ _ h i B) | exact (bool_agrees _ _ h i C)].
  - assert (X : agrees (w_null h i) (null_ber_content (sh_fields h) (in_data i))).
    { unfold w_null, null_ber_content. apply agrees_step; [exact L|]. destruct (is_null _); [apply agrees_ok | apply agrees_err; exact L]. }
    split; exact X.
  - split; apply (number_agrees _ h i L).
  - split; apply (number_agrees _ h i L).
  - split; apply (number_agrees _ h i L).
  - split; [exact (integer_agrees h i L)|]. unfold simple_der, w_integer_der. apply agrees_step; [exact L | exact (integer_agrees h i L)].
  - split; [|apply D]; apply (octets_agrees h i H L).
  - split; [|apply D]; apply (slice_agrees h i L).
  - split; [|apply D]; apply (bits_agrees h i H L).
  - split; apply (oid_agrees h i L).
  - split; [|apply D]; apply (string_agrees _ h i H L).
  - exact (str_agrees h i L).
  - split; [apply (string_agrees _ h i H L) | exact (proj2 (str_agrees h i L))].
  - split; [|apply D]; apply (bmp_agrees h i H L).
  - split; [|apply D]; apply (universal_agrees h i H L).
  - split; apply (raw_agrees h i L).
  - split; apply (raw_agrees h i L).
  - exact (time_agrees (fun _ => Ok tt) utc_from_bytes h i L).
  - split; [exact (proj1 (time_agrees (fun _ => Ok tt) gen_from_bytes h i L)) | exact (proj2 (time_agrees gen_der_text gen_from_bytes h i L))].
  - exact (boolean_agrees h i L).
  - split; apply (number_agrees _ h i L).
  - split; exact (float_agrees real_f64 h i L).
  - split; exact (float_agrees real_f32 h i L).
Qed.

End located.

Lemma simple_tracks {A} (t : simple A) : tracks (fun x => x) (fun _ _ => True) (simple_parser t) (codec_parser (simple_codec t)).
Proof.
  split; [reflexivity|]. split; [reflexivity|]. split; [reflexivity|]. intros whole W h i H L. exact (simple_agrees whole W t h i H L).
Qed.

(** ** Where an error is *)

(** A character string whose octets are not characters, and a DER BOOLEAN of another octet than 0 and 0xff. *)
Definition at_end {A} (t : simple A) (e : error) : bool :=
  match t with
  | SBase b =>
      match b, e with
      | (BString _ | BStr | BOwnedString | BBmp | BUniversal), EStringInvalidCharset => true
      | BBool, EDerConstraintFailed DCInvalidBoolean => true
      | _, _ => false
      end
  | SBoolean => match e with EDerConstraintFailed DCInvalidBoolean => true | _ => false end
  | SReal | SF64 | SF32 => false
  end.
Definition place {A} (t : simple A) (e : error) (data : input) : input := if at_end t e then end_of data else data.

(** The types which look for segments in a constructed string. *)
Definition segmented {A} (t : simple A) : bool :=
  match t with SBase (BOctets | BBits | BString _ | BOwnedString) => true | _ => false end.

Section place.
Context (whole : bytes) (W : small whole).

Lemma length_sub i : located whole i -> usize_sub (in_end i) (in_start i) = SOk (blen (in_data i)).
Proof.
  intros L. pose proof (located_end _ _ L) as [E _]. unfold usize_sub. destruct (N.leb_spec (in_start i) (in_end i)); [|lia]. f_equal. lia.
Qed.
Lemma skip_all h i d : located whole i -> h_length (sh_fields h) = Definite (blen (in_data i)) ->
  exists r b, s_skip_content (S d) h i = SOk (r, b) /\ snd (t_skip_content no_log (S d) h i) = SOk (r, b)
    /\ usize_sub (in_start r) (in_start i) = SOk (blen (in_data i)).
Proof.
  intros L H. cbn [s_skip_content t_skip_content]. rewrite H. destruct ((blen (in_data i) =? 0) && _) eqn:E.
  - apply andb_true_iff in E. destruct E as [E _]. apply N.eqb_eq in E. exists i, true. split; [reflexivity|]. split; [reflexivity|].
    rewrite <- (length_sub i L). f_equal. pose proof (located_end _ _ L) as [G _]. lia.
  - exists (end_of i), false. unfold lbind, silent. cbn [snd]. rewrite (s_take_all whole W) by exact L. cbn [sbind snd]. split; [reflexivity|]. split; [reflexivity|].
    exact (length_sub i L).
Qed.
Lemma object_all h i d : located whole i -> h_length (sh_fields h) = Definite (blen (in_data i)) ->
  s_ber_object_content h i (S d) = SOk (end_of i, i) /\ snd (t_ber_object_content no_log h i (S d)) = SOk (end_of i, i).
Proof.
  intros L H. destruct (skip_all h i d L H) as (r & b & E & F & G). unfold s_ber_object_content, t_ber_object_content, lbind. rewrite E, F. cbn [sbind snd silent].
  rewrite G, H. cbn [is_definite sbind]. change (in_take_split i (blen (in_data i))) with (w_all i). rewrite (split_all whole W i L). split; reflexivity.
Qed.
Lemma segments_primitive h i : located whole i -> h_length (sh_fields h) = Definite (blen (in_data i)) -> h_constructed (sh_fields h) = false ->
  w_segments octets h i = if blen (in_data i) =? 0 then SErr i EInvalidLength else SOk (end_of i, in_data i).
Proof.
  intros L H C. unfold w_segments, octets. cbn [sg_limit]. change OCTETSTRING_MAX_RECURSION with 5%nat. cbn [k_segmented].
  destruct (blen (in_data i) =? 0); [reflexivity|]. rewrite C. unfold lbind. change MAX_RECURSION with 50%nat. rewrite (proj2 (object_all h i 49 L H)). reflexivity.
Qed.
Lemma text_error {T} (read : T -> res (list N)) r a e :
  (forall d, read d = Err EStringInvalidCharset \/ exists s, read d = Ok s) ->
  w_text read r = SErr a e -> r = SErr a e \/ exists d, r = SOk (a, d) /\ e = EStringInvalidCharset.
Proof.
  intros R. unfold w_text. destruct r as [[rem d]| | |]; cbn [sbind]; intros E; try discriminate; [|left; congruence].
  destruct (R d) as [Q | [s Q]]; rewrite Q in E; cbn in E; [|discriminate]. injection E as -> <-. right. eauto.
Qed.
Lemma text_errors k d : text k d = Err EStringInvalidCharset \/ exists s, text k d = Ok s.
Proof.
  unfold text. assert (X : test_valid_charset k d = Ok tt \/ test_valid_charset k d = Err EStringInvalidCharset).
  { destruct k; cbn [test_valid_charset]; try (destruct (forallb _ d); auto); destruct (from_utf8 d); auto. }
  destruct X as [-> | ->]; cbn [bind]; [|auto]. destruct (from_utf8 d); eauto.
Qed.
Lemma primitive_err h i a e : w_primitive h i = SErr a e -> a = i /\ e = EConstructUnexpected.
Proof. unfold w_primitive, assert_primitive. destruct (h_constructed (sh_fields h)); cbn; [|discriminate]. intros E. injection E as <- <-. auto. Qed.
Lemma number_err {A} (f : header -> bytes -> res (bytes * A)) h i a e : located whole i -> w_number f h i = SErr a e -> a = i.
Proof.
  intros L. unfold w_number. rewrite (from_all whole W) by exact L. destruct (f (sh_fields h) (in_data i)) as [[? ?]| | |]; cbn; intros E; try discriminate. injection E as <- _. reflexivity.
Qed.
Lemma float_err {A} (f : real -> A) h i a e : located whole i -> w_float f h i = SErr a e -> a = i.
Proof.
  intros L E. unfold w_float in E. destruct (w_number real_content h i) as [[? ?]| | |] eqn:B; cbn [sbind] in E; try discriminate. injection E as <- _. exact (number_err _ _ _ _ _ L B).
Qed.
Lemma boolean_err h i a e : located whole i -> w_boolean_ber h i = SErr a e -> a = i /\ (e = EConstructUnexpected \/ e = EInvalidLength).
Proof.
  intros L. unfold w_boolean_ber. destruct (w_primitive h i) eqn:P; cbn [sbind]; intros E; try discriminate.
  - destruct (blength_eqb _ _); [|injection E as <- <-; auto].
    unfold s_be_u8 in E. destruct (in_data i) as [|b l] eqn:D; [discriminate|]. destruct (located_take_from whole i 1 W L) as (x & F & _); [rewrite D; unfold blen; cbn [length]; lia|].
    rewrite F in E. discriminate.
  - injection E as <- <-. destruct (primitive_err _ _ _ _ P). auto.
Qed.
Lemma boolean_der_err h i a e : located whole i -> h_length (sh_fields h) = Definite (blen (in_data i)) -> w_boolean_der h i = SErr a e ->
  (a = i /\ (e = EConstructUnexpected \/ e = EInvalidLength)) \/ (a = end_of i /\ e = EDerConstraintFailed DCInvalidBoolean).
Proof.
  intros L H. unfold w_boolean_der. destruct (w_boolean_ber h i) as [[rem b]|a' e'| |] eqn:B; cbn [sbind]; intros E; try discriminate.
  - destruct (_ || _); [discriminate|]. injection E as <- <-. right. split; [|reflexivity]. unfold w_boolean_ber in B.
    destruct (w_primitive h i); cbn [sbind] in B; try discriminate. rewrite H in B. cbn [blength_eqb] in B.
    destruct (N.eqb_spec (blen (in_data i)) 1) as [Q|]; [|discriminate]. unfold s_be_u8 in B. destruct (in_data i) eqn:D; [discriminate|].
    rewrite <- D in Q. rewrite <- Q, (from_all whole W i L) in B. cbn in B. injection B as <- _. reflexivity.
  - injection E as <- <-. left. exact (boolean_err _ _ _ _ L B).
Qed.
Lemma time_err form tx read h i a e : located whole i -> (forall x, form h i = SErr a x -> a = i) -> w_time form tx read h i = SErr a e -> a = i.
Proof.
  intros L F. unfold w_time. rewrite (split_all whole W i L). destruct (form h i) eqn:Q; cbn [sbind]; intros E; try discriminate.
  - destruct (negb _); [congruence|]. cbn [sbind] in E. destruct (tx (in_data i)); cbn in E; try congruence. destruct (read (in_data i)); cbn in E; congruence.
  - injection E as <- <-. exact (F _ eq_refl).
Qed.
Lemma raw_err h i a e : located whole i -> w_raw h i = SErr a e -> a = i.
Proof. intros L. unfold w_raw, w_constructed. rewrite (split_all whole W i L). destruct (assert_constructed _); cbn; congruence. Qed.
Lemma oid_err h i a e : located whole i -> w_oid h i = SErr a e -> a = i.
Proof.
  intros L. unfold w_oid. rewrite (split_all whole W i L). destruct (w_primitive h i) eqn:P; cbn [sbind]; intros E; try discriminate.
  - destruct (_ =? 0); [congruence | discriminate].
  - injection E as <- _. exact (proj1 (primitive_err _ _ _ _ P)).
Qed.
Lemma null_err h i a e : w_null h i = SErr a e -> a = i.
Proof.
  unfold w_null. destruct (w_primitive h i) eqn:P; cbn [sbind]; intros E; try discriminate.
  - destruct (is_null _); congruence.
  - injection E as <- _. exact (proj1 (primitive_err _ _ _ _ P)).
Qed.
Lemma integer_err h i a e : located whole i -> (h_length (sh_fields h) = Definite (blen (in_data i)) \/ h_constructed (sh_fields h) = true) -> w_integer_ber h i = SErr a e -> a = i.
Proof.
  intros L H. unfold w_integer_ber. destruct (w_primitive h i) eqn:P; cbn [sbind]; intros E; try discriminate.
  - destruct H as [H|H]; [|unfold w_primitive, assert_primitive in P; rewrite H in P; discriminate].
    unfold s_der_get_content in E. rewrite H, (s_take_all whole W i L) in E. cbn [sbind] in E. destruct (in_data i); congruence.
  - injection E as <- _. exact (proj1 (primitive_err _ _ _ _ P)).
Qed.
Lemma slice_err h i a e : located whole i -> w_slice h i = SErr a e -> a = i /\ e = ELifetimeError.
Proof. intros L. unfold w_slice. rewrite (split_all whole W i L). destruct (h_constructed _); cbn; intros E; [|discriminate]. injection E as <- <-. auto. Qed.
Lemma octets_primitive h i : located whole i -> h_constructed (sh_fields h) = false -> w_octets h i = SOk (end_of i, in_data i).
Proof. intros L C. unfold w_octets. rewrite C, (split_all whole W i L). reflexivity. Qed.
Lemma bits_err h i a e : located whole i -> h_constructed (sh_fields h) = false -> h_length (sh_fields h) = Definite (blen (in_data i)) -> w_bits h i = SErr a e -> a = i.
Proof.
  intros L C H. unfold w_bits. rewrite C. cbn [negb]. change MAX_RECURSION with 50%nat. rewrite (proj1 (object_all h i 49 L H)). cbn [sbind]. intros E.
  destruct (in_data i) as [|g bs]; [congruence|]. destruct (g <=? 7); [|congruence]. destruct (_ <? g); congruence.
Qed.
Lemma wide_all h i : located whole i -> (h_length (sh_fields h) = Definite (blen (in_data i)) \/ h_constructed (sh_fields h) = true) ->
  w_wide h i = SErr i EInvalidLength \/ w_wide h i = SOk (end_of i, in_data i).
Proof.
  intros L H. unfold w_wide. rewrite (split_all whole W i L). destruct (h_constructed (sh_fields h)) eqn:C; [right; reflexivity|].
  destruct H as [H|H]; [|discriminate]. rewrite (segments_primitive h i L H C). destruct (_ =? 0); auto.
Qed.

Lemma bmp_errors d : bmp_text d = Err EStringInvalidCharset \/ exists s, bmp_text d = Ok s.
Proof. unfold bmp_text. destruct (from_utf16 _); eauto. Qed.
Lemma universal_errors d : universal_text d = Err EStringInvalidCharset \/ exists s, universal_text d = Ok s.
Proof. unfold universal_text. destruct (negb _); [auto|]. destruct (universal_chars d); eauto. Qed.
Lemma utf8_errors d : utf8_text d = Err EStringInvalidCharset \/ exists s, utf8_text d = Ok s.
Proof. unfold utf8_text. destruct (from_utf8 d); eauto. Qed.

(** [a] is where an error [e] of a character string is. *)
Definition text_place (e : error) (i a : input) : Prop := a = match e with EStringInvalidCharset => end_of i | _ => i end.
Lemma wide_err read h i a e : (forall d, read d = Err EStringInvalidCharset \/ exists s, read d = Ok s) ->
  located whole i -> (h_length (sh_fields h) = Definite (blen (in_data i)) \/ h_constructed (sh_fields h) = true) -> w_text read (w_wide h i) = SErr a e -> text_place e i a.
Proof.
  intros R L H E. destruct (text_error _ _ _ _ R E) as [F | (d & F & ->)]; destruct (wide_all h i L H) as [Q|Q]; rewrite Q in F; try discriminate.
  - injection F as <- <-. reflexivity.
  - injection F as <- _. reflexivity.
Qed.
Lemma str_err h i a e : located whole i -> w_str h i = SErr a e -> text_place e i a.
Proof.
  intros L E. destruct (text_error _ _ _ _ utf8_errors E) as [F | (d & F & ->)].
  - destruct (slice_err _ _ _ _ L F) as [-> ->]. reflexivity.
  - unfold w_slice in F. rewrite (split_all whole W i L) in F. destruct (h_constructed _); cbn in F; [discriminate|]. injection F as <- _. reflexivity.
Qed.
Lemma str_der_err h i a e : located whole i -> w_str_der h i = SErr a e -> text_place e i a.
Proof.
  intros L. unfold w_str_der. rewrite (split_all whole W i L). cbn [sbind]. destruct (w_primitive h i) eqn:P; cbn [sbind]; intros E; try discriminate.
  - destruct (text_error _ _ _ _ utf8_errors E) as [F | (d & F & ->)]; [discriminate|]. injection F as <- _. reflexivity.
  - injection E as <- <-. destruct (primitive_err _ _ _ _ P) as [-> ->]. reflexivity.
Qed.
Lemma string_err k h i a e : located whole i -> h_constructed (sh_fields h) = false -> w_string k h i = SErr a e -> text_place e i a.
Proof.
  intros L C E. unfold w_string in E. rewrite (octets_primitive h i L C) in E. destruct (text_error _ _ _ _ (text_errors k) E) as [F | (d & F & ->)]; [discriminate|].
  injection F as <- _. reflexivity.
Qed.

Definition whole_contents (h : sheader) (i : input) : Prop :=
  h_length (sh_fields h) = Definite (blen (in_data i)) \/ h_length (sh_fields h) = Indefinite /\ h_constructed (sh_fields h) = true.

Lemma simple_ber_place {A} (t : simple A) h i a e : located whole i -> whole_contents h i ->
  (segmented t = true -> h_constructed (sh_fields h) = false) -> simple_ber t h i = SErr a e -> a = place t e i.
Proof.
  intros L H S E. assert (H' : h_length (sh_fields h) = Definite (blen (in_data i)) \/ h_constructed (sh_fields h) = true) by (destruct H as [H|[_ H]]; auto).
  destruct t as [A b| | | |]; [destruct b|..]; cbn [simple_ber segmented] in *; unfold place; cbn [at_end].
  - unfold w_bool in E. destruct (w_boolean_ber h i) as [[? ?]| | |] eqn:B; try discriminate. injection E as <- <-. destruct (boolean_err _ _ _ _ L B) as [-> [-> | ->]]; reflexivity.
  - exact (null_err _ _ _ _ E).
  - exact (number_err _ _ _ _ _ L E).
  - exact (number_err _ _ _ _ _ L E).
  - exact (number_err _ _ _ _ _ L E).
  - exact (integer_err _ _ _ _ L H' E).
  - rewrite (octets_primitive h i L (S eq_refl)) in E. discriminate.
  - exact (proj1 (slice_err _ _ _ _ L E)).
  - specialize (S eq_refl). destruct H' as [H'|H']; [|congruence]. exact (bits_err _ _ _ _ L S H' E).
  - exact (oid_err _ _ _ _ L E).
  - pose proof (string_err _ _ _ _ _ L (S eq_refl) E) as Q. unfold text_place in Q. destruct e; exact Q.
  - pose proof (str_err _ _ _ _ L E) as Q. unfold text_place in Q. destruct e; exact Q.
  - pose proof (string_err _ _ _ _ _ L (S eq_refl) E) as Q. unfold text_place in Q. destruct e; exact Q.
  - pose proof (wide_err _ _ _ _ _ bmp_errors L H' E) as Q. unfold text_place in Q. destruct e; exact Q.
  - pose proof (wide_err _ _ _ _ _ universal_errors L H' E) as Q. unfold text_place in Q. destruct e; exact Q.
  - exact (raw_err _ _ _ _ L E).
  - exact (raw_err _ _ _ _ L E).
  - refine (time_err _ _ _ _ _ _ _ L _ E). intros x. unfold w_supported. destruct (h_constructed _); congruence.
  - refine (time_err _ _ _ _ _ _ _ L _ E). intros x. unfold w_supported. destruct (h_constructed _); congruence.
  - destruct (boolean_err _ _ _ _ L E) as [-> [-> | ->]]; reflexivity.
  - exact (number_err _ _ _ _ _ L E).
  - exact (float_err _ _ _ _ _ L E).
  - exact (float_err _ _ _ _ _ L E).
Qed.

Lemma der_err {T} (f : sheader -> input -> sres (input * T)) h i a e : w_der f h i = SErr a e ->
  (a = i /\ e = EConstructUnexpected) \/ (h_constructed (sh_fields h) = false /\ f h i = SErr a e).
Proof.
  unfold w_der. destruct (w_primitive h i) eqn:P; cbn [sbind]; intros E; try discriminate.
  - right. split; [|exact E]. unfold w_primitive, assert_primitive in P. destruct (h_constructed _); [discriminate | reflexivity].
  - injection E as <- <-. left. exact (primitive_err _ _ _ _ P).
Qed.
Lemma simple_der_place {A} (t : simple A) h i a e : located whole i -> h_length (sh_fields h) = Definite (blen (in_data i)) ->
  simple_der t h i = SErr a e -> a = place t e i.
Proof.
  intros L H E. assert (H' : whole_contents h i) by (left; exact H).
  destruct t as [A b| | | |]; [destruct b|..]; cbn [simple_der] in *; unfold place; cbn [at_end].
  - unfold w_bool in E. destruct (w_boolean_der h i) as [[? ?]| | |] eqn:B; try discriminate. injection E as <- <-.
    destruct (boolean_der_err _ _ _ _ L H B) as [[-> [-> | ->]] | [-> ->]]; reflexivity.
  - exact (null_err _ _ _ _ E).
  - exact (number_err _ _ _ _ _ L E).
  - exact (number_err _ _ _ _ _ L E).
  - exact (number_err _ _ _ _ _ L E).
  - unfold w_integer_der in E. destruct (check_der_int_input (in_data i)); cbn [at_input sbind] in E; try congruence. exact (integer_err _ _ _ _ L (or_introl H) E).
  - destruct (der_err _ _ _ _ _ E) as [[-> ->]|[C F]]; [reflexivity|]. exact (simple_ber_place (SBase BOctets) h i a e L H' (fun _ => C) F).
  - destruct (der_err _ _ _ _ _ E) as [[-> ->]|[C F]]; [reflexivity|]. exact (simple_ber_place (SBase BSlice) h i a e L H' (fun _ => C) F).
  - destruct (der_err _ _ _ _ _ E) as [[-> ->]|[C F]]; [reflexivity|]. exact (simple_ber_place (SBase BBits) h i a e L H' (fun _ => C) F).
  - exact (oid_err _ _ _ _ L E).
  - destruct (der_err _ _ _ _ _ E) as [[-> ->]|[C F]]; [reflexivity|]. exact (simple_ber_place (SBase (BString k)) h i a e L H' (fun _ => C) F).
  - pose proof (str_der_err _ _ _ _ L E) as Q. unfold text_place in Q. destruct e; exact Q.
  - pose proof (str_der_err _ _ _ _ L E) as Q. unfold text_place in Q. destruct e; exact Q.
  - destruct (der_err _ _ _ _ _ E) as [[-> ->]|[C F]]; [reflexivity|]. exact (simple_ber_place (SBase BBmp) h i a e L H' (fun _ => C) F).
  - destruct (der_err _ _ _ _ _ E) as [[-> ->]|[C F]]; [reflexivity|]. exact (simple_ber_place (SBase BUniversal) h i a e L H' (fun _ => C) F).
  - exact (raw_err _ _ _ _ L E).
  - exact (raw_err _ _ _ _ L E).
  - refine (time_err _ _ _ _ _ _ _ L _ E). intros x P. exact (proj1 (primitive_err _ _ _ _ P)).
  - refine (time_err _ _ _ _ _ _ _ L _ E). intros x P. exact (proj1 (primitive_err _ _ _ _ P)).
  - destruct (boolean_der_err _ _ _ _ L H E) as [[-> [-> | ->]] | [-> ->]]; reflexivity.
  - exact (number_err _ _ _ _ _ L E).
  - exact (float_err _ _ _ _ _ L E).
  - exact (float_err _ _ _ _ _ L E).
Qed.
End place.

(** ** Headers *)

Lemma take_split_no_err i n a e : in_take_split i n <> SErr a e.
Proof.
  unfold in_take_split, in_take_from, in_take, usize_add. destruct (_ <? n); cbn; [discriminate|]. destruct (_ <? 2 ^ 64); cbn; discriminate.
Qed.
Lemma s_take_no_err i n a e : s_take n i <> SErr a e.
Proof. unfold s_take. destruct (_ <=? _); [apply take_split_no_err | discriminate]. Qed.
Lemma be_u8_no_err i a e : s_be_u8 i <> SErr a e.
Proof.
  unfold s_be_u8, in_take_from, usize_add. destruct (in_data i); [discriminate|]. destruct (_ <? 1); cbn; [discriminate|]. destruct (_ <? 2 ^ 64); cbn; discriminate.
Qed.
Lemma tag_loop_err i0 : forall fuel r c n a e, s_tag_loop fuel i0 r c n = SErr a e -> a = i0.
Proof.
  induction fuel as [|f IH]; intros r c n a e; cbn [s_tag_loop]; [congruence|]. destruct (s_be_u8 r) as [[r' b]| | |]; try congruence.
  destruct (5 <? n); [congruence|]. destruct (_ =? 0); [congruence|]. apply IH.
Qed.
Lemma length_err i0 k r a e : s_parse_length i0 k r = SErr a e -> a = i0.
Proof.
  unfold s_parse_length. destruct (s_be_u8 r) as [[r' b]|a' e'| |] eqn:B; cbn [sbind]; intros E; try discriminate; [|destruct (be_u8_no_err _ _ _ B)].
  destruct (b =? 0x80); [destruct k; congruence|]. destruct (_ =? 0); [congruence|]. destruct (b =? 0xff); [congruence|].
  destruct (s_take _ r') as [[? ?]|a' e'| |] eqn:T; cbn [sbind] in E; try discriminate; [|destruct (s_take_no_err _ _ _ _ T)].
  destruct (bytes_to_u64 _); congruence.
Qed.
Lemma in_take_no_err i n a e : in_take i n <> SErr a e.
Proof. unfold in_take, usize_add. destruct (_ <? n); cbn; [discriminate|]. destruct (_ <? 2 ^ 64); cbn; discriminate. Qed.
Lemma header_err i a e : s_parse_header i = SErr a e -> a = i.
Proof.
  unfold s_parse_header. destruct (s_be_u8 i) as [[r b]|a' e'| |] eqn:B; cbn [sbind]; intros E; try discriminate; [|destruct (be_u8_no_err _ _ _ B)].
  destruct (class_try_from _); [|discriminate].
  destruct (if N.land b 0x1f =? 0x1f then s_tag_loop 7 i r 0 1 else SOk (r, N.land b 0x1f, 1)) as [[[r1 g] n]|a' e'| |] eqn:T; cbn [sbind] in E; try discriminate.
  - destruct (_ <? n); [discriminate|]. destruct (s_parse_length _ _ _) as [[r2 l]|a' e'| |] eqn:Q; cbn [sbind] in E; try discriminate.
    + unfold usize_sub in E. destruct (_ <=? _); cbn [sbind] in E; [|discriminate]. destruct (in_take i _) eqn:Z; cbn [sbind] in E; try discriminate.
      destruct (in_take_no_err _ _ _ _ Z).
    + injection E as <- _. exact (length_err _ _ _ _ _ Q).
  - injection E as <- _. destruct (_ =? 0x1f); [exact (tag_loop_err _ _ _ _ _ _ _ T) | discriminate].
Qed.
Lemma header_der_err i a e : s_parse_header_der i = SErr a e -> a = i.
Proof.
  unfold s_parse_header_der. destruct (s_parse_header i) as [[r h]|a' e'| |] eqn:H; cbn [sbind]; intros E; try discriminate.
  - destruct (is_definite _); congruence.
  - injection E as <- _. exact (header_err _ _ _ H).
Qed.
Lemma indefinite_constructed i r h : s_parse_header i = SOk (r, h) -> h_length (sh_fields h) = Indefinite -> h_constructed (sh_fields h) = true.
Proof.
  unfold s_parse_header. destruct (s_be_u8 i) as [[r0 b]|a' e'| |]; cbn [sbind]; intros E I; try discriminate. destruct (class_try_from _); [|discriminate].
  destruct (if N.land b 0x1f =? 0x1f then s_tag_loop 7 i r0 0 1 else SOk (r0, N.land b 0x1f, 1)) as [[[r1 g] n]|a' e'| |]; cbn [sbind] in E; try discriminate.
  destruct (_ <? n); [discriminate|]. set (k := negb _) in *. clearbody k. destruct (s_parse_length i k r1) as [[r2 l]|a' e'| |] eqn:Q; cbn [sbind] in E; try discriminate.
  destruct (usize_sub _ _); cbn [sbind] in E; try discriminate. destruct (in_take i _); cbn [sbind] in E; try discriminate. injection E as _ <-. cbn in *. subst l. unfold s_parse_length in Q. destruct (s_be_u8 r1) as [[r' b']| | |]; cbn [sbind] in Q; try discriminate.
  destruct (b' =? 0x80); [destruct k; [reflexivity | discriminate]|]. destruct (N.land b' 0x80 =? 0); [discriminate|]. destruct (b' =? 0xff); [discriminate|].
  destruct (s_take _ r') as [[? ?]| | |]; cbn [sbind] in Q; try discriminate. destruct (bytes_to_u64 _); discriminate.
Qed.

(** ** C108 *)

(** DER: what is computed is what the model without locations computes.  An error of the contents is at the contents, or
    at their end in the cases of [at_end]; every other error is where the object was to begin. *)
Theorem C108_der {A} (t : simple A) (whole : bytes) (i : input) : blen whole < 2 ^ 64 -> located whole i ->
  forget (dataV (fun x => x)) (s_parse_der (simple_parser t) i) = ps_parse_der (codec_parser (simple_codec t)) (in_data i)
  /\ forall at_ e, s_parse_der (simple_parser t) i = SErr at_ e ->
     located whole at_
     /\ (forall rem h data, s_parse_der_any i = SOk (rem, mk_sany h data) -> accept_tag (simple_codec t) (h_tag (sh_fields h)) = true ->
         object_layout whole i h data rem /\ at_ = place t e data)
     /\ ((forall rem h data, s_parse_der_any i = SOk (rem, mk_sany h data) -> accept_tag (simple_codec t) (h_tag (sh_fields h)) = false) -> at_ = i).
Proof.
  intros W L. pose proof (parse_der_sim _ _ _ _ (simple_tracks t) whole W i L) as S. split; [exact (sim_forget _ _ _ _ _ S)|].
  intros at_ e E. split; [exact (sim_error _ _ _ _ _ _ _ S E)|]. clear S.
  pose proof (parse_der_any_sim whole i W L) as SA. pose proof (parse_header_der_sim whole i W L) as SH.
  unfold s_parse_der, s_parse_der_any in *. cbn [sp_accept sp_der simple_parser] in E.
  destruct (s_parse_header_der i) as [[r h]|a' e'| |] eqn:HD; cbn [sbind] in *; try discriminate.
  2:{ injection E as <- _. split; [discriminate|]. intros _. exact (header_der_err _ _ _ HD). }
  assert (R : located whole r).
  { destruct (sim_ok _ _ _ _ _ _ SH eq_refl) as [_ Q]. apply Q. }
  destruct (h_length (sh_fields h)) as [l|] eqn:HL.
  2:{ cbn in *. injection E as <- _. split; [discriminate | reflexivity]. }
  cbn [length_assert_definite at_input sbind] in *. unfold s_der_get_content in *. rewrite HL in *.
  pose proof (take_sim whole r l W R) as ST.
  destruct (s_take l r) as [[r2 d]|a' e'| |] eqn:T; cbn [sbind] in *.
  - destruct (accept_tag (simple_codec t) (h_tag (sh_fields h))) eqn:AC.
    + assert (D : located whole d /\ blen (in_data d) = l).
      { destruct (sim_ok _ _ _ _ _ _ ST eq_refl) as [_ (_ & D & _)]. split; [exact D|].
        unfold s_take in T. destruct (N.leb_spec l (blen (in_data r))); [|discriminate].
        destruct (located_take whole r l W R H) as (z & Z & ZD & _). unfold in_take_split in T. destruct (in_take_from r l); cbn [sbind] in T; try discriminate.
        rewrite Z in T. cbn in T. injection T as _ <-. rewrite ZD. unfold blen in *. rewrite firstn_length. lia. }
      destruct D as [D DL]. split.
      * intros rem h' data Q AC'. injection Q as <- <- <-. split.
        { destruct (sim_ok _ _ _ _ _ _ SA eq_refl) as [_ Q]. apply Q. }
        destruct (simple_der t h d) as [[? ?]|a' e'| |] eqn:C; cbn [sbind] in E; try discriminate. injection E as <- <-.
        refine (simple_der_place whole W t h d _ _ D _ C). rewrite DL. exact HL.
      * intros N. specialize (N _ _ _ eq_refl). congruence.
    + injection E as <- _. split; [intros rem h' data Q; injection Q as <- <- <-; congruence | reflexivity].
  - destruct (s_take_no_err _ _ _ _ T).
  - split; [discriminate|]. intros _. destruct (accept_tag _ _); [discriminate | congruence].
  - split; [discriminate|]. intros _. destruct (accept_tag _ _); [discriminate | congruence].
Qed.
Print Assumptions C108_der.

Lemma take_length whole r l rem d : small whole -> located whole r -> s_take l r = SOk (rem, d) -> blen (in_data d) = l /\ in_start rem = in_start r + l.
Proof.
  intros W R T. unfold s_take in T. destruct (N.leb_spec l (blen (in_data r))); [|discriminate].
  destruct (located_take whole r l W R H) as (z & Z & ZD & _). destruct (located_take_from whole r l W R H) as (y & Y & YD & YS & _).
  unfold in_take_split in T. rewrite Y in T. cbn [sbind] in T. rewrite Z in T. cbn in T. injection T as <- <-. split; [|exact YS]. rewrite ZD. unfold blen in *. rewrite firstn_length. lia.
Qed.
Lemma object_length whole h r k rem d l : small whole -> located whole r -> h_length (sh_fields h) = Definite l ->
  s_ber_object_content h r (S k) = SOk (rem, d) -> blen (in_data d) = l.
Proof.
  intros W R H. unfold s_ber_object_content. cbn [s_skip_content]. rewrite H. cbn [is_definite].
  assert (X : forall x, in_start x = in_start r + l -> (let+ len := usize_sub (in_start x) (in_start r) in in_take_split r len) = SOk (rem, d) -> l <= blen (in_data r) -> blen (in_data d) = l).
  { intros x Q E Y. unfold usize_sub in E. destruct (_ <=? _); cbn [sbind] in E; [|discriminate]. replace (in_start x - in_start r) with l in E by lia.
    refine (proj1 (take_length whole r l rem d W R _)). unfold s_take. apply N.leb_le in Y. rewrite Y. exact E. }
  destruct ((l =? 0) && _) eqn:Z; cbn [sbind].
  - apply andb_true_iff in Z. destruct Z as [Z _]. apply N.eqb_eq in Z. intros E. apply (X r); [lia | exact E | lia].
  - destruct (s_take l r) as [[x y]| | |] eqn:T; cbn [sbind]; intros E; try discriminate. destruct (take_length whole r l x y W R T) as [_ Q]. apply (X x Q E).
    unfold s_take in T. destruct (N.leb_spec l (blen (in_data r))); [assumption | discriminate].
Qed.

(** The part of [whole] up to the end of [data]. *)
Lemma cut_located whole data i : located whole data -> located whole i -> in_end i <= in_end data -> located (firstn (N.to_nat (in_end data)) whole) i.
Proof.
  intros D (pre & post & E & S & F) H. pose proof (located_end _ _ D) as [_ B].
  exists pre, (firstn (N.to_nat (in_end data) - length (pre ++ in_data i)) post). split; [|split; assumption].
  rewrite E, app_assoc, firstn_app, firstn_all2, <- app_assoc; [reflexivity|]. rewrite app_length. unfold blen in *. lia.
Qed.

(** ** Nothing points before the contents *)

(** Errors are at [n] or later, and a result satisfies [P]. *)
Definition since {X} (n : N) (P : X -> Prop) (r : sres X) : Prop :=
  match r with SOk x => P x | SErr a _ => n <= in_start a | _ => True end.
(** A result whose rest, and whose contents, begin at [n] or later. *)
Definition rest_since {X} (n : N) (q : input * X) : Prop := n <= in_start (fst q).
Definition both_since (n : N) (q : input * input) : Prop := n <= in_start (fst q) /\ n <= in_start (snd q).

Lemma since_bind {X Y} n (P : X -> Prop) (Q : Y -> Prop) r f : since n P r -> (forall x, P x -> since n Q (f x)) -> since n Q (sbind r f).
Proof. intros R F. destruct r; cbn in *; auto. Qed.
Lemma since_weaken {X} n m (P Q : X -> Prop) r : since m P r -> n <= m -> (forall x, P x -> Q x) -> since n Q r.
Proof. intros R L F. destruct r; cbn in *; auto. lia. Qed.
Lemma since_at {X} n i (r : res X) : n <= in_start i -> since n (fun _ => True) (at_input i r).
Proof. intros L. destruct r; cbn; auto. Qed.
Lemma split_since n i k : n <= in_start i -> since n (both_since n) (in_take_split i k).
Proof.
  intros L. unfold in_take_split, in_take_from, in_take, usize_add. destruct (_ <? k); cbn [sbind]; [exact I|].
  destruct (_ <? 2 ^ 64); cbn; [|exact I]. split; cbn [fst snd in_start]; lia.
Qed.
Lemma take_since n i k : n <= in_start i -> since n (both_since n) (s_take k i).
Proof. intros L. unfold s_take. destruct (_ <=? _); [apply split_since; exact L | exact I]. Qed.
Lemma header_since n i : n <= in_start i -> since n (rest_since n) (s_parse_header i).
Proof.
  intros L. destruct (s_parse_header i) as [[r h]|a e| |] eqn:H; cbn; auto; [|rewrite (header_err _ _ _ H); exact L].
  unfold rest_since. cbn [fst]. revert H. unfold s_parse_header. destruct (s_be_u8 i) as [[r0 b]| | |]; cbn [sbind]; try discriminate.
  destruct (class_try_from _); [|discriminate].
  destruct (if N.land b 0x1f =? 0x1f then s_tag_loop 7 i r0 0 1 else SOk (r0, N.land b 0x1f, 1)) as [[[r1 g] k]| | |]; cbn [sbind]; try discriminate.
  destruct (_ <? k); [discriminate|]. destruct (s_parse_length _ _ _) as [[r2 l]| | |]; cbn [sbind]; try discriminate.
  unfold usize_sub. destruct (N.leb_spec (in_start i) (in_start r2)); cbn [sbind]; [|discriminate].
  destruct (in_take i _); cbn [sbind]; intros E; try discriminate. injection E as <- _. lia.
Qed.
Lemma checked_since {X} n c i (P : input * X -> Prop) r : since n P r -> since n P (checked c i r).
Proof. unfold checked. destruct r as [[? ?]| | |]; auto. destruct (_ && _); cbn; auto. Qed.
Lemma t_header_since c n i : n <= in_start i -> since n (rest_since n) (snd (t_header c i)).
Proof. intros L. unfold t_header. rewrite trace_result. apply checked_since. apply header_since. exact L. Qed.
Lemma skip_loop_since c n skip : (forall h i, n <= in_start i -> since n (rest_since n) (snd (skip h i))) ->
  forall fuel i, n <= in_start i -> since n (rest_since n) (snd (t_skip_loop c skip fuel i)).
Proof.
  intros S. induction fuel as [|f IH]; intros i L; cbn [t_skip_loop]; [exact L|]. rewrite snd_bind.
  apply (since_bind _ _ _ _ _ (t_header_since c n i L)). intros [r h] R. rewrite snd_bind. apply (since_bind _ _ _ _ _ (S h r R)).
  intros [r2 eoc] R2. destruct eoc; [exact R2 | apply IH; exact R2].
Qed.
Lemma skip_since c n : forall d h i, n <= in_start i -> since n (rest_since n) (snd (t_skip_content c d h i)).
Proof.
  induction d as [|d IH]; intros h i L; cbn [t_skip_content]; [exact L|]. destruct (h_length (sh_fields h)) as [l|].
  - destruct (_ && _); [exact L|]. rewrite snd_bind. apply (since_bind _ _ _ _ _ (take_since n i l L)). intros [r x] [R _]. exact R.
  - rewrite snd_bind. apply (since_bind _ _ _ _ _ (since_at n i _ L)). intros _ _. apply skip_loop_since; [exact IH | exact L].
Qed.
Lemma content_since c n h i d : n <= in_start i -> since n (both_since n) (snd (t_ber_object_content c h i d)).
Proof.
  intros L. unfold t_ber_object_content. rewrite snd_bind. apply (since_bind _ _ _ _ _ (skip_since c n d h i L)). intros [r x] R. cbn [silent snd].
  unfold usize_sub. destruct (_ <=? _); cbn [sbind]; [|exact I]. destruct (is_definite _); [apply split_since; exact L|]. destruct (_ <? 2); [exact I|].
  unfold in_take, usize_add. destruct (_ <? _); cbn [sbind]; [exact I|]. destruct (_ <? 2 ^ 64); cbn; [|exact I]. split; [exact R | exact L].
Qed.
Lemma any_since c n i : n <= in_start i ->
  since n (fun q => n <= in_start (fst q) /\ n <= in_start (sa_data (snd q))) (snd (t_parse_ber c (quiet s_any_parser) i)).
Proof.
  intros L. unfold t_parse_ber. rewrite trace_result. apply checked_since. rewrite snd_bind. apply (since_bind _ _ _ _ _ (t_header_since c n i L)).
  intros [r h] R. cbn [tp_accept quiet sp_accept s_any_parser]. rewrite snd_bind. apply (since_bind _ _ _ _ _ (content_since c n h r _ R)).
  intros [r2 d] [R2 D]. rewrite snd_bind, trace_result. cbn [fst snd] in R2, D.
  apply (since_bind _ (fun q : input * sany => n <= in_start (sa_data (snd q)))); [|intros [r3 a] A; split; [exact R2 | exact A]].
  apply checked_since. cbn [tp_ber quiet s_any_parser sp_ber silent snd]. unfold s_any_ber_content.
  apply (since_bind _ (both_since n)); [destruct (h_length (sh_fields h)); apply take_since; exact D|]. intros [r3 x] [_ X]. exact X.
Qed.
Lemma close_since {X} n i (P : X -> Prop) r : n <= in_start i -> since n P r -> since n P (s_close i r).
Proof. destruct r; cbn; auto. Qed.
Lemma loop_since {T} c (g : segments T) n seg : (forall h i, n <= in_start i -> since n (rest_since n) (snd (seg h i))) ->
  forall fuel i v, n <= in_start i -> since n (fun _ => True) (snd (k_seg_loop c g seg fuel i v)).
Proof.
  intros S. induction fuel as [|f IH]; intros i v L; cbn [k_seg_loop]; [exact L|]. destruct (_ =? 0); [exact I|]. rewrite snd_bind. cbn [snd].
  apply (since_bind _ _ _ _ _ (close_since n i _ _ L (any_since c n i L))). intros [r obj] [R A]. cbv zeta. destruct (_ =? TagEndOfContent); [exact I|].
  destruct (negb _); [exact A|]. destruct (_ =? 0); [apply IH; exact R|]. rewrite snd_bind. apply (since_bind _ _ _ _ _ (S _ _ A)).
  intros [r2 part] _. apply IH. exact R.
Qed.
Lemma segmented_since {T} c (g : segments T) n : forall limit h i, n <= in_start i -> since n (rest_since n) (snd (k_segmented c g limit h i)).
Proof.
  induction limit as [|l IH]; intros h i L; cbn [k_segmented]; [exact L|]. destruct (_ =? 0); [exact L|]. destruct (h_constructed _).
  - rewrite snd_bind. apply (since_bind _ (both_since n)).
    + destruct (is_definite _); [apply content_since; exact L | apply split_since; exact L].
    + intros [r d] [R D]. rewrite snd_bind. apply (since_bind _ _ _ _ _ (loop_since c g n _ IH _ d _ D)). intros v _. exact R.
  - rewrite snd_bind. apply (since_bind _ _ _ _ _ (content_since c n h i _ L)). intros [r d] [R D]. rewrite snd_bind. cbn [silent snd].
    apply (since_bind _ (fun _ => True)); [|intros [r2 t] _; exact R]. unfold s_plain_content.
    apply (since_bind _ _ _ _ _ (since_at n d _ D)). intros [r2 t] _. exact I.
Qed.
Lemma text_since {T} n (read : T -> res (list N)) r : since n (rest_since n) r -> since n (fun _ => True) (w_text read r).
Proof. intros R. unfold w_text. apply (since_bind _ _ _ _ _ R). intros [rem d] Q. apply (since_bind _ _ _ _ _ (since_at n rem _ Q)). intros s _. exact I. Qed.
Lemma strings_since {A} (t : simple A) h i : segmented t = true -> h_constructed (sh_fields h) = true ->
  since (in_start i) (fun _ => True) (simple_ber t h i).
Proof.
  intros G C. pose proof (N.le_refl (in_start i)) as L.
  assert (O : since (in_start i) (rest_since (in_start i)) (w_octets h i)) by (unfold w_octets; rewrite C; apply segmented_since; exact L).
  destruct t as [? b| | | |]; try discriminate. destruct b; try discriminate; cbn [simple_ber].
  - exact (since_weaken _ _ _ _ _ O L (fun _ _ => I)).
  - unfold w_bits. rewrite C. exact (since_weaken _ _ _ _ _ (segmented_since _ _ _ _ h i L) L (fun _ _ => I)).
  - exact (text_since _ _ _ O).
  - exact (text_since _ _ _ O).
Qed.
Lemma place_since {A} (t : simple A) whole e data : located whole data -> in_start data <= in_start (place t e data).
Proof. intros D. pose proof (located_end _ _ D) as [E _]. unfold place. destruct (at_end t e); cbn [end_of in_start]; lia. Qed.

(** BER: the same, but for the constructed strings which are read by segments: there the error is within the contents.  An
    error met while looking for the end of the contents is where [Any] has it. *)
Theorem C108_ber {A} (t : simple A) (whole : bytes) (i : input) : blen whole < 2 ^ 64 -> located whole i ->
  forget (dataV (fun x => x)) (s_parse_ber (simple_parser t) i) = ps_parse_ber (codec_parser (simple_codec t)) (in_data i)
  /\ forall at_ e, s_parse_ber (simple_parser t) i = SErr at_ e ->
     located whole at_
     /\ (forall rem h data, s_parse_ber_any i = SOk (rem, mk_sany h data) -> accept_tag (simple_codec t) (h_tag (sh_fields h)) = true ->
         object_layout whole i h data rem /\ in_start data <= in_start at_ /\ in_end at_ <= in_end data
         /\ (segmented t = false \/ h_constructed (sh_fields h) = false -> at_ = place t e data))
     /\ (forall r h, s_parse_header i = SOk (r, h) -> accept_tag (simple_codec t) (h_tag (sh_fields h)) = true ->
         forall a e', s_parse_ber_any i = SErr a e' -> at_ = a /\ e = e')
     /\ (forall r h, s_parse_header i = SOk (r, h) -> accept_tag (simple_codec t) (h_tag (sh_fields h)) = false -> at_ = i)
     /\ ((forall r h, s_parse_header i <> SOk (r, h)) -> at_ = i).
Proof.
  intros W L. pose proof (parse_ber_sim _ _ _ _ (simple_tracks t) whole W i L) as S. split; [exact (sim_forget _ _ _ _ _ S)|].
  intros at_ e E. split; [exact (sim_error _ _ _ _ _ _ _ S E)|]. clear S.
  pose proof (parse_ber_any_sim whole i W L) as SA. pose proof (parse_header_sim whole i W L) as SH.
  unfold s_parse_ber, s_parse_ber_any in *. cbn [sp_accept sp_ber simple_parser] in E.
  destruct (s_parse_header i) as [[r h]|a' e'| |] eqn:HD; cbn [sbind] in *; try discriminate.
  2:{ injection E as <- _. split; [discriminate|]. split; [discriminate|]. split; [discriminate|]. intros _. exact (header_err _ _ _ HD). }
  destruct (sim_ok _ _ _ _ _ _ SH eq_refl) as [_ [_ (R & _)]]. cbn [fst snd] in R.
  split; [|split; [|split]].
  - intros rem h' data Q AC. destruct (s_ber_object_content h r MAX_RECURSION) as [[r2 d]|a' e'| |] eqn:T; cbn [sbind] in *; try discriminate.
    injection Q as -> -> ->. rewrite AC in E. destruct (sim_ok _ _ _ _ _ _ SA eq_refl) as [_ OL].
    assert (OL' : object_layout whole i h' data rem) by apply OL. clear OL SA. split; [exact OL'|].
    destruct OL' as (raw & RA & RB & RL & RS & RD & D & _).
    destruct (simple_ber t h' data) as [[? ?]|a' e'| |] eqn:C; cbn [sbind] in E; try discriminate. injection E as -> ->.
    assert (WC : whole_contents h' data).
    { unfold whole_contents. destruct (h_length (sh_fields h')) as [l|] eqn:HL.
      - left. f_equal. symmetry. exact (object_length whole h' r 49 rem data l W R HL T).
      - right. split; [reflexivity|]. exact (indefinite_constructed _ _ _ HD HL). }
    assert (PL : segmented t = false \/ h_constructed (sh_fields h') = false -> at_ = place t e data).
    { intros SG. refine (simple_ber_place whole W t h' data _ _ D WC _ C). intros Z. destruct SG as [SG|SG]; [congruence | exact SG]. }
    split; [|split; [|exact PL]].
    + destruct (segmented t) eqn:SG; [|rewrite (PL (or_introl eq_refl)); apply (place_since t whole); exact D].
      destruct (h_constructed (sh_fields h')) eqn:HC; [|rewrite (PL (or_intror eq_refl)); apply (place_since t whole); exact D].
      pose proof (strings_since t h' data SG HC) as Q. rewrite C in Q. exact Q.
    + pose proof (located_end _ _ D) as [DE DB]. set (w := firstn (N.to_nat (in_end data)) whole).
      assert (WB : blen w <= in_end data) by (unfold w, blen; rewrite firstn_length; lia).
      assert (WS : small w) by (unfold small in *; lia).
      assert (DW : located w data) by (apply cut_located; [exact D | exact D | lia]).
      assert (HW : header_located w h').
      { intros x Hx. rewrite RA in Hx. injection Hx as <-. apply cut_located; [exact D | exact RL |]. unfold adjacent in RD. lia. }
      destruct (simple_agrees w WS t h' data HW DW) as [AG _]. unfold agrees in AG. rewrite C in AG. cbn [value sbind] in AG.
      pose proof (sim_error w _ _ _ _ _ _ AG eq_refl) as Q. pose proof (located_end _ _ Q). lia.
  - intros r' h' Q AC a e' F. injection Q as <- <-. rewrite AC in E.
    destruct (s_ber_object_content h r MAX_RECURSION) as [[r2 d]|a0 e0| |]; cbn [sbind] in *; try discriminate. injection E as <- <-. injection F as <- <-. auto.
  - intros r' h' Q AC. injection Q as <- <-. rewrite AC in E. congruence.
  - intros N. destruct (N r h eq_refl).
Qed.
Print Assumptions C108_ber.

(** The error of a DER BOOLEAN of octet 5, and of a UTF8String of an octet 0xff, is at the empty input behind the contents:
    the location does not tell which octets were refused. *)
Theorem C108_refuted :
  exists (w1 w2 : bytes) (e1 e2 : input) (d1 d2 : input),
    located w1 d1 /\ located w2 d2 /\ in_data d1 <> [] /\ in_data d2 <> []
    /\ (exists r h, s_parse_der_any (from_slice w1) = SOk (r, mk_sany h d1))
    /\ s_parse_der (simple_parser (SBase BBool)) (from_slice w1) = SErr e1 (EDerConstraintFailed DCInvalidBoolean)
    /\ (exists r h, s_parse_der_any (from_slice w2) = SOk (r, mk_sany h d2))
    /\ s_parse_ber (simple_parser (SBase (BString Utf8))) (from_slice w2) = SErr e2 EStringInvalidCharset
    /\ in_data e1 = [] /\ e1 <> d1 /\ in_data e2 = [] /\ e2 <> d2.
Proof.
  exists [1; 1; 5], [12; 2; 0xff; 65], (mk_input [] 3 3), (mk_input [] 4 4), (mk_input [5] 2 3), (mk_input [0xff; 65] 2 4).
  split; [exists [1; 1], []; repeat split|]. split; [exists [12; 2], []; repeat split|]. split; [discriminate|]. split; [discriminate|].
  split; [eexists; eexists; vm_compute; reflexivity|]. split; [vm_compute; reflexivity|].
  split; [eexists; eexists; vm_compute; reflexivity|]. split; [vm_compute; reflexivity|].
  split; [reflexivity|]. split; [discriminate|]. split; [reflexivity | discriminate].
Qed.
Print Assumptions C108_refuted.

(** Objects within a longer input.  A DER INTEGER of two octets where one would do: the error is at these octets (from 4 to
    6).  A constructed OCTET STRING with an INTEGER among its segments: the error is at the contents of that INTEGER. *)
Example C108_case :
  let w := [9; 9; 2; 2; 0; 1; 7] in let i := mk_input [2; 2; 0; 1; 7] 2 7 in
  let v := [9; 0x24; 7; 4; 2; 1; 2; 2; 1; 7] in let j := mk_input [0x24; 7; 4; 2; 1; 2; 2; 1; 7] 1 10 in
  located w i /\ located v j /\ blen w < 2 ^ 64 /\ blen v < 2 ^ 64
  /\ s_parse_der (simple_parser (SBase (BInt 4))) i = SErr (mk_input [0; 1] 4 6) (EDerConstraintFailed DCIntegerLeadingZeroes)
  /\ s_parse_der (simple_parser (SBase BUtcTime)) i = SErr i EUnexpectedTag
  /\ s_parse_ber (simple_parser (SBase BOctets)) j = SErr (mk_input [7] 9 10) EInvalidTag.
Proof.
  cbv zeta. split; [exists [9; 9], []; repeat split|]. split; [exists [9], []; repeat split|]. split; [reflexivity|]. split; [reflexivity|].
  split; [vm_compute; reflexivity|]. split; vm_compute; reflexivity.
Qed.
