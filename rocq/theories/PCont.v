(** Containers: what their parsers and writers do with the encodings of SCont.v. *)
From Verif Require Import Base MHeader MEncode SHeader PArith PHeader PEncode MBer SBer PBer PIter MInt PCodec
  MCont SCont.

Lemma ident_shortest_unique c k t a b : ident_shortest c k t a -> ident_shortest c k t b -> a = b.
Proof.
  intros Ha Hb. destruct (ident_shortest_min _ _ _ _ _ Ha (ident_shortest_octets _ _ _ _ Hb)) as [H1 H2].
  destruct (ident_shortest_min _ _ _ _ _ Hb (ident_shortest_octets _ _ _ _ Ha)) as [H3 _]. apply H2. lia.
Qed.

Lemma length_shortest_unique l a b : length_shortest l a -> length_shortest l b -> a = b.
Proof.
  intros Ha Hb. destruct (length_shortest_min _ _ _ Ha (length_shortest_octets _ _ Hb)) as [H1 H2].
  destruct (length_shortest_min _ _ _ Hb (length_shortest_octets _ _ Ha)) as [H3 _]. apply H2. lia.
Qed.

Lemma blen_zero {A} (l : list A) : blen l = 0 -> l = [].
Proof. destruct l; [reflexivity|]. rewrite blen_cons. lia. Qed.

(** ** Encodings *)

Definition syntax_ok {T} (S : syntax T) : Prop :=
  forall v cb c k t, sx_ident S v = (c, k, t) -> sx_content S v cb -> t < 2 ^ 32 /\ bytes_ok cb.

(** An object with the shortest header. *)
Definition object (c : class) (k : bool) (t : N) (cb enc : bytes) : Prop :=
  exists idb lenb,
    readable_header c k t (Definite (blen cb)) idb lenb
    /\ ident_shortest c k t idb /\ length_shortest (Definite (blen cb)) lenb /\ enc = idb ++ lenb ++ cb.

Lemma object_intro c k t cb idb lenb :
  t < 2 ^ 32 -> blen cb < 2 ^ 64 -> ident_shortest c k t idb -> length_shortest (Definite (blen cb)) lenb ->
  object c k t cb (idb ++ lenb ++ cb).
Proof.
  intros Ht Hn S1 S2. exists idb, lenb. split; [|auto]. apply readable_written; try assumption.
  destruct (write_tag_generic_ok c k t Ht) as (idb' & _ & S & L).
  rewrite (ident_shortest_unique _ _ _ _ _ S1 S). exact L.
Qed.

Lemma object_size c k t cb enc : object c k t cb enc -> blen cb + 2 <= blen enc.
Proof.
  intros (idb & lenb & [(H1 & H2 & _) _] & _ & _ & ->). apply ident_octets_len in H1. apply length_octets_len in H2.
  rewrite !blen_app. lia.
Qed.

Lemma object_ok c k t cb enc : object c k t cb enc -> bytes_ok cb -> bytes_ok enc.
Proof.
  intros (idb & lenb & H & _ & _ & ->) Hcb. apply readable_ok in H.
  rewrite app_assoc. apply bytes_ok_app. split; assumption.
Qed.

Lemma object_exists c k t cb : t < 2 ^ 32 -> blen cb < 2 ^ 64 -> exists enc, object c k t cb enc.
Proof.
  intros Ht Hn. destruct (write_tag_generic_ok c k t Ht) as (idb & _ & S & _).
  destruct (write_length_ok (Definite (blen cb))) as (lenb & _ & Sl).
  { intros n E. injection E as <-. exact Hn. }
  exists (idb ++ lenb ++ cb). apply object_intro; assumption.
Qed.

Lemma encodes_object {T} (S : syntax T) v enc :
  syntax_ok S -> encodes S v enc -> blen enc < 2 ^ 64 ->
  exists c k t cb, sx_ident S v = (c, k, t) /\ sx_content S v cb /\ t < 2 ^ 32 /\ bytes_ok cb
    /\ object c k t cb enc.
Proof.
  intros Hs (c & k & t & cb & idb & lenb & E1 & E2 & S1 & S2 & ->) Hn.
  destruct (Hs _ _ _ _ _ E1 E2) as [Ht Hcb]. exists c, k, t, cb. repeat split; try assumption.
  rewrite !blen_app in Hn. apply object_intro; try assumption. lia.
Qed.

Lemma encodes_intro {T} (S : syntax T) v c k t cb enc :
  sx_ident S v = (c, k, t) -> sx_content S v cb -> object c k t cb enc -> encodes S v enc.
Proof.
  intros E1 E2 (idb & lenb & _ & S1 & S2 & ->). exists c, k, t, cb, idb, lenb. auto.
Qed.

Lemma encodes_ok {T} (S : syntax T) v enc : syntax_ok S -> encodes S v enc -> bytes_ok enc.
Proof.
  intros Hs (c & k & t & cb & idb & lenb & E1 & E2 & S1 & S2 & ->).
  destruct (Hs _ _ _ _ _ E1 E2) as [Ht Hcb]. rewrite !bytes_ok_app. split; [|split].
  - eapply ident_octets_ok, ident_shortest_octets, S1.
  - eapply length_octets_ok, length_shortest_octets, S2.
  - exact Hcb.
Qed.

(** ** Reading objects *)

Lemma object_parse_ber_any c k t cb enc x :
  object c k t cb enc -> t < 2 ^ 32 -> bytes_ok cb -> bytes_ok x ->
  exists rt rh, parse_ber_any (enc ++ x) = Ok (x, mk_any (mk_header c k t (Definite (blen cb)) rt rh) cb).
Proof.
  intros O Ht Hcb Hx. pose proof (object_ok _ _ _ _ _ O Hcb) as Henc.
  destruct O as (idb & lenb & HR & S1 & S2 & ->). exists (Some idb), (Some (idb ++ lenb)).
  apply parse_ber_any_ok; [apply bytes_ok_app; auto|].
  exists c, k, t, (Definite (blen cb)), idb, lenb, cb. rewrite <- !app_assoc.
  split; [exact HR|]. split; [reflexivity|]. split; [constructor; reflexivity|].
  rewrite N.mod_small by exact Ht. reflexivity.
Qed.

Lemma object_parse_der_any c k t cb enc x :
  object c k t cb enc -> t < 2 ^ 32 -> bytes_ok cb -> bytes_ok x ->
  exists rt rh, parse_der_any (enc ++ x) = Ok (x, mk_any (mk_header c k t (Definite (blen cb)) rt rh) cb).
Proof.
  intros O Ht Hcb Hx. pose proof (object_ok _ _ _ _ _ O Hcb) as Henc.
  destruct O as (idb & lenb & HR & S1 & S2 & ->). exists (Some idb), (Some (idb ++ lenb)).
  apply parse_der_any_ok; [apply bytes_ok_app; auto|].
  exists c, k, t, (blen cb), idb, lenb, cb. rewrite <- !app_assoc.
  split; [exact HR|]. split; [reflexivity|]. split; [reflexivity|].
  rewrite N.mod_small by exact Ht. reflexivity.
Qed.

Lemma object_from_der_any c k t cb enc x :
  object c k t cb enc -> t < 2 ^ 32 -> bytes_ok cb -> bytes_ok x ->
  exists rt rh, from_der any_codec (enc ++ x) = Ok (x, mk_any (mk_header c k t (Definite (blen cb)) rt rh) cb).
Proof.
  intros O Ht Hcb Hx. destruct (object_parse_der_any _ _ _ _ _ x O Ht Hcb Hx) as (rt & rh & E).
  exists rt, rh. unfold from_der. rewrite E. reflexivity.
Qed.

(** ** Parsers *)

Definition codec_of {T} (P : parser T) : codec T :=
  mk_codec (ps_accept P) (ps_ber_content P) (ps_der_content P) (fun _ => Err EUnsupported) (fun _ => Ok tt).

(** [parse_ber] and [parse_der] are the default methods. *)
Definition regular {T} (P : parser T) : Prop :=
  (forall i, ps_parse_ber P i = parse_ber (codec_of P) i) /\ (forall i, ps_parse_der P i = parse_der (codec_of P) i).

Lemma codec_regular {T} (p : codec T) : regular (codec_parser p).
Proof. split; reflexivity. Qed.

Lemma default_regular {T} accept (ber der : header -> bytes -> res (bytes * T)) :
  regular (default_parser accept ber der).
Proof. split; reflexivity. Qed.

Definition parser_sound {T} (P : parser T) (S : syntax T) : Prop :=
  regular P /\
  forall v cb c k t, sx_ident S v = (c, k, t) -> sx_content S v cb -> blen cb < 2 ^ 24 ->
    ps_accept P t = true /\
    forall rt rh, let h := mk_header c k t (Definite (blen cb)) rt rh in
      (exists r, ps_ber_content P h cb = Ok (r, v)) /\ (exists r, ps_der_content P h cb = Ok (r, v)).

Lemma parser_reads {T} (P : parser T) (S : syntax T) v enc x :
  parser_sound P S -> syntax_ok S -> encodes S v enc -> blen enc < 2 ^ 24 -> bytes_ok x ->
  ps_parse_ber P (enc ++ x) = Ok (x, v) /\ ps_parse_der P (enc ++ x) = Ok (x, v).
Proof.
  intros [[R1 R2] HP] Hs E Hn Hx.
  destruct (encodes_object S v enc Hs E) as (c & k & t & cb & E1 & E2 & Ht & Hcb & O); [lia|].
  pose proof (object_size _ _ _ _ _ O) as Hsz.
  destruct (HP _ _ _ _ _ E1 E2) as [A C]; [lia|].
  pose proof (object_ok _ _ _ _ _ O Hcb) as Henc.
  destruct O as (idb & lenb & HR & S1 & S2 & ->).
  assert (Hi : bytes_ok ((idb ++ lenb ++ cb) ++ x)) by (apply bytes_ok_app; auto).
  assert (Em : t mod 2 ^ 32 = t) by (apply N.mod_small; exact Ht).
  destruct (C (Some idb) (Some (idb ++ lenb))) as [[r C1] [r' C2]]. split.
  - rewrite R1. apply parse_ber_iff; [exact Hi|]. exists c, k, t, (Definite (blen cb)), idb, lenb, cb, r.
    split; [exact HR|]. split; [rewrite <- !app_assoc; reflexivity|]. split; [constructor; reflexivity|].
    unfold hdr. rewrite Em. split; assumption.
  - rewrite R2. apply parse_der_iff; [exact Hi|]. exists c, k, t, idb, lenb, cb, r'.
    split; [exact HR|]. split; [rewrite <- !app_assoc; reflexivity|].
    unfold hdr. rewrite Em. split; assumption.
Qed.

(** ** Older traits *)

Definition legacy_sound {T} (L : legacy T) (S : syntax T) : Prop :=
  (forall i, lg_from_ber L i = blanket_from_ber (lg_try_from L) i) /\
  (forall v cb c k t, sx_ident S v = (c, k, t) -> sx_content S v cb -> blen cb < 2 ^ 24 ->
    lg_tag L = t /\
    forall rt rh, let h := mk_header c k t (Definite (blen cb)) rt rh in
      lg_try_from L (mk_any h cb) = Ok v /\ lg_check L (mk_any h cb) = Ok tt) /\
  (forall v enc x, encodes S v enc -> blen enc < 2 ^ 24 -> bytes_ok x -> lg_from_der L (enc ++ x) = Ok (x, v)).

Lemma legacy_reads {T} (L : legacy T) (S : syntax T) v enc x :
  legacy_sound L S -> syntax_ok S -> encodes S v enc -> blen enc < 2 ^ 24 -> bytes_ok x ->
  lg_from_ber L (enc ++ x) = Ok (x, v) /\ lg_from_der L (enc ++ x) = Ok (x, v).
Proof.
  intros (H1 & H2 & H3) Hs E Hn Hx. split; [|apply H3; assumption].
  destruct (encodes_object S v enc Hs E) as (c & k & t & cb & E1 & E2 & Ht & Hcb & O); [lia|].
  pose proof (object_size _ _ _ _ _ O) as Hsz.
  destruct (H2 _ _ _ _ _ E1 E2) as [_ C]; [lia|].
  destruct (object_parse_ber_any _ _ _ _ _ x O Ht Hcb Hx) as (rt & rh & EA).
  rewrite H1. unfold blanket_from_ber. rewrite EA. cbn [bind].
  destruct (C rt rh) as [C1 _]. rewrite C1. reflexivity.
Qed.

(** A codec with default [FromDer]. *)
Lemma codec_legacy_sound {T} tag (p : codec T) (S : syntax T) :
  syntax_ok S ->
  (forall v cb c k t, sx_ident S v = (c, k, t) -> sx_content S v cb -> blen cb < 2 ^ 24 ->
    tag = t /\ forall rt rh, let h := mk_header c k t (Definite (blen cb)) rt rh in
      try_from_any p (mk_any h cb) = Ok v /\ check_constraints p (mk_any h cb) = Ok tt) ->
  legacy_sound (codec_legacy tag p) S.
Proof.
  intros Hs H. split; [reflexivity|]. split; [exact H|].
  intros v enc x E Hn Hx.
  destruct (encodes_object S v enc Hs E) as (c & k & t & cb & E1 & E2 & Ht & Hcb & O); [lia|].
  pose proof (object_size _ _ _ _ _ O) as Hsz.
  destruct (H _ _ _ _ _ E1 E2) as [_ C]; [lia|].
  destruct (object_parse_der_any _ _ _ _ _ x O Ht Hcb Hx) as (rt & rh & EA).
  cbn [codec_legacy lg_from_der]. unfold from_der. rewrite EA. cbn [bind].
  destruct (C rt rh) as [C1 C2]. rewrite C2. cbn [bind]. rewrite C1. reflexivity.
Qed.

(** ** Writers *)

Definition writer_sound {T} (W : writer T) (S : syntax T) : Prop :=
  (forall v cb c k t, sx_ident S v = (c, k, t) -> sx_content S v cb -> blen cb < 2 ^ 24 ->
    writes (wr_ber W v) c k t cb /\ writes (wr_der W v) c k t cb
    /\ tb_tag (wr_ber W v) = t /\ tb_tag (wr_der W v) = t /\ wr_tag W v = t) /\
  (forall v n, sx_valid S v -> tb_content_len (wr_der W v) = Definite n -> n < 2 ^ 24 ->
    exists cb, sx_content S v cb /\ blen cb = n).

Lemma writes_object w c k t cb enc :
  writes w c k t cb -> object c k t cb enc -> t < 2 ^ 32 -> blen cb < 2 ^ 64 -> encode w = Ok (enc, blen enc).
Proof.
  intros W (idb & lenb & HR & S1 & S2 & ->) Ht Hn.
  destruct (encode_writes w c k t cb W Ht Hn) as (idb' & lenb' & E & _ & S1' & S2' & _).
  rewrite (ident_shortest_unique _ _ _ _ _ S1 S1'), (length_shortest_unique _ _ _ S2 S2'). exact E.
Qed.

Lemma object_total_len c k t cb enc :
  object c k t cb enc -> t < 2 ^ 32 -> blen cb < 2 ^ 24 ->
  unwrap_or0 (ber_header_length t (Definite (blen cb))) + blen cb = blen enc.
Proof.
  intros (idb & lenb & HR & S1 & S2 & ->) Ht Hn.
  rewrite (proj2 (ber_header_length_exact c k t (blen cb) idb lenb Ht ltac:(lia) S1 S2) Hn).
  rewrite !blen_app. lia.
Qed.

Lemma writes_total_len w c k t cb enc :
  writes w c k t cb -> tb_tag w = t -> object c k t cb enc -> t < 2 ^ 32 -> blen cb < 2 ^ 24 ->
  total_len w = Definite (blen enc).
Proof.
  intros (W & L & C) Et O Ht Hn. unfold total_len, ber_total_length. rewrite L, Et. cbn [length_add].
  rewrite <- (object_total_len _ _ _ _ _ O Ht Hn). f_equal. lia.
Qed.

Lemma writer_encodes {T} (W : writer T) (S : syntax T) v enc :
  writer_sound W S -> syntax_ok S -> encodes S v enc -> blen enc < 2 ^ 24 ->
  (encode (wr_ber W v) = Ok (enc, blen enc) /\ total_len (wr_ber W v) = Definite (blen enc)) /\
  (encode (wr_der W v) = Ok (enc, blen enc) /\ total_len (wr_der W v) = Definite (blen enc)).
Proof.
  intros [HW _] Hs E Hn.
  destruct (encodes_object S v enc Hs E) as (c & k & t & cb & E1 & E2 & Ht & Hcb & O); [lia|].
  pose proof (object_size _ _ _ _ _ O) as Hsz.
  destruct (HW _ _ _ _ _ E1 E2) as (W1 & W2 & T1 & T2 & _); [lia|].
  split; split.
  - eapply writes_object; try eassumption. lia.
  - eapply writes_total_len; try eassumption. lia.
  - eapply writes_object; try eassumption. lia.
  - eapply writes_total_len; try eassumption. lia.
Qed.

Lemma total_len_definite w n :
  total_len w = Definite n -> exists m, tb_content_len w = Definite m /\ m <= n.
Proof.
  unfold total_len, ber_total_length. destruct (tb_content_len w) as [m|]; cbn [length_add]; [|discriminate].
  intros E. injection E as <-. exists m. split; [reflexivity|]. lia.
Qed.

(** Every value whose announced length is small has an encoding. *)
Lemma writer_total {T} (W : writer T) (S : syntax T) v n :
  writer_sound W S -> syntax_ok S -> sx_valid S v -> total_len (wr_der W v) = Definite n -> n < 2 ^ 24 ->
  exists enc, encodes S v enc /\ blen enc = n.
Proof.
  intros [HW1 HW2] Hs Hv L Hn. destruct (total_len_definite _ _ L) as (m & Lm & Hm).
  destruct (HW2 v m Hv Lm) as (cb & C & Ec); [lia|].
  destruct (sx_ident S v) as [[c k] t] eqn:E1. destruct (Hs _ _ _ _ _ E1 C) as [Ht Hcb].
  destruct (HW1 _ _ _ _ _ E1 C ltac:(lia)) as (_ & W2 & _ & T2 & _).
  destruct (object_exists c k t cb Ht ltac:(lia)) as (enc & O).
  exists enc. split; [eapply encodes_intro; eassumption|].
  pose proof (writes_total_len _ _ _ _ _ _ W2 T2 O Ht ltac:(lia)) as L'. congruence.
Qed.

(** ** Lists of items *)

Lemma length_add_indefinite ls : fold_left length_add ls Indefinite = Indefinite.
Proof. induction ls as [|l ls IH]; [reflexivity|]. cbn [fold_left]. destruct l; exact IH. Qed.

Lemma length_sum_cons l ls : length_sum (l :: ls) = length_add l (length_sum ls).
Proof.
  unfold length_sum. cbn [fold_left]. destruct l as [n|].
  2: { cbn [length_add]. rewrite length_add_indefinite. destruct (fold_left length_add ls (Definite 0)); reflexivity. }
  assert (G : forall a b, fold_left length_add ls (Definite (a + b))
                          = length_add (Definite a) (fold_left length_add ls (Definite b))).
  { induction ls as [|l ls IH]; intros a b; [reflexivity|]. cbn [fold_left length_add]. destruct l as [m|].
    - rewrite <- N.add_assoc. apply IH.
    - rewrite !length_add_indefinite. reflexivity. }
  rewrite <- G. cbn [length_add]. f_equal. f_equal. lia.
Qed.

Section Items.
  Context {T : Type} (S : syntax T) (HS : syntax_ok S).

  Lemma items_ok vs bs : items_content S vs bs -> bytes_ok bs.
  Proof.
    induction 1 as [|v vs enc bs E _ IH]; [constructor|]. apply bytes_ok_app.
    split; [eapply encodes_ok; eassumption|exact IH].
  Qed.

  Lemma encodes_nonempty v enc : encodes S v enc -> 2 <= blen enc.
  Proof.
    intros (c & k & t & cb & idb & lenb & _ & _ & S1 & S2 & ->). rewrite !blen_app.
    apply ident_shortest_octets, ident_octets_len in S1. apply length_shortest_octets, length_octets_len in S2. lia.
  Qed.

  Lemma seq_items_ok {A} (p : bytes -> res (bytes * A)) (g : T -> A) vs bs :
    (forall v enc x, encodes S v enc -> blen enc < 2 ^ 24 -> bytes_ok x -> p (enc ++ x) = Ok (x, g v)) ->
    items_content S vs bs -> blen bs < 2 ^ 24 -> seq_items p bs = Ok (map g vs).
  Proof.
    intros Hp H. unfold seq_items.
    assert (G : forall n, (length bs < n)%nat -> blen bs < 2 ^ 24 -> seq_collect p n bs = Ok (map g vs)).
    { induction H as [|v vs enc bs E H IH]; intros [|n] Hn Hl; try lia; [reflexivity|].
      pose proof (encodes_nonempty _ _ E) as Hne. rewrite blen_app in Hl. cbn [seq_collect].
      rewrite blen_app. destruct (N.eqb_spec (blen enc + blen bs) 0) as [H0|_]; [lia|].
      rewrite (Hp v enc bs E) by (lia || eapply items_ok; eassumption). cbn [close bind].
      rewrite app_length in Hn. unfold blen in *. rewrite IH by lia. reflexivity. }
    intros Hl. apply G; [lia|exact Hl].
  Qed.

  Lemma collect_items p (f : any -> res T) vs bs :
    object_parser p ->
    (forall v enc x, encodes S v enc -> blen enc < 2 ^ 24 -> bytes_ok x ->
       exists a, p (enc ++ x) = Ok (x, a) /\ f a = Ok v) ->
    items_content S vs bs -> blen bs < 2 ^ 24 -> collect_loop p f (Datatypes.S (length bs)) bs = Ok ([], vs).
  Proof.
    intros Hop Hp H. induction H as [|v vs enc bs E H IH]; intros Hl; [reflexivity|].
    pose proof (encodes_nonempty _ _ E) as Hne. pose proof (items_ok _ _ H) as Hok. rewrite blen_app in Hl.
    rewrite collect_unfold; [|exact Hop|apply bytes_ok_app; split; [eapply encodes_ok; eassumption|exact Hok]].
    rewrite blen_app. destruct (N.eqb_spec (blen enc + blen bs) 0) as [H0|_]; [lia|].
    destruct (Hp v enc bs E) as (a & Ea & Ef); [lia|exact Hok|]. rewrite Ea. cbn [close bind].
    rewrite Ef. cbn [bind]. rewrite IH by lia. reflexivity.
  Qed.

  Lemma items_collect_ber (P : parser T) vs bs :
    parser_sound P S -> items_content S vs bs -> blen bs < 2 ^ 24 -> collect_ber P bs = Ok ([], vs).
  Proof.
    intros [_ HP]. apply collect_items; [apply object_parser_ber|].
    intros v enc x E Hn Hx.
    destruct (encodes_object S v enc HS E) as (c & k & t & cb & E1 & E2 & Ht & Hcb & O); [lia|].
    pose proof (object_size _ _ _ _ _ O) as Hsz.
    destruct (HP _ _ _ _ _ E1 E2) as [A C]; [lia|].
    destruct (object_parse_ber_any _ _ _ _ _ x O Ht Hcb Hx) as (rt & rh & EA).
    rewrite any_parse_ber_eq by (apply bytes_ok_app; split; [eapply encodes_ok; eassumption|exact Hx]).
    eexists. split; [exact EA|]. unfold convert_item. cbn [any_header any_data h_tag]. rewrite A.
    destruct (C rt rh) as [[r C1] _]. rewrite C1. reflexivity.
  Qed.

  Lemma items_collect_der (P : parser T) vs bs :
    parser_sound P S -> items_content S vs bs -> blen bs < 2 ^ 24 -> collect_der P bs = Ok ([], vs).
  Proof.
    intros [_ HP]. apply collect_items; [apply object_parser_der|].
    intros v enc x E Hn Hx.
    destruct (encodes_object S v enc HS E) as (c & k & t & cb & E1 & E2 & Ht & Hcb & O); [lia|].
    pose proof (object_size _ _ _ _ _ O) as Hsz.
    destruct (HP _ _ _ _ _ E1 E2) as [A C]; [lia|].
    destruct (object_parse_der_any _ _ _ _ _ x O Ht Hcb Hx) as (rt & rh & EA).
    rewrite any_parse_der_eq by (apply bytes_ok_app; split; [eapply encodes_ok; eassumption|exact Hx]).
    eexists. split; [exact EA|]. unfold convert_item. cbn [any_header any_data h_tag]. rewrite A.
    destruct (C rt rh) as [_ [r C1]]. rewrite C1. reflexivity.
  Qed.

  (** Writing the items. *)
  Lemma items_write (w : T -> tober) vs bs :
    (forall v enc, encodes S v enc -> blen enc < 2 ^ 24 ->
       encode (w v) = Ok (enc, blen enc) /\ total_len (w v) = Definite (blen enc)) ->
    items_content S vs bs -> blen bs < 2 ^ 24 ->
    write_items (map w vs) = Ok (bs, blen bs) /\ length_constructed_items (map w vs) = Definite (blen bs).
  Proof.
    intros Hw H. induction H as [|v vs enc bs E H IH]; intros Hl; [split; reflexivity|].
    rewrite blen_app in Hl. destruct (Hw v enc E) as [H1 H2]; [lia|]. destruct IH as [I1 I2]; [lia|].
    cbn [map write_items]. rewrite H1, I1. cbn [wseq bind]. rewrite blen_app. split; [reflexivity|].
    unfold length_constructed_items in *. cbn [map]. rewrite length_sum_cons, H2, I2. cbn [length_add]. reflexivity.
  Qed.

  Lemma items_total (w : T -> tober) (vs : list T) :
    (forall v n, In v vs -> total_len (w v) = Definite n -> n < 2 ^ 24 ->
       exists enc, encodes S v enc /\ blen enc = n) ->
    forall n, length_constructed_items (map w vs) = Definite n -> n < 2 ^ 24 ->
    exists bs, items_content S vs bs /\ blen bs = n.
  Proof.
    unfold length_constructed_items. induction vs as [|v vs IH]; intros Hw n L Hn.
    - injection L as <-. exists []. split; [constructor|reflexivity].
    - cbn [map] in L. rewrite length_sum_cons in L.
      destruct (total_len (w v)) as [a|] eqn:L1; [|discriminate].
      destruct (length_sum (map total_len (map w vs))) as [b|] eqn:L2; [|discriminate].
      injection L as <-. destruct (Hw v a) as (enc & E & Ea); [left; reflexivity|exact L1|lia|].
      destruct (IH (fun v' n' Hin => Hw v' n' (or_intror Hin)) b eq_refl) as (bs & Hb & Eb); [lia|].
      exists (enc ++ bs). split; [constructor; assumption|]. rewrite blen_app. lia.
  Qed.
End Items.

(** ** Closure under the constructors *)

Lemma assert_constructed_true c t l rt rh : assert_constructed (mk_header c true t l rt rh) = Ok tt.
Proof. reflexivity. Qed.

Lemma assert_tag_same c k t l rt rh : assert_tag (mk_header c k t l rt rh) t = Ok tt.
Proof. unfold assert_tag. cbn [h_tag]. rewrite N.eqb_refl. reflexivity. Qed.

Lemma check_class_same c k t l rt rh : check_class (mk_header c k t l rt rh) c = Ok tt.
Proof. unfold check_class. cbn [h_class]. rewrite N.eqb_refl. reflexivity. Qed.

Lemma check_tag_same c k t l rt rh : check_tag (mk_header c k t l rt rh) t = Ok tt.
Proof. unfold check_tag, is_tag. cbn [h_tag]. rewrite N.eqb_refl. reflexivity. Qed.

Lemma list_syntax_ok {T} tag (S : syntax T) : tag < 2 ^ 32 -> syntax_ok S -> syntax_ok (list_syntax tag S).
Proof.
  intros Ht Hs v cb c k t E C. cbn in E. injection E as <- <- <-. split; [exact Ht|].
  eapply items_ok; eassumption.
Qed.

Lemma array_syntax_ok {T} n (S : syntax T) : syntax_ok S -> syntax_ok (array_syntax n S).
Proof.
  intros Hs v cb c k t E [_ C]. cbn in E. injection E as <- <- <-. split; [lia|].
  eapply items_ok; eassumption.
Qed.

Lemma set_syntax_ok {T} cmp (S : syntax T) : syntax_ok S -> syntax_ok (set_syntax cmp S).
Proof.
  intros Hs v cb c k t E [_ C]. cbn in E. injection E as <- <- <-. split; [lia|].
  eapply items_ok; eassumption.
Qed.

Lemma explicit_syntax_ok {T} c0 t0 (S : syntax T) : t0 < 2 ^ 32 -> syntax_ok S -> syntax_ok (explicit_syntax c0 t0 S).
Proof.
  intros Ht Hs v cb c k t E C. cbn in E. injection E as <- <- <-. split; [exact Ht|].
  exact (encodes_ok S v cb Hs C).
Qed.

Lemma implicit_syntax_ok {T} c0 t0 (S : syntax T) : t0 < 2 ^ 32 -> syntax_ok S -> syntax_ok (implicit_syntax c0 t0 S).
Proof.
  intros Ht Hs v cb c k t E C. cbn in E, C. injection E as <- _ <-. split; [exact Ht|].
  destruct (sx_ident S v) as [[c1 k1] t1] eqn:E1. eapply (Hs _ _ _ _ _ E1 C).
Qed.

(** *** Vec, SequenceOf *)

Lemma vec_contents {T} (P : parser T) (S : syntax T) v cb h :
  parser_sound P S -> syntax_ok S -> items_content S v cb -> blen cb < 2 ^ 24 -> h_constructed h = true ->
  vec_ber_content P h cb = Ok ([], v) /\ vec_der_content P h cb = Ok ([], v).
Proof.
  intros HP Hs C Hn Hk. unfold vec_ber_content, vec_der_content, assert_constructed. rewrite Hk. cbn [bind].
  destruct (N.eqb_spec (blen cb) 0) as [H0|H0].
  - apply blen_zero in H0. subst cb. inversion C as [|x vs enc bs E C' Ev Eb]; subst; [auto|].
    apply encodes_nonempty in E. apply (f_equal blen) in Eb. rewrite blen_app, blen_nil in Eb. lia.
  - split; [eapply items_collect_ber|eapply items_collect_der]; eassumption.
Qed.

Lemma vec_parser_sound {T} (P : parser T) (S : syntax T) :
  parser_sound P S -> syntax_ok S -> parser_sound (vec_parser P) (list_syntax 16 S).
Proof.
  intros HP Hs. split; [apply default_regular|].
  intros v cb c k t E C Hn. injection E as <- <- <-. split; [reflexivity|]. intros rt rh h.
  destruct (vec_contents P S v cb h HP Hs C Hn eq_refl) as [H1 H2]. split; exists []; assumption.
Qed.

Lemma items_check_ok {T} (L : legacy T) (S : syntax T) v cb h :
  legacy_sound L S -> syntax_ok S -> items_content S v cb -> blen cb < 2 ^ 24 ->
  items_check L (mk_any h cb) = Ok tt.
Proof.
  intros (H1 & H2 & H3) Hs C Hn. unfold items_check. cbn [any_data].
  rewrite (seq_items_ok S Hs _ (fun _ => tt) v cb); [reflexivity| |exact C|exact Hn].
  intros y enc x E Hy Hx.
  destruct (encodes_object S y enc Hs E) as (c & k & t & d & E1 & E2 & Ht & Hd & O); [lia|].
  pose proof (object_size _ _ _ _ _ O) as Hsz.
  destruct (H2 _ _ _ _ _ E1 E2) as [_ C2]; [lia|].
  destruct (object_from_der_any _ _ _ _ _ x O Ht Hd Hx) as (rt & rh & EA).
  rewrite EA. cbn [bind]. destruct (C2 rt rh) as [_ ->]. reflexivity.
Qed.

Lemma legacy_items {T} (L : legacy T) (S : syntax T) v cb :
  legacy_sound L S -> syntax_ok S -> items_content S v cb -> blen cb < 2 ^ 24 ->
  seq_items (lg_from_ber L) cb = Ok v /\ seq_items (lg_from_der L) cb = Ok v.
Proof.
  intros HL Hs C Hn.
  assert (Em : map (fun x : T => x) v = v) by apply map_id. split.
  - rewrite (seq_items_ok S Hs _ (fun x => x) v cb); [rewrite Em; reflexivity| |exact C|exact Hn].
    intros y enc x E Hy Hx. apply (legacy_reads L S); assumption.
  - rewrite (seq_items_ok S Hs _ (fun x => x) v cb); [rewrite Em; reflexivity| |exact C|exact Hn].
    intros y enc x E Hy Hx. apply (legacy_reads L S); assumption.
Qed.

(** [FromDer] of a container in terms of its objects. *)
Lemma legacy_from_object {T} (S : syntax T) (f : bytes -> res (bytes * T)) :
  syntax_ok S ->
  (forall v cb c k t, sx_ident S v = (c, k, t) -> sx_content S v cb -> blen cb < 2 ^ 24 ->
     forall enc x, parse_der_any (enc ++ x) = from_der any_codec (enc ++ x) ->
       (exists rt rh, from_der any_codec (enc ++ x) = Ok (x, mk_any (mk_header c k t (Definite (blen cb)) rt rh) cb)) ->
       f (enc ++ x) = Ok (x, v)) ->
  forall v enc x, encodes S v enc -> blen enc < 2 ^ 24 -> bytes_ok x -> f (enc ++ x) = Ok (x, v).
Proof.
  intros Hs H v enc x E Hn Hx.
  destruct (encodes_object S v enc Hs E) as (c & k & t & cb & E1 & E2 & Ht & Hcb & O); [lia|].
  pose proof (object_size _ _ _ _ _ O) as Hsz.
  apply (H _ _ _ _ _ E1 E2); [lia| |].
  - destruct (object_parse_der_any _ _ _ _ _ x O Ht Hcb Hx) as (rt & rh & EA).
    unfold from_der. rewrite EA. reflexivity.
  - apply object_from_der_any; assumption.
Qed.

Lemma vec_legacy_sound {T} (L : legacy T) (S : syntax T) :
  legacy_sound L S -> syntax_ok S -> legacy_sound (vec_legacy L) (list_syntax 16 S).
Proof.
  intros HL Hs. split; [reflexivity|]. split.
  - intros v cb c k t E C Hn. injection E as <- <- <-. split; [reflexivity|]. intros rt rh h.
    destruct (legacy_items L S v cb HL Hs C Hn) as [I1 I2].
    cbn [vec_legacy lg_try_from lg_check]. unfold vec_try_from, vec_check. cbn [any_header any_data]. subst h.
    rewrite assert_tag_same, assert_constructed_true. cbn [bind]. split; [exact I1|].
    eapply items_check_ok; eassumption.
  - apply legacy_from_object; [apply list_syntax_ok; [lia|exact Hs]|].
    intros v cb c k t E C Hn enc x Ed (rt & rh & EA). injection E as <- <- <-.
    destruct (legacy_items L S v cb HL Hs C Hn) as [I1 I2].
    cbn [vec_legacy lg_from_der]. unfold vec_from_der. rewrite Ed, EA. cbn [bind any_header any_data].
    rewrite assert_tag_same. cbn [bind]. rewrite I2. reflexivity.
Qed.

(** Writers of lists of items. *)
Lemma items_writer_sound {T} (W : writer T) (S : syntax T) tag v cb :
  writer_sound W S -> syntax_ok S -> items_content S v cb -> blen cb < 2 ^ 24 ->
  writes (items_tober tag (map (wr_ber W) v)) Universal true tag cb
  /\ writes (items_tober tag (map (wr_der W) v)) Universal true tag cb.
Proof.
  intros HW Hs C Hn. split.
  - destruct (items_write S (wr_ber W) v cb) as [H1 H2]; [|exact C|exact Hn|split; [reflexivity|split; assumption]].
    intros y enc E Hy. apply (writer_encodes W S); assumption.
  - destruct (items_write S (wr_der W) v cb) as [H1 H2]; [|exact C|exact Hn|split; [reflexivity|split; assumption]].
    intros y enc E Hy. apply (writer_encodes W S); assumption.
Qed.

Lemma items_writer_total {T} (W : writer T) (S : syntax T) v n :
  writer_sound W S -> syntax_ok S -> Forall (sx_valid S) v ->
  length_constructed_items (map (wr_der W) v) = Definite n -> n < 2 ^ 24 ->
  exists bs, items_content S v bs /\ blen bs = n.
Proof.
  intros HW Hs Hv. apply items_total. intros y m Hin L Hm. rewrite Forall_forall in Hv.
  eapply writer_total; eauto.
Qed.

Lemma vec_writer_sound {T} (W : writer T) (S : syntax T) :
  writer_sound W S -> syntax_ok S -> writer_sound (vec_writer W) (list_syntax 16 S).
Proof.
  intros HW Hs. split.
  - intros v cb c k t E C Hn. injection E as <- <- <-.
    destruct (items_writer_sound W S 16 v cb HW Hs C Hn) as [H1 H2].
    split; [exact H1|]. split; [exact H2|]. auto.
  - intros v n Hv L Hn. exact (items_writer_total W S v n HW Hs Hv L Hn).
Qed.

(** *** Arrays *)

Lemma array_parser_sound {T} n (P : parser T) (S : syntax T) :
  parser_sound P S -> syntax_ok S -> parser_sound (array_parser n P) (array_syntax n S).
Proof.
  intros HP Hs. split; [apply default_regular|].
  intros v cb c k t E [El C] Hn. injection E as <- <- <-. split; [reflexivity|]. intros rt rh h.
  destruct (vec_contents P S v cb h HP Hs C Hn eq_refl) as [H1 H2].
  cbn [array_parser default_parser codec_parser ps_ber_content ps_der_content ber_content der_content].
  unfold array_content. rewrite H1, H2. cbn [bind]. rewrite El, Nat.eqb_refl. split; exists []; reflexivity.
Qed.

Lemma array_writer_sound {T} n (W : writer T) (S : syntax T) :
  writer_sound W S -> syntax_ok S -> writer_sound (array_writer W) (array_syntax n S).
Proof.
  intros HW Hs. split.
  - intros v cb c k t E [El C] Hn. injection E as <- <- <-.
    destruct (items_writer_sound W S 16 v cb HW Hs C Hn) as [H1 H2].
    split; [exact H1|]. split; [exact H2|]. auto.
  - intros v m [Hv El] L Hn. destruct (items_writer_total W S v m HW Hs Hv L Hn) as (bs & Hb & Eb).
    exists bs. split; [split; assumption|exact Eb].
Qed.

(** *** SetOf *)

Lemma setof_contents {T} (P : parser T) (S : syntax T) v cb h :
  parser_sound P S -> syntax_ok S -> items_content S v cb -> blen cb < 2 ^ 24 -> h_constructed h = true ->
  setof_ber_content P h cb = Ok ([], v) /\ setof_der_content P h cb = Ok ([], v).
Proof.
  intros HP Hs C Hn Hk. unfold setof_ber_content, setof_der_content, assert_constructed. rewrite Hk. cbn [bind].
  split; [eapply items_collect_ber|eapply items_collect_der]; eassumption.
Qed.

Lemma setof_parser_sound {T} (P : parser T) (S : syntax T) :
  parser_sound P S -> syntax_ok S -> parser_sound (setof_parser P) (list_syntax 17 S).
Proof.
  intros HP Hs. split; [apply default_regular|].
  intros v cb c k t E C Hn. injection E as <- <- <-. split; [reflexivity|]. intros rt rh h.
  destruct (setof_contents P S v cb h HP Hs C Hn eq_refl) as [H1 H2]. split; exists []; assumption.
Qed.

Lemma setof_legacy_sound {T} (L : legacy T) (S : syntax T) :
  legacy_sound L S -> syntax_ok S -> legacy_sound (setof_legacy L) (list_syntax 17 S).
Proof.
  intros HL Hs. split; [reflexivity|]. split.
  - intros v cb c k t E C Hn. injection E as <- <- <-. split; [reflexivity|]. intros rt rh h.
    destruct (legacy_items L S v cb HL Hs C Hn) as [I1 I2].
    cbn [setof_legacy lg_try_from lg_check]. unfold setof_try_from, setof_check. cbn [any_header any_data]. subst h.
    rewrite assert_tag_same, assert_constructed_true. cbn [bind]. split; [exact I1|].
    eapply items_check_ok; eassumption.
  - apply legacy_from_object; [apply list_syntax_ok; [lia|exact Hs]|].
    intros v cb c k t E C Hn enc x Ed (rt & rh & EA). injection E as <- <- <-.
    destruct (legacy_items L S v cb HL Hs C Hn) as [I1 I2].
    cbn [setof_legacy lg_from_der]. unfold setof_from_der. rewrite EA. cbn [bind any_header any_data].
    rewrite assert_tag_same. cbn [bind]. rewrite I2. reflexivity.
Qed.

Lemma setof_writer_sound {T} (W : writer T) (S : syntax T) :
  writer_sound W S -> syntax_ok S -> writer_sound (setof_writer W) (list_syntax 17 S).
Proof.
  intros HW Hs. split.
  - intros v cb c k t E C Hn. injection E as <- <- <-.
    destruct (items_writer_sound W S 17 v cb HW Hs C Hn) as [H1 H2].
    split; [exact H1|]. split; [exact H2|]. auto.
  - intros v n Hv L Hn. exact (items_writer_total W S v n HW Hs Hv L Hn).
Qed.

(** *** BTreeSet *)

Lemma set_insert_last {T} (cmp : T -> T -> comparison) x l :
  (forall a b, cmp b a = CompOpp (cmp a b)) -> Forall (fun y => cmp y x = Lt) l -> set_insert cmp x l = l ++ [x].
Proof.
  intros Hc. induction 1 as [|y l Hy _ IH]; [reflexivity|]. cbn [set_insert app].
  rewrite (Hc y x), Hy. cbn [CompOpp]. rewrite IH. reflexivity.
Qed.

Lemma set_of_list_ascending {T} (cmp : T -> T -> comparison) l :
  (forall a b, cmp b a = CompOpp (cmp a b)) -> ascending cmp l -> set_of_list cmp l = l.
Proof.
  intros Hc Ha. unfold set_of_list.
  assert (G : forall s, (forall x y, In x s -> In y l -> cmp x y = Lt) ->
    fold_left (fun s x => set_insert cmp x s) l s = s ++ l).
  { induction l as [|x l IH]; intros s Hs; cbn [fold_left]; [rewrite app_nil_r; reflexivity|].
    destruct Ha as [Hx Ha]. rewrite (set_insert_last cmp x s Hc).
    - rewrite IH; [rewrite <- app_assoc; reflexivity|exact Ha|].
      intros a y Ha' Hy. apply in_app_or in Ha' as [Ha'|[<-|[]]].
      + apply Hs; [exact Ha'|right; exact Hy].
      + rewrite Forall_forall in Hx. apply Hx. exact Hy.
    - apply Forall_forall. intros y Hy. apply Hs; [exact Hy|left; reflexivity]. }
  rewrite G; [reflexivity|]. intros x y [].
Qed.

Section BTreeSet.
  Context {T : Type} (cmp : T -> T -> comparison) (Hcmp : forall a b, cmp b a = CompOpp (cmp a b)).

  Lemma btreeset_parser_sound (P : parser T) (S : syntax T) :
    parser_sound P S -> syntax_ok S -> parser_sound (btreeset_parser cmp P) (set_syntax cmp S).
  Proof.
    intros HP Hs. split; [apply default_regular|].
    intros v cb c k t E [Ha C] Hn. injection E as <- <- <-. split; [reflexivity|]. intros rt rh h.
    destruct (setof_contents P S v cb h HP Hs C Hn eq_refl) as [H1 H2].
    cbn [btreeset_parser default_parser codec_parser ps_ber_content ps_der_content ber_content der_content].
    unfold btreeset_content. rewrite H1, H2. cbn [bind]. rewrite (set_of_list_ascending cmp v Hcmp Ha).
    split; exists []; reflexivity.
  Qed.

  Lemma btreeset_legacy_sound (L : legacy T) (S : syntax T) :
    legacy_sound L S -> syntax_ok S -> legacy_sound (btreeset_legacy cmp L) (set_syntax cmp S).
  Proof.
    intros HL Hs. split; [reflexivity|]. split.
    - intros v cb c k t E [Ha C] Hn. injection E as <- <- <-. split; [reflexivity|]. intros rt rh h.
      destruct (legacy_items L S v cb HL Hs C Hn) as [I1 I2].
      cbn [btreeset_legacy lg_try_from lg_check]. unfold btreeset_try_from, setof_try_from, setof_check.
      cbn [any_header any_data]. subst h.
      rewrite assert_tag_same, assert_constructed_true. cbn [bind]. rewrite I1. cbn [bind].
      rewrite (set_of_list_ascending cmp v Hcmp Ha). split; [reflexivity|].
      eapply items_check_ok; eassumption.
    - apply legacy_from_object; [apply set_syntax_ok; exact Hs|].
      intros v cb c k t E [Ha C] Hn enc x Ed (rt & rh & EA). injection E as <- <- <-.
      destruct (legacy_items L S v cb HL Hs C Hn) as [I1 I2].
      cbn [btreeset_legacy lg_from_der]. unfold btreeset_from_der. rewrite EA. cbn [bind any_header any_data].
      rewrite assert_tag_same, assert_constructed_true. cbn [bind]. rewrite I2. cbn [bind].
      rewrite (set_of_list_ascending cmp v Hcmp Ha). reflexivity.
  Qed.

  Lemma btreeset_writer_sound (W : writer T) (S : syntax T) :
    writer_sound W S -> syntax_ok S -> writer_sound (btreeset_writer W) (set_syntax cmp S).
  Proof.
    intros HW Hs. split.
    - intros v cb c k t E [Ha C] Hn. injection E as <- <- <-.
      destruct (items_writer_sound W S 17 v cb HW Hs C Hn) as [H1 H2].
      split; [exact H1|]. split; [exact H2|]. auto.
    - intros v m [Hv Ha] L Hn. destruct (items_writer_total W S v m HW Hs Hv L Hn) as (bs & Hb & Eb).
      exists bs. split; [split; assumption|exact Eb].
  Qed.
End BTreeSet.

(** *** Explicit tags *)

Lemma explicit_parser_sound {T} c0 t0 (P : parser T) (S : syntax T) :
  parser_sound P S -> syntax_ok S -> parser_sound (explicit_parser c0 t0 P) (explicit_syntax c0 t0 S).
Proof.
  intros HP Hs. split; [apply default_regular|].
  intros v cb c k t E C Hn. injection E as <- <- <-. split; [apply N.eqb_refl|]. intros rt rh h.
  destruct (parser_reads P S v cb [] HP Hs C Hn) as [H1 H2]; [constructor|]. rewrite app_nil_r in *.
  cbn [explicit_parser default_parser codec_parser ps_ber_content ps_der_content ber_content der_content].
  unfold explicit_content. subst h. rewrite assert_constructed_true, check_class_same, check_tag_same. cbn [bind].
  split; exists []; assumption.
Qed.

Lemma explicit_legacy_sound {T} c0 t0 (L : legacy T) (S : syntax T) :
  t0 < 2 ^ 32 -> legacy_sound L S -> syntax_ok S ->
  legacy_sound (explicit_legacy c0 t0 L) (explicit_syntax c0 t0 S).
Proof.
  intros Ht0 HL Hs. split; [reflexivity|]. split.
  - intros v cb c k t E C Hn. injection E as <- <- <-. split; [reflexivity|]. intros rt rh h.
    destruct (legacy_reads L S v cb [] HL Hs C Hn) as [H1 H2]; [constructor|]. rewrite app_nil_r in *.
    cbn [explicit_legacy lg_try_from lg_check]. unfold explicit_try_from, explicit_check.
    cbn [any_header any_data]. subst h.
    rewrite assert_tag_same, assert_constructed_true, check_class_same. cbn [bind]. rewrite H1. cbn [close bind].
    split; [reflexivity|]. cbn [h_length length_assert_definite bind].
    cbn in C. destruct (encodes_object S v cb Hs C) as (c & k & t & d & E1 & E2 & Ht & Hd & O); [lia|].
    pose proof (object_size _ _ _ _ _ O) as Hsz.
    destruct (object_parse_ber_any _ _ _ _ _ [] O Ht Hd) as (rt' & rh' & EA); [constructor|].
    rewrite app_nil_r in EA. rewrite EA. cbn [close bind].
    destruct HL as (_ & H & _). destruct (H _ _ _ _ _ E1 E2) as [_ C2]; [lia|]. apply C2.
  - apply legacy_from_object; [apply explicit_syntax_ok; assumption|].
    intros v cb c k t E C Hn enc x Ed (rt & rh & EA). injection E as <- <- <-.
    destruct (legacy_reads L S v cb [] HL Hs C Hn) as [H1 H2]; [constructor|]. rewrite app_nil_r in *.
    cbn [explicit_legacy lg_from_der]. unfold explicit_from_der. rewrite EA. cbn [bind any_header any_data].
    rewrite assert_tag_same, assert_constructed_true, check_class_same. cbn [bind]. rewrite H2. reflexivity.
Qed.

Lemma explicit_writes c t w c1 k1 t1 cb enc :
  writes w c1 k1 t1 cb -> object c1 k1 t1 cb enc -> t1 < 2 ^ 32 -> blen cb < 2 ^ 24 ->
  writes (explicit_tober c t t1 w) c true t enc.
Proof.
  intros HW O Ht Hn. split; [reflexivity|]. split.
  - cbn [explicit_tober tb_content_len]. destruct HW as (_ & -> & _). cbn [length_add].
    rewrite (object_total_len _ _ _ _ _ O Ht Hn). reflexivity.
  - cbn [explicit_tober tb_write_content]. eapply writes_object; try eassumption. lia.
Qed.

Lemma explicit_writer_sound {T} c0 t0 (W : writer T) (S : syntax T) :
  writer_sound W S -> syntax_ok S -> writer_sound (explicit_writer c0 t0 W) (explicit_syntax c0 t0 S).
Proof.
  intros HW Hs. split.
  - intros v cb c k t E C Hn. injection E as <- <- <-.
    cbn in C. destruct (encodes_object S v cb Hs C) as (c & k & t & d & E1 & E2 & Ht & Hd & O); [lia|].
    pose proof (object_size _ _ _ _ _ O) as Hsz.
    destruct HW as [HW _]. destruct (HW _ _ _ _ _ E1 E2) as (W1 & W2 & T1 & T2 & T3); [lia|].
    cbn [explicit_writer wr_ber wr_der wr_tag]. rewrite T3.
    split; [eapply explicit_writes; try eassumption; lia|].
    split; [eapply explicit_writes; try eassumption; lia|]. auto.
  - intros v n Hv L Hn. cbn in Hv. cbn [explicit_writer wr_der explicit_tober tb_content_len] in L.
    destruct (tb_content_len (wr_der W v)) as [m|] eqn:Lm; [|discriminate].
    cbn [length_add] in L. injection L as <-.
    pose proof HW as [HW1 HW2]. destruct (HW2 v m Hv Lm) as (cb & C & Ec); [lia|].
    destruct (sx_ident S v) as [[c k] t] eqn:E1. destruct (Hs _ _ _ _ _ E1 C) as [Ht Hcb].
    destruct (HW1 _ _ _ _ _ E1 C ltac:(lia)) as (_ & W2 & _ & T2 & T3).
    destruct (object_exists c k t cb Ht ltac:(lia)) as (enc & O).
    exists enc. split; [eapply encodes_intro; eassumption|]. rewrite T3.
    subst m. symmetry. apply (object_total_len _ _ _ _ _ O Ht). lia.
Qed.

(** *** Implicit tags *)

(** The contents parsers look only at the form and the length. *)
Definition header_free {T} (P : parser T) : Prop :=
  forall h h' d, h_constructed h = h_constructed h' -> h_length h = h_length h' ->
    ps_ber_content P h d = ps_ber_content P h' d /\ ps_der_content P h d = ps_der_content P h' d.

(** [TryFrom<Any>] and the constraint check look only at tag, form and length. *)
Definition class_free {T} (L : legacy T) : Prop :=
  forall h h' d, h_constructed h = h_constructed h' -> h_tag h = h_tag h' -> h_length h = h_length h' ->
    lg_try_from L (mk_any h d) = lg_try_from L (mk_any h' d) /\ lg_check L (mk_any h d) = lg_check L (mk_any h' d).

(** [constructed()] tells the form written. *)
Definition form_sound {T} (W : writer T) (S : syntax T) : Prop :=
  forall v c k t, sx_ident S v = (c, k, t) -> wr_constructed W v = k.

Lemma implicit_parser_sound {T} c0 t0 (P : parser T) (S : syntax T) :
  header_free P -> parser_sound P S -> parser_sound (implicit_parser c0 t0 P) (implicit_syntax c0 t0 S).
Proof.
  intros Hf [_ HP]. split; [apply default_regular|].
  intros v cb c k t E C Hn. cbn in E, C. destruct (sx_ident S v) as [[c1 k1] t1] eqn:E1.
  cbn [fst snd] in E. injection E as <- <- <-. split; [apply N.eqb_refl|]. intros rt rh h.
  destruct (HP _ _ _ _ _ E1 C Hn) as [A C1].
  destruct (C1 rt rh) as [[r R1] [r' R2]].
  destruct (Hf h (mk_header c1 k1 t1 (Definite (blen cb)) rt rh) cb eq_refl eq_refl) as [F1 F2].
  cbn [implicit_parser default_parser codec_parser ps_ber_content ps_der_content ber_content der_content].
  unfold implicit_content. subst h. rewrite check_class_same. cbn [bind]. rewrite F1, F2.
  split; [exists r; exact R1|exists r'; exact R2].
Qed.

Lemma implicit_legacy_sound {T} c0 t0 (L : legacy T) (S : syntax T) :
  t0 < 2 ^ 32 -> class_free L -> legacy_sound L S -> syntax_ok S ->
  legacy_sound (implicit_legacy c0 t0 L) (implicit_syntax c0 t0 S).
Proof.
  intros Ht0 Hf HL Hs.
  assert (G : forall v cb c k t, sx_ident (implicit_syntax c0 t0 S) v = (c, k, t) -> sx_content S v cb ->
    blen cb < 2 ^ 24 -> c = c0 /\ t = t0 /\ forall rt rh,
      let a := mk_any (with_tag (mk_header c k t (Definite (blen cb)) rt rh) (lg_tag L)) cb in
      lg_try_from L a = Ok v /\ lg_check L a = Ok tt).
  { intros v cb c k t E C Hn. cbn in E. destruct (sx_ident S v) as [[c1 k1] t1] eqn:E1.
    cbn [fst snd] in E. injection E as <- <- <-. split; [reflexivity|]. split; [reflexivity|]. intros rt rh a.
    destruct HL as (_ & H & _). destruct (H _ _ _ _ _ E1 C Hn) as [Et C1]. specialize (C1 rt rh).
    cbv zeta in C1. rewrite <- Et in C1.
    destruct (Hf (with_tag (mk_header c0 k1 t0 (Definite (blen cb)) rt rh) (lg_tag L))
                 (mk_header c1 k1 (lg_tag L) (Definite (blen cb)) rt rh) cb eq_refl eq_refl eq_refl) as [F1 F2].
    subst a. rewrite F1, F2. exact C1. }
  split; [reflexivity|]. split.
  - intros v cb c k t E C Hn. destruct (G v cb c k t E C Hn) as (-> & -> & R). split; [reflexivity|].
    intros rt rh h. destruct (R rt rh) as [R1 R2].
    cbn [implicit_legacy lg_try_from lg_check]. unfold implicit_try_from, implicit_check.
    cbn [any_header any_data]. subst h. rewrite assert_tag_same, check_class_same.
    cbn [bind h_length length_assert_definite]. split; assumption.
  - apply legacy_from_object; [apply implicit_syntax_ok; assumption|].
    intros v cb c k t E C Hn enc x Ed (rt & rh & EA). destruct (G v cb c k t E C Hn) as (-> & -> & R).
    destruct (R rt rh) as [R1 R2]. cbn [implicit_legacy lg_from_der]. unfold implicit_from_der. rewrite EA. cbn [bind].
    unfold implicit_try_from. cbn [any_header any_data]. rewrite assert_tag_same, check_class_same. cbn [bind].
    rewrite R1. reflexivity.
Qed.

Lemma implicit_writes c k t w c1 k1 t1 cb : writes w c1 k1 t1 cb -> writes (implicit_tober c k t w) c k t cb.
Proof. intros (_ & H2 & H3). split; [reflexivity|]. split; assumption. Qed.

Lemma implicit_writer_sound {T} c0 t0 (W : writer T) (S : syntax T) :
  form_sound W S -> writer_sound W S -> writer_sound (implicit_writer c0 t0 W) (implicit_syntax c0 t0 S).
Proof.
  intros Hk [HW1 HW2]. split.
  - intros v cb c k t E C Hn. cbn in E, C. destruct (sx_ident S v) as [[c1 k1] t1] eqn:E1.
    cbn [fst snd] in E. injection E as <- <- <-.
    destruct (HW1 _ _ _ _ _ E1 C Hn) as (W1 & W2 & T1 & T2 & T3).
    cbn [implicit_writer wr_ber wr_der wr_tag]. rewrite (Hk _ _ _ _ E1).
    split; [eapply implicit_writes; eassumption|]. split; [eapply implicit_writes; eassumption|]. auto.
  - intros v n Hv L Hn. exact (HW2 v n Hv L Hn).
Qed.

(** Which constructors are header free, class free, and report their form. *)
Lemma vec_header_free {T} (P : parser T) : header_free (vec_parser P).
Proof. intros h h' d E _. cbn. unfold vec_ber_content, vec_der_content, assert_constructed. rewrite E. auto. Qed.

Lemma array_header_free {T} n (P : parser T) : header_free (array_parser n P).
Proof.
  intros h h' d E _. cbn. unfold array_content, vec_ber_content, vec_der_content, assert_constructed.
  rewrite E. auto.
Qed.

Lemma setof_header_free {T} (P : parser T) : header_free (setof_parser P).
Proof. intros h h' d E _. cbn. unfold setof_ber_content, setof_der_content, assert_constructed. rewrite E. auto. Qed.

Lemma btreeset_header_free {T} cmp (P : parser T) : header_free (btreeset_parser cmp P).
Proof.
  intros h h' d E _. cbn. unfold btreeset_content, setof_ber_content, setof_der_content, assert_constructed.
  rewrite E. auto.
Qed.

Lemma vec_class_free {T} (L : legacy T) : class_free (vec_legacy L).
Proof.
  intros h h' d E1 E2 _. cbn [vec_legacy lg_try_from lg_check]. unfold vec_try_from, vec_check, items_check.
  cbn [any_header any_data]. unfold assert_tag, assert_constructed. rewrite E1, E2. auto.
Qed.

Lemma setof_class_free {T} (L : legacy T) : class_free (setof_legacy L).
Proof.
  intros h h' d E1 E2 _. cbn [setof_legacy lg_try_from lg_check]. unfold setof_try_from, setof_check, items_check.
  cbn [any_header any_data]. unfold assert_tag, assert_constructed. rewrite E1, E2. auto.
Qed.

Lemma btreeset_class_free {T} cmp (L : legacy T) : class_free (btreeset_legacy cmp L).
Proof.
  intros h h' d E1 E2 _. cbn [btreeset_legacy lg_try_from lg_check].
  unfold btreeset_try_from, setof_try_from, setof_check, items_check.
  cbn [any_header any_data]. unfold assert_tag, assert_constructed. rewrite E1, E2. auto.
Qed.

Lemma const_form_sound {T} (W : writer T) (S : syntax T) c k t :
  (forall v, sx_ident S v = (c, k, t)) -> (forall v, wr_constructed W v = k) -> form_sound W S.
Proof. intros H1 H2 v c' k' t' E. rewrite H1 in E. injection E as _ <- _. apply H2. Qed.

(** *** Tuples *)

Definition fields_sound {T} (ber der : fields T) (C : T -> bytes -> Prop) : Prop :=
  forall v bs x, C v bs -> blen bs < 2 ^ 24 -> bytes_ok x ->
    bytes_ok bs /\ ber (bs ++ x) = Ok (x, v) /\ der (bs ++ x) = Ok (x, v).

Lemma no_field_sound : fields_sound no_field no_field no_component.
Proof. intros [] bs x -> _ _. split; [constructor|]. auto. Qed.

Lemma field_sound {A B} (P : parser A) (S : syntax A) (ber der : fields B) C :
  parser_sound P S -> syntax_ok S -> fields_sound ber der C ->
  fields_sound (field (ps_parse_ber P) ber) (field (ps_parse_der P) der) (component S C).
Proof.
  intros HP Hs HF [a b] bs x (e & r & E & Cr & ->) Hn Hx. rewrite blen_app in Hn.
  destruct (HF b r x Cr) as (Hr & F1 & F2); [lia|exact Hx|].
  destruct (parser_reads P S a e (r ++ x) HP Hs E) as [H1 H2]; [lia|apply bytes_ok_app; auto|].
  split; [apply bytes_ok_app; split; [eapply encodes_ok; eassumption|exact Hr]|].
  unfold field. rewrite <- app_assoc, H1, H2. cbn [bind]. rewrite F1, F2. auto.
Qed.

Lemma tuple_parser_sound {T} (ber der : fields T) C :
  fields_sound ber der C -> parser_sound (tuple_parser ber der) (sequence_syntax C).
Proof.
  intros HF. split; [apply default_regular|].
  intros v cb c k t E Hc Hn. injection E as <- <- <-. split; [reflexivity|]. intros rt rh h.
  destruct (HF v cb [] Hc Hn) as (_ & F1 & F2); [constructor|]. rewrite app_nil_r in *.
  split; exists []; assumption.
Qed.
