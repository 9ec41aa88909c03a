(** Parsing and encoding with a codec, in terms of headers and contents. *)
From Verif Require Import Base MHeader MEncode SHeader PArith PHeader PEncode MBer SBer PBer PIter MInt.

(** The header parsed for given octets. *)
Definition hdr (c : class) (k : bool) (t : N) (l : blength) (idb lenb : bytes) : header :=
  mk_header c k (t mod 2 ^ 32) l (Some idb) (Some (idb ++ lenb)).

Lemma parse_ber_iff {T} (p : codec T) i rem v :
  bytes_ok i ->
  (parse_ber p i = Ok (rem, v) <->
   exists c k t l idb lenb bs r,
     readable_header c k t l idb lenb /\ i = idb ++ lenb ++ bs ++ rem /\ impl_contents 50 l bs
     /\ accept_tag p (t mod 2 ^ 32) = true
     /\ ber_content p (hdr c k t l idb lenb) (content_of l bs) = Ok (r, v)).
Proof.
  intros Hi. split.
  - intros P. unfold parse_ber in P. apply bind_ok in P as ([r h] & P1 & P).
    destruct (accept_tag p (h_tag h)) eqn:A; [|discriminate].
    apply bind_ok in P as ([r2 d] & P2 & P). apply bind_ok in P as ([r3 x] & P3 & P).
    injection P as -> ->.
    assert (Q : parse_ber_any i = Ok (rem, mk_any h d)).
    { unfold parse_ber_any. rewrite P1. cbn [bind]. rewrite P2. reflexivity. }
    apply parse_ber_any_ok in Q as (c & k & t & l & idb & lenb & bs & HR & -> & Hc & Ea); [|exact Hi].
    injection Ea as -> ->. exists c, k, t, l, idb, lenb, bs, r3. repeat split; try assumption; apply HR.
  - intros (c & k & t & l & idb & lenb & bs & r & HR & -> & Hc & A & P).
    assert (Q : parse_ber_any (idb ++ lenb ++ bs ++ rem)
                = Ok (rem, mk_any (hdr c k t l idb lenb) (content_of l bs))).
    { apply parse_ber_any_ok; [exact Hi|]. exists c, k, t, l, idb, lenb, bs.
      repeat split; try assumption; apply HR. }
    unfold parse_ber_any in Q. apply bind_ok in Q as ([r1 h] & Q1 & Q).
    apply bind_ok in Q as ([r2 d] & Q2 & Q). injection Q as -> -> ->.
    unfold parse_ber. rewrite Q1. cbn [bind].
    change (h_tag (hdr c k t l idb lenb)) with (t mod 2 ^ 32). rewrite A, Q2. cbn [bind].
    rewrite P. reflexivity.
Qed.

Lemma from_ber_iff {T} (p : codec T) i rem v :
  bytes_ok i ->
  (from_ber p i = Ok (rem, v) <->
   exists c k t l idb lenb bs,
     readable_header c k t l idb lenb /\ i = idb ++ lenb ++ bs ++ rem /\ impl_contents 50 l bs
     /\ try_from_any p (mk_any (hdr c k t l idb lenb) (content_of l bs)) = Ok v).
Proof.
  intros Hi. unfold from_ber. rewrite bind_ok. split.
  - intros ([r a] & P1 & P). apply bind_ok in P as (x & P2 & P). injection P as -> ->.
    apply parse_ber_any_ok in P1 as (c & k & t & l & idb & lenb & bs & HR & -> & Hc & ->); [|exact Hi].
    exists c, k, t, l, idb, lenb, bs. repeat split; try assumption; apply HR.
  - intros (c & k & t & l & idb & lenb & bs & HR & -> & Hc & P).
    exists (rem, mk_any (hdr c k t l idb lenb) (content_of l bs)). split.
    + apply parse_ber_any_ok; [exact Hi|]. exists c, k, t, l, idb, lenb, bs.
      repeat split; try assumption; apply HR.
    + rewrite P. reflexivity.
Qed.

Lemma parse_der_iff {T} (p : codec T) i rem v :
  bytes_ok i ->
  (parse_der p i = Ok (rem, v) <->
   exists c k t idb lenb bs r,
     readable_header c k t (Definite (blen bs)) idb lenb /\ i = idb ++ lenb ++ bs ++ rem
     /\ accept_tag p (t mod 2 ^ 32) = true
     /\ der_content p (hdr c k t (Definite (blen bs)) idb lenb) bs = Ok (r, v)).
Proof.
  intros Hi. unfold parse_der, header_parse_der. split.
  - intros P. apply bind_ok in P as ([r h] & P1 & P). apply bind_ok in P1 as ([r1 h1] & P1 & P1').
    destruct (is_definite (h_length h1)) eqn:D; [|discriminate]. injection P1' as -> ->.
    apply parse_header_ok in P1 as (c & k & t & l & idb & lenb & HO & HL & -> & ->); [|exact Hi].
    cbn [h_length h_tag] in *. destruct l as [n|]; [|discriminate].
    destruct (accept_tag p (t mod 2 ^ 32)) eqn:A; [|discriminate].
    apply bind_ok in P as ([r2 d] & P2 & P). apply bind_ok in P as ([r3 x] & P3 & P). injection P as -> ->.
    apply take_ok in P2 as [-> <-]. exists c, k, t, idb, lenb, d, r3.
    repeat split; try assumption; try apply HO; apply HL.
  - intros (c & k & t & idb & lenb & bs & r & HR & -> & A & P). rewrite bind_ok.
    exists (bs ++ rem, hdr c k t (Definite (blen bs)) idb lenb). split.
    + apply bind_ok. exists (bs ++ rem, hdr c k t (Definite (blen bs)) idb lenb). split; [|reflexivity].
      apply parse_header_ok; [exact Hi|]. exists c, k, t, (Definite (blen bs)), idb, lenb.
      repeat split; try assumption; apply HR.
    + unfold hdr in *. cbn [h_length h_tag]. rewrite A. rewrite take_app by reflexivity. cbn [bind].
      rewrite P. reflexivity.
Qed.

Lemma from_der_iff {T} (p : codec T) i rem v :
  bytes_ok i ->
  (from_der p i = Ok (rem, v) <->
   exists c k t idb lenb bs,
     readable_header c k t (Definite (blen bs)) idb lenb /\ i = idb ++ lenb ++ bs ++ rem
     /\ check_constraints p (mk_any (hdr c k t (Definite (blen bs)) idb lenb) bs) = Ok tt
     /\ try_from_any p (mk_any (hdr c k t (Definite (blen bs)) idb lenb) bs) = Ok v).
Proof.
  intros Hi. unfold from_der. rewrite bind_ok. split.
  - intros ([r a] & P1 & P). apply bind_ok in P as ([] & P2 & P). apply bind_ok in P as (x & P3 & P).
    injection P as -> ->.
    apply parse_der_any_ok in P1 as (c & k & t & n & idb & lenb & bs & HR & -> & <- & ->); [|exact Hi].
    exists c, k, t, idb, lenb, bs. repeat split; try assumption; apply HR.
  - intros (c & k & t & idb & lenb & bs & HR & -> & P1 & P2).
    exists (rem, mk_any (hdr c k t (Definite (blen bs)) idb lenb) bs). split.
    + apply parse_der_any_ok; [exact Hi|]. exists c, k, t, (blen bs), idb, lenb, bs.
      repeat split; try assumption; apply HR.
    + rewrite P1. cbn [bind]. rewrite P2. reflexivity.
Qed.

(** A content [cb] under an identifier, read back as [v]. *)
Definition ber_reads {T} (p : codec T) (c : class) (k : bool) (t : N) (cb : bytes) (v : T) : Prop :=
  accept_tag p t = true /\ forall rt rh, let h := mk_header c k t (Definite (blen cb)) rt rh in
    (exists r, ber_content p h cb = Ok (r, v)) /\ try_from_any p (mk_any h cb) = Ok v.
Definition der_reads {T} (p : codec T) (c : class) (k : bool) (t : N) (cb : bytes) (v : T) : Prop :=
  accept_tag p t = true /\ forall rt rh, let h := mk_header c k t (Definite (blen cb)) rt rh in
    (exists r, der_content p h cb = Ok (r, v)) /\ try_from_any p (mk_any h cb) = Ok v
    /\ check_constraints p (mk_any h cb) = Ok tt.

(** A value written with content [cb] under identifier [(c, k, t)] and a definite length. *)
Definition writes (w : tober) (c : class) (k : bool) (t : N) (cb : bytes) : Prop :=
  written_ident (tb_encoder w) (tb_class w) (tb_constructed w) (tb_tag w) = (c, k, t)
  /\ tb_content_len w = Definite (blen cb) /\ tb_write_content w = Ok (cb, blen cb).

Lemma readable_written c k t n idb lenb :
  t < 2 ^ 32 -> n < 2 ^ 64 -> blen idb <= 6 -> ident_shortest c k t idb ->
  length_shortest (Definite n) lenb -> readable_header c k t (Definite n) idb lenb.
Proof.
  intros Ht Hn H6 S1 S2. apply ident_shortest_octets in S1. apply length_shortest_octets in S2.
  split; split; try assumption.
  - split; [exact S2|discriminate].
  - intros m E. injection E as <-. exact Hn.
Qed.

Lemma encode_writes w c k t cb :
  writes w c k t cb -> t < 2 ^ 32 -> blen cb < 2 ^ 64 ->
  exists idb lenb,
    encode w = Ok (idb ++ lenb ++ cb, blen (idb ++ lenb ++ cb))
    /\ blen idb <= 6 /\ ident_shortest c k t idb /\ length_shortest (Definite (blen cb)) lenb
    /\ readable_header c k t (Definite (blen cb)) idb lenb.
Proof.
  intros (W & L & C) Ht Hn.
  destruct (write_header_ok w c k t W) as (idb & lenb & E & H6 & S1 & S2).
  { rewrite L. split; [exact Ht|]. intros n En. injection En as <-. exact Hn. }
  rewrite L in S2. exists idb, lenb. unfold encode. rewrite E, C. cbn [wseq bind].
  rewrite <- app_assoc. rewrite <- (blen_app (idb ++ lenb) cb), <- app_assoc.
  repeat split; try assumption; eapply readable_written; eassumption.
Qed.

Lemma readable_ok c k t l idb lenb : readable_header c k t l idb lenb -> bytes_ok (idb ++ lenb).
Proof.
  intros [(H1 & H2 & _) _]. apply bytes_ok_app.
  split; [eapply ident_octets_ok; eassumption|eapply length_octets_ok; eassumption].
Qed.

Lemma roundtrip_ber {T} (p : codec T) w c k t cb v :
  writes w c k t cb -> ber_reads p c k t cb v -> t < 2 ^ 32 -> blen cb < 2 ^ 64 -> bytes_ok cb ->
  exists enc, to_vec w = Ok enc /\ bytes_ok enc /\ forall x, bytes_ok x ->
    parse_ber p (enc ++ x) = Ok (x, v) /\ from_ber p (enc ++ x) = Ok (x, v).
Proof.
  intros W [A R] Ht Hn Hcb. destruct (encode_writes w c k t cb W Ht Hn) as (idb & lenb & E & _ & _ & _ & HR).
  pose proof (readable_ok _ _ _ _ _ _ HR) as Hok.
  exists (idb ++ lenb ++ cb). unfold to_vec. rewrite E. cbn [bind]. split; [reflexivity|].
  assert (Henc : bytes_ok (idb ++ lenb ++ cb)).
  { rewrite app_assoc. apply bytes_ok_app. split; assumption. }
  split; [exact Henc|]. intros x Hx.
  assert (Hi : bytes_ok ((idb ++ lenb ++ cb) ++ x)) by (apply bytes_ok_app; split; assumption).
  pose proof (R (Some idb) (Some (idb ++ lenb))) as Rh. cbv zeta in Rh. destruct Rh as [[r R1] R2].
  assert (Em : t mod 2 ^ 32 = t) by (apply N.mod_small; exact Ht).
  split.
  - apply parse_ber_iff; [exact Hi|]. exists c, k, t, (Definite (blen cb)), idb, lenb, cb, r.
    split; [exact HR|]. split; [rewrite <- !app_assoc; reflexivity|]. split; [constructor; reflexivity|].
    unfold hdr. rewrite Em. split; assumption.
  - apply from_ber_iff; [exact Hi|]. exists c, k, t, (Definite (blen cb)), idb, lenb, cb.
    split; [exact HR|]. split; [rewrite <- !app_assoc; reflexivity|]. split; [constructor; reflexivity|].
    unfold hdr. rewrite Em. assumption.
Qed.

Lemma roundtrip_der {T} (p : codec T) w c k t cb v :
  writes w c k t cb -> der_reads p c k t cb v -> t < 2 ^ 32 -> blen cb < 2 ^ 64 -> bytes_ok cb ->
  exists enc, to_vec w = Ok enc /\ bytes_ok enc /\ forall x, bytes_ok x ->
    parse_der p (enc ++ x) = Ok (x, v) /\ from_der p (enc ++ x) = Ok (x, v).
Proof.
  intros W [A R] Ht Hn Hcb. destruct (encode_writes w c k t cb W Ht Hn) as (idb & lenb & E & _ & _ & _ & HR).
  pose proof (readable_ok _ _ _ _ _ _ HR) as Hok.
  exists (idb ++ lenb ++ cb). unfold to_vec. rewrite E. cbn [bind]. split; [reflexivity|].
  assert (Henc : bytes_ok (idb ++ lenb ++ cb)).
  { rewrite app_assoc. apply bytes_ok_app. split; assumption. }
  split; [exact Henc|]. intros x Hx.
  assert (Hi : bytes_ok ((idb ++ lenb ++ cb) ++ x)) by (apply bytes_ok_app; split; assumption).
  pose proof (R (Some idb) (Some (idb ++ lenb))) as Rh. cbv zeta in Rh. destruct Rh as ([r R1] & R2 & R3).
  assert (Em : t mod 2 ^ 32 = t) by (apply N.mod_small; exact Ht).
  split.
  - apply parse_der_iff; [exact Hi|]. exists c, k, t, idb, lenb, cb, r.
    split; [exact HR|]. split; [rewrite <- !app_assoc; reflexivity|].
    unfold hdr. rewrite Em. split; assumption.
  - apply from_der_iff; [exact Hi|]. exists c, k, t, idb, lenb, cb.
    split; [exact HR|]. split; [rewrite <- !app_assoc; reflexivity|].
    unfold hdr. rewrite Em. split; assumption.
Qed.

Lemma default_try_from_ok {T} (accept : N -> bool) content h d (x : T) :
  default_try_from accept content (mk_any h d) = Ok x <->
  accept (h_tag h) = true /\ exists r, content h d = Ok (r, x).
Proof.
  unfold default_try_from. cbn [any_header any_data]. destruct (accept (h_tag h)).
  - destruct (content h d) as [[r y]|e|n|]; cbn [close bind]; split; try discriminate.
    + intros E. injection E as ->. split; [reflexivity|]. exists r. reflexivity.
    + intros (_ & r' & E). injection E as -> ->. reflexivity.
    + intros (_ & r' & E). discriminate.
    + intros (_ & r' & E). discriminate.
    + intros (_ & r' & E). discriminate.
  - split; [discriminate|]. intros [E _]. discriminate.
Qed.

Lemma is_tag_iff t x : is_tag t x = true <-> x = t.
Proof. apply N.eqb_eq. Qed.

Lemma app_inj_pre {A} (a b c d : list A) : length a = length c -> a ++ b = c ++ d -> a = c /\ b = d.
Proof.
  revert c. induction a as [|x a IH]; intros [|y c] L E; cbn in *; try discriminate; [auto|].
  injection E as -> E. injection L as L. destruct (IH c L E) as [-> ->]. auto.
Qed.

(** Codecs whose [TryFrom<Any>] comes from [impl_tryfrom_any!]. *)
Definition plain {T} (p : codec T) : Prop :=
  forall a, try_from_any p a = default_try_from (accept_tag p) (ber_content p) a.

Lemma from_ber_parse_ber {T} (p : codec T) i rem v :
  plain p -> bytes_ok i -> (from_ber p i = Ok (rem, v) <-> parse_ber p i = Ok (rem, v)).
Proof.
  intros Hp Hi. rewrite from_ber_iff, parse_ber_iff by exact Hi. split.
  - intros (c & k & t & l & idb & lenb & bs & HR & E & Hc & P). rewrite Hp in P.
    apply default_try_from_ok in P as [A [r P]].
    exists c, k, t, l, idb, lenb, bs, r. auto.
  - intros (c & k & t & l & idb & lenb & bs & r & HR & E & Hc & A & P).
    exists c, k, t, l, idb, lenb, bs. repeat split; try assumption; try apply HR.
    rewrite Hp. apply default_try_from_ok. split; [exact A|]. exists r. exact P.
Qed.

(** Codecs whose contents are primitive. *)
Lemma parse_ber_prim {T} (p : codec T) i rem v :
  (forall h d r v, ber_content p h d = Ok (r, v) -> h_constructed h = false) -> bytes_ok i ->
  (parse_ber p i = Ok (rem, v) <->
   exists c t idb lenb bs r,
     readable_header c false t (Definite (blen bs)) idb lenb /\ i = idb ++ lenb ++ bs ++ rem
     /\ accept_tag p (t mod 2 ^ 32) = true
     /\ ber_content p (hdr c false t (Definite (blen bs)) idb lenb) bs = Ok (r, v)).
Proof.
  intros Hk Hi. rewrite parse_ber_iff by exact Hi. split.
  - intros (c & k & t & l & idb & lenb & bs & r & HR & E & Hc & A & P).
    pose proof (Hk _ _ _ _ P) as K. cbn in K. subst k.
    destruct l as [n|]; [|destruct HR as [(_ & _ & H) _]; discriminate (H eq_refl)].
    apply contents_definite_len in Hc. subst n. cbn [content_of] in P.
    exists c, t, idb, lenb, bs, r. auto.
  - intros (c & t & idb & lenb & bs & r & HR & E & A & P).
    exists c, false, t, (Definite (blen bs)), idb, lenb, bs, r. repeat split; try assumption; try apply HR.
    constructor. reflexivity.
Qed.

(** The form needed below: tag fixed, content described by a predicate. *)
Lemma parse_ber_prim_spec {T} (p : codec T) tag (P : bytes -> T -> Prop) i rem v :
  (forall x, accept_tag p x = is_tag tag x) ->
  (forall h d v, bytes_ok d -> h_length h = Definite (blen d) ->
     ((exists r, ber_content p h d = Ok (r, v)) <-> h_constructed h = false /\ P d v)) ->
  (forall h d r v, ber_content p h d = Ok (r, v) -> h_constructed h = false) -> bytes_ok i ->
  (parse_ber p i = Ok (rem, v) <->
   exists c content, starts_with_object c false tag content i rem /\ P content v).
Proof.
  intros Ha Hc Hk Hi. rewrite parse_ber_prim by assumption. split.
  - intros (c & t & idb & lenb & bs & r & HR & E & A & Q). rewrite Ha, is_tag_iff in A.
    assert (Hbs : bytes_ok bs).
    { rewrite E in Hi. apply bytes_ok_app in Hi as [_ Hi]. apply bytes_ok_app in Hi as [_ Hi].
      apply bytes_ok_app in Hi. apply Hi. }
    exists c, bs. split.
    + exists t, idb, lenb. auto.
    + apply (Hc (hdr c false t (Definite (blen bs)) idb lenb)); [exact Hbs|reflexivity|]. exists r. exact Q.
  - intros (c & bs & (t & idb & lenb & HR & A & E) & Q).
    assert (Hbs : bytes_ok bs).
    { rewrite E in Hi. apply bytes_ok_app in Hi as [_ Hi]. apply bytes_ok_app in Hi as [_ Hi].
      apply bytes_ok_app in Hi. apply Hi. }
    destruct (proj2 (Hc (hdr c false t (Definite (blen bs)) idb lenb) bs v Hbs eq_refl) (conj eq_refl Q)) as [r R].
    exists c, t, idb, lenb, bs, r. repeat split; try assumption; try apply HR.
    rewrite Ha, is_tag_iff. exact A.
Qed.

Lemma parse_der_spec {T} (p : codec T) tag (P : bool -> bytes -> T -> Prop) i rem v :
  (forall x, accept_tag p x = is_tag tag x) ->
  (forall h d v, bytes_ok d -> h_length h = Definite (blen d) ->
     ((exists r, der_content p h d = Ok (r, v)) <-> P (h_constructed h) d v)) ->
  bytes_ok i ->
  (parse_der p i = Ok (rem, v) <->
   exists c k content, starts_with_object c k tag content i rem /\ P k content v).
Proof.
  intros Ha Hc Hi. rewrite parse_der_iff by assumption. split.
  - intros (c & k & t & idb & lenb & bs & r & HR & E & A & Q). rewrite Ha, is_tag_iff in A.
    assert (Hbs : bytes_ok bs).
    { rewrite E in Hi. apply bytes_ok_app in Hi as [_ Hi]. apply bytes_ok_app in Hi as [_ Hi].
      apply bytes_ok_app in Hi. apply Hi. }
    exists c, k, bs. split.
    + exists t, idb, lenb. auto.
    + apply (Hc (hdr c k t (Definite (blen bs)) idb lenb)); [exact Hbs|reflexivity|]. exists r. exact Q.
  - intros (c & k & bs & (t & idb & lenb & HR & A & E) & Q).
    assert (Hbs : bytes_ok bs).
    { rewrite E in Hi. apply bytes_ok_app in Hi as [_ Hi]. apply bytes_ok_app in Hi as [_ Hi].
      apply bytes_ok_app in Hi. apply Hi. }
    destruct (proj2 (Hc (hdr c k t (Definite (blen bs)) idb lenb) bs v Hbs eq_refl) Q) as [r R].
    exists c, k, t, idb, lenb, bs, r. repeat split; try assumption; try apply HR.
    rewrite Ha, is_tag_iff. exact A.
Qed.

Lemma from_der_spec {T} (p : codec T) tag (P : bool -> bytes -> T -> Prop) i rem v :
  plain p -> (forall x, accept_tag p x = is_tag tag x) ->
  (forall h d v, bytes_ok d -> h_length h = Definite (blen d) ->
     ((check_constraints p (mk_any h d) = Ok tt /\ exists r, ber_content p h d = Ok (r, v))
      <-> P (h_constructed h) d v)) ->
  bytes_ok i ->
  (from_der p i = Ok (rem, v) <->
   exists c k content, starts_with_object c k tag content i rem /\ P k content v).
Proof.
  intros Hp Ha Hc Hi. rewrite from_der_iff by assumption. split.
  - intros (c & k & t & idb & lenb & bs & HR & E & C & Q). rewrite Hp in Q.
    apply default_try_from_ok in Q as [A Q]. rewrite Ha, is_tag_iff in A.
    assert (Hbs : bytes_ok bs).
    { rewrite E in Hi. apply bytes_ok_app in Hi as [_ Hi]. apply bytes_ok_app in Hi as [_ Hi].
      apply bytes_ok_app in Hi. apply Hi. }
    exists c, k, bs. split.
    + exists t, idb, lenb. auto.
    + apply (Hc (hdr c k t (Definite (blen bs)) idb lenb)); [exact Hbs|reflexivity|]. auto.
  - intros (c & k & bs & (t & idb & lenb & HR & A & E) & Q).
    assert (Hbs : bytes_ok bs).
    { rewrite E in Hi. apply bytes_ok_app in Hi as [_ Hi]. apply bytes_ok_app in Hi as [_ Hi].
      apply bytes_ok_app in Hi. apply Hi. }
    destruct (proj2 (Hc (hdr c k t (Definite (blen bs)) idb lenb) bs v Hbs eq_refl) Q) as [C R].
    exists c, k, t, idb, lenb, bs. repeat split; try assumption; try apply HR.
    rewrite Hp. apply default_try_from_ok. split; [|exact R].
    rewrite Ha, is_tag_iff. exact A.
Qed.
