(** Properties of headers: C01, C02, C03, C04, C38, C39. *)
From Verif Require Import Base MHeader MEncode SHeader PArith PHeader PEncode.

(** ** C01: round trip *)

Theorem C01_header_roundtrip (c : class) (k : bool) (t : N) (l : blength) (rest : bytes) :
  t < 2 ^ 32 -> (forall n, l = Definite n -> n < 2 ^ 64) -> (l = Indefinite -> k = true) ->
  bytes_ok rest ->
  exists w h, write_header (tober_header (header_new c k t l)) = Ok (w, blen w)
    /\ header_parse_ber (w ++ rest) = Ok (rest, h)
    /\ h_class h = c /\ h_constructed h = k /\ h_tag h = t /\ h_length h = l
    /\ (l <> Indefinite -> header_parse_der (w ++ rest) = Ok (rest, h)).
Proof.
  intros Ht Hl Hk Hr.
  destruct (header_write_ok c k t l (conj Ht Hl)) as (idb & lenb & E & L & S1 & S2).
  exists (idb ++ lenb), (mk_header c k t l (Some idb) (Some (idb ++ lenb))).
  pose proof (header_parse_write c k t l idb lenb rest (conj Ht Hl) Hk Hr L S1 S2) as P.
  split; [exact E|]. rewrite <- app_assoc. unfold header_parse_ber, header_parse_der. rewrite P.
  cbn [bind h_length is_definite]. repeat split. intros H. destruct l; [reflexivity|congruence].
Qed.
Print Assumptions C01_header_roundtrip.

Example C01_case :
  write_header (tober_header (header_new ContextSpecific true 0xdead (Definite 0xbeef)))
    = Ok ([0xbf; 0x83; 0xbd; 0x2d; 0x82; 0xbe; 0xef], 7)
  /\ exists h, header_parse_ber ([0xbf; 0x83; 0xbd; 0x2d; 0x82; 0xbe; 0xef] ++ [1; 2]) = Ok ([1; 2], h)
       /\ h_tag h = 0xdead /\ h_length h = Definite 0xbeef.
Proof. vm_compute. split; [reflexivity|]. eexists. repeat split. Qed.

(** ** C02: exact grammar *)

Theorem C02_header_grammar (i rem : bytes) (h : header) :
  bytes_ok i ->
  (header_parse_ber i = Ok (rem, h) <->
   exists c k t l idb lenb,
     header_octets c k t l idb lenb /\ within_limits l idb /\ i = idb ++ lenb ++ rem
     /\ h = mk_header c k (t mod 2 ^ 32) l (Some idb) (Some (idb ++ lenb))).
Proof. exact (parse_header_ok i rem h). Qed.
Print Assumptions C02_header_grammar.

Example C02_case :
  header_octets Private true 200 (Definite 300) [0xff; 0x81; 0x48] [0x83; 0; 1; 0x2c]
  /\ within_limits (Definite 300) [0xff; 0x81; 0x48]
  /\ header_parse_ber [0xff; 0x81; 0x48; 0x83; 0; 1; 0x2c; 9]
     = Ok ([9], mk_header Private true 200 (Definite 300) (Some [0xff; 0x81; 0x48])
                          (Some [0xff; 0x81; 0x48; 0x83; 0; 1; 0x2c])).
Proof.
  split; [split; [|split]|split].
  - apply (id_high Private true [1] 72); repeat constructor.
  - apply (lo_long [0; 1; 44]); [repeat constructor|vm_compute; split; discriminate].
  - discriminate.
  - split; [vm_compute; discriminate|]. intros n E. injection E as <-. reflexivity.
  - vm_compute. reflexivity.
Qed.

(** Two different tag numbers are reported as the same one: the tag is only kept modulo 2^32. *)
Theorem C02_tag_collision_refuted :
  exists i1 i2 t1 t2 h1 h2,
    ident_octets Universal false t1 i1 /\ ident_octets Universal false t2 i2 /\ t1 <> t2
    /\ header_parse_ber (i1 ++ [0]) = Ok ([], h1) /\ header_parse_ber (i2 ++ [0]) = Ok ([], h2)
    /\ h_tag h1 = h_tag h2.
Proof.
  exists [0x1f; 0x90; 0x80; 0x80; 0x80; 0x01], [0x01], (2 ^ 32 + 1), 1.
  eexists; eexists. split; [|split; [|split; [|split; [|split]]]].
  - apply (id_high Universal false [16; 0; 0; 0] 1); repeat constructor.
  - apply (id_low Universal false 1). reflexivity.
  - discriminate.
  - vm_compute. reflexivity.
  - vm_compute. reflexivity.
  - reflexivity.
Qed.
Print Assumptions C02_tag_collision_refuted.

(** ** C03: the encoder writes the unique shortest header *)

Theorem C03_header_shortest (c : class) (k : bool) (t : N) (l : blength) (w : bytes) (n : N)
    (idb lenb : bytes) :
  t < 2 ^ 32 -> (forall n, l = Definite n -> n < 2 ^ 64) ->
  write_header (tober_header (header_new c k t l)) = Ok (w, n) ->
  header_octets c k t l idb lenb ->
  n = blen w /\ blen w <= blen (idb ++ lenb) /\ (blen w = blen (idb ++ lenb) -> w = idb ++ lenb).
Proof.
  intros Ht Hl E (H1 & H2 & _).
  destruct (header_write_ok c k t l (conj Ht Hl)) as (idb' & lenb' & E' & _ & S1 & S2).
  rewrite E in E'. injection E' as -> ->.
  destruct (ident_shortest_min _ _ _ _ _ S1 H1) as [A1 A2].
  destruct (length_shortest_min _ _ _ S2 H2) as [B1 B2].
  rewrite !blen_app. split; [reflexivity|]. split; [lia|]. intros E2.
  rewrite A2, B2 by lia. reflexivity.
Qed.
Print Assumptions C03_header_shortest.

Example C03_case :
  write_header (tober_header (header_new Universal false 4 (Definite 5))) = Ok ([4; 5], 2)
  /\ header_octets Universal false 4 (Definite 5) [0x1f; 0x80; 0x04] [0x82; 0; 5].
Proof.
  split; [vm_compute; reflexivity|]. split; [|split].
  - apply (id_high Universal false [0] 4); repeat constructor.
  - apply (lo_long [0; 5]); [repeat constructor|vm_compute; split; discriminate].
  - discriminate.
Qed.

(** ** C04: announced sizes *)

(** For every definite content length below 2^64 the announced header length is the number of
    header bytes written if and only if the content is shorter than 2^24 bytes. *)
Theorem C04_announced_header_length (c : class) (k : bool) (t n : N) :
  t < 2 ^ 32 -> n < 2 ^ 64 ->
  exists w, write_header (tober_header (header_new c k t (Definite n))) = Ok (w, blen w)
    /\ (ber_header_length t (Definite n) = Ok (blen w) <-> n < 2 ^ 24)
    /\ (ber_total_length t (Definite n) = Definite (n + blen w) <-> n < 2 ^ 24).
Proof.
  intros Ht Hn.
  assert (F : header_fits t (Definite n))
    by (split; [exact Ht|]; intros m E; injection E as <-; exact Hn).
  destruct (header_write_ok c k t _ F) as (idb & lenb & E & L & S1 & S2).
  exists (idb ++ lenb). split; [exact E|].
  pose proof (ber_header_length_exact c k t n idb lenb Ht Hn S1 S2) as X.
  split.
  - destruct (ber_header_length t (Definite n)) as [m|e|m|] eqn:B.
    + cbn [unwrap_or0] in X. rewrite <- X. split; [intros Q; injection Q; auto|congruence].
    + cbn [unwrap_or0] in X. split; [discriminate|]. intros Q. apply X in Q.
      pose proof (ident_octets_len _ _ _ _ (ident_shortest_octets _ _ _ _ S1)).
      rewrite blen_app in Q. lia.
    + cbn [unwrap_or0] in X. split; [discriminate|]. intros Q. apply X in Q.
      pose proof (ident_octets_len _ _ _ _ (ident_shortest_octets _ _ _ _ S1)).
      rewrite blen_app in Q. lia.
    + cbn [unwrap_or0] in X. split; [discriminate|]. intros Q. apply X in Q.
      pose proof (ident_octets_len _ _ _ _ (ident_shortest_octets _ _ _ _ S1)).
      rewrite blen_app in Q. lia.
  - unfold ber_total_length. cbn [length_add]. rewrite <- X. split.
    + intros Q. injection Q as Q. lia.
    + intros ->. reflexivity.
Qed.
Print Assumptions C04_announced_header_length.

Example C04_case :
  write_header (tober_header (header_new ContextSpecific true 200 (Definite 0x123456)))
    = Ok ([0xbf; 0x81; 0x48; 0x83; 0x12; 0x34; 0x56], 7)
  /\ ber_header_length 200 (Definite 0x123456) = Ok 7.
Proof. vm_compute. split; reflexivity. Qed.

(** The announced length is wrong for a content of 16 MiB. *)
Theorem C04_announced_header_length_refuted :
  exists t n w, t < 2 ^ 32 /\ n < 2 ^ 64
    /\ write_header (tober_header (header_new Universal false t (Definite n))) = Ok (w, blen w)
    /\ ber_header_length t (Definite n) <> Ok (blen w).
Proof.
  exists 4, (2 ^ 24), [0x04; 0x84; 0x01; 0; 0; 0]. repeat split; vm_compute; try reflexivity; discriminate.
Qed.
Print Assumptions C04_announced_header_length_refuted.

(** ** C38: equality and hashing of headers *)

(** What [==] on headers compares, without reference to the code. *)
Definition header_same (a b : header) : Prop :=
  h_class a = h_class b /\ h_tag a = h_tag b /\ h_constructed a = h_constructed b
  /\ (forall x y, h_raw_tag a = Some x -> h_raw_tag b = Some y -> x = y).

Lemma header_eqb_same a b : header_eqb a b = true <-> header_same a b.
Proof.
  unfold header_eqb, header_same.
  assert (Hlen : (if is_null (h_length a) && is_null (h_length b)
                  then blength_eqb (h_length a) (h_length b) else true) = true).
  { destruct (h_length a) as [x|], (h_length b) as [y|]; cbn; try reflexivity.
    - destruct (N.eqb_spec x 0) as [->|]; cbn; [|reflexivity].
      destruct (N.eqb_spec y 0) as [->|]; reflexivity.
    - rewrite andb_false_r. reflexivity. }
  rewrite Hlen.
  assert (Hcl : class_eqb (h_class a) (h_class b) = true <-> h_class a = h_class b)
    by (destruct (h_class a), (h_class b); cbn; split; congruence || (intros H; discriminate) || auto).
  assert (Hraw : (if xor_is_none (h_raw_tag a) (h_raw_tag b)
                  then opt_bytes_eqb (h_raw_tag a) (h_raw_tag b) else true) = true
                 <-> forall x y, h_raw_tag a = Some x -> h_raw_tag b = Some y -> x = y).
  { destruct (h_raw_tag a) as [x|], (h_raw_tag b) as [y|]; cbn.
    - unfold bytes_eqb. destruct (list_eq_dec N.eq_dec x y) as [->|Hn].
      + split; [intros _ u v E1 E2; congruence|reflexivity].
      + split; [discriminate|]. intros H. exfalso. apply Hn. apply H; reflexivity.
    - split; [discriminate|reflexivity].
    - split; [discriminate|reflexivity].
    - split; [discriminate|reflexivity]. }
  rewrite !andb_true_iff, Hcl, Hraw, N.eqb_eq, Bool.eqb_true_iff. tauto.
Qed.

(** [==] compares class, tag number, form and, when both are present, raw tag octets; it ignores the
    length.  It is reflexive and symmetric, and transitive through any header with raw tag octets. *)
Theorem C38_header_eq_partial :
  (forall a b, header_eqb a b = true <-> header_same a b)
  /\ (forall a, header_eqb a a = true)
  /\ (forall a b, header_eqb a b = header_eqb b a)
  /\ (forall a b c, h_raw_tag b <> None ->
        header_eqb a b = true -> header_eqb b c = true -> header_eqb a c = true)
  /\ (forall a b, header_hash_input a = header_hash_input b <->
        header_same a b /\ h_length a = h_length b
        /\ (h_raw_tag a = None <-> h_raw_tag b = None)).
Proof.
  split; [exact header_eqb_same|]. split; [|split; [|split]].
  - intros a. apply header_eqb_same. repeat split. intros x y E1 E2. congruence.
  - intros a b. apply Bool.eq_true_iff_eq. rewrite !header_eqb_same. unfold header_same.
    split; intros (H1 & H2 & H3 & H4); repeat split; try congruence; intros x y E1 E2;
      symmetry; eapply H4; eassumption.
  - intros a b c Hb H1 H2. apply header_eqb_same in H1, H2. apply header_eqb_same.
    destruct H1 as (A1 & A2 & A3 & A4), H2 as (B1 & B2 & B3 & B4).
    repeat split; try congruence. intros x y E1 E2.
    destruct (h_raw_tag b) as [z|]; [|congruence].
    rewrite (A4 x z), (B4 z y); auto.
  - intros a b. unfold header_hash_input, header_same. split.
    + intros E. injection E as E1 E2 E3 E4 E5. repeat split; try congruence.
    + intros ((H1 & H2 & H3 & H4) & H5 & H6). rewrite H1, H2, H3, H5. f_equal.
      destruct (h_raw_tag a) as [x|], (h_raw_tag b) as [y|].
      * f_equal. apply H4; reflexivity.
      * destruct H6 as [_ H6]. discriminate (H6 eq_refl).
      * destruct H6 as [H6 _]. discriminate (H6 eq_refl).
      * reflexivity.
Qed.
Print Assumptions C38_header_eq_partial.

(** A header built without raw tag, and two that were read. *)
Example C38_case :
  let a := mk_header Universal false 2 (Definite 1) None None in
  let b := mk_header Universal false 2 (Definite 3) (Some [0x1f; 2]) None in
  let c := mk_header Universal false 2 (Definite 1) (Some [2]) None in
  header_same c c /\ h_raw_tag c <> None /\ header_eqb a c = true /\ header_eqb c a = true /\ header_eqb b c = false.
Proof. cbv zeta. split; [apply C38_header_eq_partial; vm_compute; reflexivity|]. split; [discriminate|]. vm_compute. repeat split. Qed.

(** [==] is not transitive, and equal headers can be hashed differently. *)
Theorem C38_header_eq_refuted :
  (exists a b c, header_eqb a b = true /\ header_eqb b c = true /\ header_eqb a c = false)
  /\ (exists i1 i2 h1 h2, header_parse_ber i1 = Ok ([], h1) /\ header_parse_ber i2 = Ok ([], h2)
        /\ header_eqb h1 h2 = true /\ header_hash_input h1 <> header_hash_input h2).
Proof.
  split.
  - exists (mk_header Universal false 4 (Definite 1) (Some [0x04]) None),
           (header_new Universal false 4 (Definite 1)),
           (mk_header Universal false 4 (Definite 1) (Some [0x1f; 0x04]) None).
    vm_compute. repeat split.
  - exists [4; 0], [4; 1]. eexists; eexists. split; [vm_compute; reflexivity|].
    split; [vm_compute; reflexivity|]. split; [vm_compute; reflexivity|]. intros E. discriminate.
Qed.
Print Assumptions C38_header_eq_refuted.

(** ** C39: header octets accepted in DER *)

(** The DER header parser accepts exactly the BER headers with a definite length, whatever the
    number of octets used; re-encoding an accepted header never makes it longer. *)
Theorem C39_der_header_partial (i rem : bytes) (h : header) :
  bytes_ok i ->
  (header_parse_der i = Ok (rem, h) <-> header_parse_ber i = Ok (rem, h) /\ h_length h <> Indefinite)
  /\ (header_parse_der i = Ok (rem, h) ->
      exists w, write_header (tober_header h) = Ok (w, blen w) /\ blen w + blen rem <= blen i
                /\ (blen w + blen rem = blen i -> h_tag h < 31 -> i = w ++ rem)).
Proof.
  intros Hok.
  assert (A : header_parse_der i = Ok (rem, h) <-> header_parse_ber i = Ok (rem, h) /\ h_length h <> Indefinite).
  { unfold header_parse_der, header_parse_ber. rewrite bind_ok. split.
    - intros ([rem' h'] & E & F). destruct (h_length h') eqn:L; cbn in F; [|discriminate].
      injection F as <- <-. split; [exact E|congruence].
    - intros [E N]. exists (rem, h). split; [exact E|]. destruct (h_length h); [reflexivity|congruence]. }
  split; [exact A|]. intros H. apply A in H as [H Hn].
  apply parse_header_ok in H as (c & k & t & l & idb & lenb & (O1 & O2 & O3) & (L1 & L2) & -> & ->);
    [|exact Hok].
  cbn [h_length h_tag] in *.
  assert (F : header_fits (t mod 2 ^ 32) l) by (split; [apply N.mod_lt; discriminate|exact L2]).
  destruct (header_write_ok c k (t mod 2 ^ 32) l F) as (idb' & lenb' & E & _ & S1 & S2).
  exists (idb' ++ lenb'). split; [exact E|].
  destruct (length_shortest_min _ _ _ S2 O2) as [B1 B2].
  assert (Hid : blen idb' <= blen idb).
  { destruct (N.lt_ge_cases t (2 ^ 32)) as [Ht|Ht].
    - rewrite N.mod_small in S1 by exact Ht. apply (ident_shortest_min _ _ _ _ _ S1 O1).
    - destruct (write_tag_generic_ok c k (t mod 2 ^ 32)) as (idb2 & E2 & S3 & L3);
        [apply N.mod_lt; discriminate|].
      assert (idb2 = idb') as ->.
      { apply (ident_shortest_min _ _ _ _ _ S3 (ident_shortest_octets _ _ _ _ S1)).
        pose proof (ident_shortest_min _ _ _ _ _ S3 (ident_shortest_octets _ _ _ _ S1)).
        pose proof (ident_shortest_min _ _ _ _ _ S1 (ident_shortest_octets _ _ _ _ S3)). lia. }
      inversion O1 as [|c0 k0 ds d Hds Hd]; subst.
      + change (2 ^ 32) with 4294967296 in Ht. lia.
      + rewrite blen_cons, blen_app, blen_map, blen_one in *.
        pose proof (value_be_bound 128 (ds ++ [d]) ltac:(lia)) as B.
        specialize (B ltac:(apply Forall_app; split; [exact Hds|constructor; [exact Hd|constructor]])).
        assert (4 < blen (ds ++ [d])).
        { apply (N.pow_lt_mono_r_iff 128); [lia|]. fold (blen (ds ++ [d])) in B.
          change (128 ^ 4) with 268435456. change (2 ^ 32) with 4294967296 in Ht. lia. }
        rewrite blen_app, blen_one in *. lia. }
  rewrite !blen_app. split; [lia|]. intros E2 Ht.
  assert (idb' = idb /\ lenb' = lenb) as [-> ->]; [|rewrite app_assoc; reflexivity].
  split; [|apply B2; lia].
  assert (blen idb' = blen idb) as E3 by lia.
  inversion S1 as [c0 k0 t0 Ht0 Ec Ek Et Ei|c0 k0 ds d Hds Hd Hnn Hv]; subst; [|lia].
  rewrite blen_one in E3. inversion O1 as [c0 k0 t0 Ht1|c0 k0 ds d Hds Hd]; subst.
  - f_equal. f_equal. apply N.mod_small. change (2 ^ 32) with 4294967296. lia.
  - rewrite blen_cons, blen_app, blen_one in E3. lia.
Qed.
Print Assumptions C39_der_header_partial.

(** A length in two octets is read and written in one. *)
Example C39_case :
  bytes_ok [2; 0x81; 1; 9] /\ header_parse_der [2; 0x81; 1; 9] = Ok ([9], mk_header Universal false 2 (Definite 1) (Some [2]) (Some [2; 0x81; 1]))
  /\ write_header (tober_header (mk_header Universal false 2 (Definite 1) (Some [2]) (Some [2; 0x81; 1]))) = Ok ([2; 1], 2)
  /\ header_parse_der [0x30; 0x80] = Err (EDerConstraintFailed DCIndefiniteLength).
Proof. split; [repeat constructor|]. vm_compute. repeat split. Qed.

(** A DER header with a redundant length octet and one with a redundant tag octet are accepted. *)
Theorem C39_der_nonminimal_refuted :
  (exists h, header_parse_der [0x02; 0x81; 0x01; 0x05] = Ok ([0x05], h)
     /\ write_header (tober_header h) = Ok ([0x02; 0x01], 2))
  /\ (exists h, header_parse_der [0x1f; 0x80; 0x02; 0x01; 0x05] = Ok ([0x05], h)
     /\ write_header (tober_header h) = Ok ([0x02; 0x01], 2)).
Proof. split; eexists; vm_compute; split; reflexivity. Qed.
Print Assumptions C39_der_nonminimal_refuted.
