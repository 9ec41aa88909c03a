(** Proofs about the header encoder. *)
From Verif Require Import Base MHeader MEncode SHeader PArith PHeader.

(** ** Digit strings *)

(** No leading zero digit. *)
Definition normal (ds : list N) : Prop := match ds with [] => True | d :: _ => d <> 0 end.

Lemma normal_lower b ds :
  0 < b -> ds <> [] -> normal ds -> b ^ (blen ds - 1) <= value_be b ds.
Proof.
  intros Hb Hne Hn. destruct ds as [|d ds]; [congruence|]. cbn in Hn.
  rewrite value_be_cons, blen_cons. replace (1 + blen ds - 1) with (N.of_nat (length ds))
    by (unfold blen; lia).
  nia.
Qed.

Lemma normal_shortest b xs ys :
  1 < b -> normal xs -> Forall (fun x => x < b) ys -> value_be b xs = value_be b ys ->
  blen xs <= blen ys.
Proof.
  intros Hb Hn Hy E. destruct xs as [|x xs]; [rewrite blen_nil; lia|].
  pose proof (normal_lower b (x :: xs) ltac:(lia) ltac:(discriminate) Hn) as H1.
  pose proof (value_be_bound b ys ltac:(lia) Hy) as H2. rewrite E in H1.
  assert (blen (x :: xs) - 1 < blen ys) by (apply (N.pow_lt_mono_r_iff b); unfold blen in *; lia).
  rewrite blen_cons in *. lia.
Qed.

Lemma normal_unique b xs ys :
  1 < b -> normal xs -> normal ys -> Forall (fun x => x < b) xs -> Forall (fun x => x < b) ys ->
  value_be b xs = value_be b ys -> xs = ys.
Proof.
  intros Hb Hx Hy Fx Fy E.
  pose proof (normal_shortest b xs ys Hb Hx Fy E).
  pose proof (normal_shortest b ys xs Hb Hy Fx (eq_sym E)).
  apply (value_be_inj b); try assumption; [lia|]. unfold blen in *. lia.
Qed.

(** Number of digits of a normal string from the range of its value. *)
Lemma normal_len b ds k :
  1 < b -> ds <> [] -> normal ds -> Forall (fun x => x < b) ds ->
  b ^ k <= value_be b ds < b ^ (k + 1) -> blen ds = k + 1.
Proof.
  intros Hb Hne Hn F [H1 H2].
  pose proof (normal_lower b ds ltac:(lia) Hne Hn) as H3.
  pose proof (value_be_bound b ds ltac:(lia) F) as H4. fold (blen ds) in H4.
  assert (k < blen ds) by (apply (N.pow_lt_mono_r_iff b); lia).
  assert (blen ds - 1 < k + 1) by (apply (N.pow_lt_mono_r_iff b); lia).
  lia.
Qed.

(** ** Identifier octets *)

Lemma write_tag_loop_ok idx val buf :
  val < 128 ^ (N.of_nat idx - 1) -> (1 <= idx)%nat ->
  exists ds, write_tag_loop idx val buf = Ok (map (fun x => 128 + x) ds ++ buf)
             /\ value_be 128 ds = val /\ Forall (fun x => x < 128) ds /\ normal ds.
Proof.
  revert val buf. induction idx as [|idx IH]; intros val buf Hv Hi; [lia|].
  cbn [write_tag_loop]. destruct (N.eqb_spec val 0) as [->|Hn].
  - exists []. repeat split; constructor.
  - destruct idx as [|idx].
    + change (N.of_nat 1 - 1) with 0 in Hv. change (128 ^ 0) with 1 in Hv. lia.
    + destruct (IH (N.shiftr val 7) (N.lor (N.land val 0x7f) 0x80 :: buf)) as (ds & E & V & F & Nm).
      * rewrite N.shiftr_div_pow2. apply N.div_lt_upper_bound; [discriminate|].
        change (2 ^ 7) with 128. rewrite <- N.pow_succ_r by lia.
        replace (N.succ (N.of_nat (S idx) - 1)) with (N.of_nat (S (S idx)) - 1) by lia. exact Hv.
      * lia.
      * exists (ds ++ [val mod 128]). rewrite E. rewrite N.shiftr_div_pow2 in V.
        change (2 ^ 7) with 128 in V. split; [|split; [|split]].
        -- rewrite map_app. cbn [map]. rewrite <- app_assoc. cbn [app].
           rewrite land_7f, N.lor_comm. change 128 with (1 * 2 ^ 7) at 2.
           rewrite lor_add by (change (2 ^ 7) with 128; apply N.mod_lt; lia). reflexivity.
        -- rewrite value_be_snoc, V. lia.
        -- apply Forall_app. split; [exact F|]. constructor; [apply N.mod_lt; lia|constructor].
        -- destruct ds as [|d ds]; [|exact Nm]. cbn in V |- *. lia.
Qed.

Lemma ident_first_lor c (k : bool) t :
  t < 32 -> N.lor (N.lor (N.shiftl (class_num c) 6) (if k then 0x20 else 0)) t = ident_first c k t.
Proof.
  intros Ht. rewrite <- N.lor_assoc. unfold ident_first.
  assert (E : N.lor (if k then 0x20 else 0) t = (if k then 32 else 0) + t).
  { destruct k; [|reflexivity]. change 0x20 with (1 * 2 ^ 5). apply lor_add. exact Ht. }
  rewrite E, lor_shiftl_add by (change (2 ^ 6) with 64; destruct k; lia).
  change (2 ^ 6) with 64. lia.
Qed.

(** Identifier octets in the shortest form. *)
Inductive ident_shortest : class -> bool -> N -> bytes -> Prop :=
| ids_low c k t : t < 31 -> ident_shortest c k t [ident_first c k t]
| ids_high c k ds d :
    Forall (fun x => x < 128) ds -> d < 128 -> normal ds ->
    31 <= value_be 128 (ds ++ [d]) ->
    ident_shortest c k (value_be 128 (ds ++ [d]))
                   (ident_first c k 31 :: map (fun x => 128 + x) ds ++ [d]).

Lemma ident_shortest_octets c k t bs : ident_shortest c k t bs -> ident_octets c k t bs.
Proof. intros []; constructor; assumption. Qed.

Lemma normal_snoc ds d b : normal ds -> 31 <= value_be b (ds ++ [d]) -> normal (ds ++ [d]).
Proof.
  intros H V. destruct ds as [|x ds]; [|exact H]. cbn [app] in *.
  rewrite value_be_one in V. cbn. lia.
Qed.

Lemma map_add_inj xs ys : map (fun x => 128 + x) xs = map (fun x => 128 + x) ys -> xs = ys.
Proof.
  revert ys. induction xs as [|x xs IH]; intros [|y ys] E; cbn in E; try discriminate; [reflexivity|].
  injection E as E1 E2. f_equal; [lia|]. apply IH. exact E2.
Qed.

Lemma ident_shortest_min c k t bs bs' :
  ident_shortest c k t bs -> ident_octets c k t bs' ->
  blen bs <= blen bs' /\ (blen bs = blen bs' -> bs = bs').
Proof.
  intros Hs Ho. destruct Hs as [c k t Ht|c k ds d Hds Hd Hn Hv].
  - rewrite blen_one. inversion Ho as [c0 k0 t0 Ht0|c0 k0 ds d Hds Hd]; subst.
    + split; [rewrite blen_one; lia|reflexivity].
    + rewrite blen_cons, blen_app, blen_one. split; [lia|]. intros E. lia.
  - inversion Ho as [c0 k0 t0 Ht0|c0 k0 ds' d' Hds' Hd' E1 E2 Ev E4]; subst; [lia|].
    rewrite !blen_cons, !blen_app, !blen_map, !blen_one.
    pose proof (normal_snoc ds d 128 Hn Hv) as Hn'.
    assert (F1 : Forall (fun x => x < 128) (ds ++ [d]))
      by (apply Forall_app; split; [exact Hds|constructor; [exact Hd|constructor]]).
    assert (F2 : Forall (fun x => x < 128) (ds' ++ [d']))
      by (apply Forall_app; split; [exact Hds'|constructor; [exact Hd'|constructor]]).
    pose proof (normal_shortest 128 _ _ ltac:(lia) Hn' F2 (eq_sym Ev)) as Hle.
    rewrite !blen_app, !blen_one in Hle. split; [lia|].
    intros E. assert (Heq : ds ++ [d] = ds' ++ [d']).
    { apply (value_be_inj 128); try assumption; [lia|..|symmetry; exact Ev].
      rewrite !app_length. cbn [length]. unfold blen in E. lia. }
    apply app_inj_tail in Heq as [-> ->]. reflexivity.
Qed.

Lemma write_tag_generic_ok c k t :
  t < 2 ^ 32 ->
  exists idb, write_tag_generic c k t = Ok (idb, blen idb) /\ ident_shortest c k t idb
              /\ blen idb <= 6.
Proof.
  intros Ht. unfold write_tag_generic. destruct (N.ltb_spec t 31) as [H|H].
  - exists [ident_first c k t]. rewrite ident_first_lor by lia.
    repeat split; [constructor; exact H|rewrite blen_one; lia].
  - destruct (write_tag_loop_ok 7 (N.shiftr t 7) [N.land t 0x7f]) as (ds & E & V & F & Nm).
    { rewrite N.shiftr_div_pow2. change (128 ^ (N.of_nat 7 - 1)) with 4398046511104.
      change (2 ^ 7) with 128. change (2 ^ 32) with 4294967296 in Ht. lia. }
    { lia. }
    rewrite E. cbn [bind]. rewrite ident_first_lor by lia. rewrite land_7f.
    rewrite N.shiftr_div_pow2 in V. change (2 ^ 7) with 128 in V.
    assert (Hval : value_be 128 (ds ++ [t mod 128]) = t) by (rewrite value_be_snoc, V; lia).
    exists (ident_first c k 31 :: map (fun x => 128 + x) ds ++ [t mod 128]).
    split; [|split].
    + rewrite blen_cons. reflexivity.
    + rewrite <- Hval at 1. constructor; try assumption; [apply N.mod_lt; lia|].
      rewrite Hval. exact H.
    + rewrite blen_cons, blen_app, blen_map, blen_one.
      destruct ds as [|x ds]; [rewrite blen_nil; lia|].
      pose proof (normal_lower 128 (x :: ds) ltac:(lia) ltac:(discriminate) Nm) as Hlow.
      rewrite V in Hlow.
      assert (Hup : t / 128 < 128 ^ 4).
      { change (128 ^ 4) with 268435456. change (2 ^ 32) with 4294967296 in Ht. lia. }
      assert (blen (x :: ds) - 1 < 4) by (apply (N.pow_lt_mono_r_iff 128); lia). lia.
Qed.

(** ** Length octets *)

Lemma skip_zeroes_ok b :
  value_be 256 b <> 0 -> bytes_ok b ->
  exists b', skip_zeroes b = Ok b' /\ value_be 256 b' = value_be 256 b /\ normal b' /\ bytes_ok b'
             /\ b' <> [] /\ blen b' <= blen b.
Proof.
  intros Hv Hok. induction b as [|x b IH]; [exfalso; apply Hv; reflexivity|].
  cbn [skip_zeroes]. apply bytes_ok_cons in Hok as [Hx Hok].
  destruct (N.eqb_spec x 0) as [->|Hn].
  - rewrite value_be_cons in Hv |- *. destruct IH as (b' & E & V & Nm & Ok' & Ne & L).
    + lia.
    + exact Hok.
    + exists b'. rewrite blen_cons. repeat split; try assumption; lia.
  - exists (x :: b). repeat split; try assumption; try lia; try discriminate.
    apply bytes_ok_cons. split; assumption.
Qed.

(** Definite length octets in the shortest form; the indefinite form has only one. *)
Inductive length_shortest : blength -> bytes -> Prop :=
| los_short n : n < 128 -> length_shortest (Definite n) [n]
| los_long bs : bytes_ok bs -> 1 <= blen bs <= 126 -> normal bs -> 128 <= value_be 256 bs ->
    length_shortest (Definite (value_be 256 bs)) (128 + blen bs :: bs)
| los_indefinite : length_shortest Indefinite [128].

Lemma length_shortest_octets l bs : length_shortest l bs -> length_octets l bs.
Proof. intros []; constructor; assumption. Qed.

Lemma length_shortest_min l bs bs' :
  length_shortest l bs -> length_octets l bs' ->
  blen bs <= blen bs' /\ (blen bs = blen bs' -> bs = bs').
Proof.
  intros Hs Ho. destruct Hs as [n Hn|bs Hb Hl Hn Hv|].
  - rewrite blen_one. inversion Ho; subst.
    + split; [rewrite blen_one; lia|reflexivity].
    + rewrite blen_cons. split; intros; lia.
  - inversion Ho as [n Hn' E1 E2|bs2 Hb2 Hl2 Ev E2|]; subst; [lia|].
    pose proof (normal_shortest 256 _ _ ltac:(lia) Hn Hb2 (eq_sym Ev)) as Hle.
    rewrite !blen_cons. split; [lia|]. intros E.
    assert (bs = bs2) as ->; [|reflexivity].
    apply (value_be_inj 256); try assumption; [lia|unfold blen in E; lia|symmetry; exact Ev].
  - inversion Ho. split; [lia|reflexivity].
Qed.

Lemma write_length_ok l :
  (forall n, l = Definite n -> n < 2 ^ 64) ->
  exists lenb, write_length l = Ok (lenb, blen lenb) /\ length_shortest l lenb.
Proof.
  intros Hl. destruct l as [n|]; cbn [write_length].
  - specialize (Hl n eq_refl). destruct (N.leb_spec n 127) as [H|H].
    + exists [n]. split; [reflexivity|]. constructor. lia.
    + assert (Hv : value_be 256 (be_bytes 8 n) = n)
        by (apply be_bytes_value_small; change (256 ^ N.of_nat 8) with (2 ^ 64); exact Hl).
      destruct (skip_zeroes_ok (be_bytes 8 n)) as (b & E & V & Nm & Ok' & Ne & L).
      * rewrite Hv. lia.
      * apply be_bytes_ok.
      * rewrite E. cbn [bind]. rewrite Hv in V.
        unfold blen at 2 in L. rewrite be_bytes_length in L.
        assert (1 <= blen b) by (destruct b; [congruence|rewrite blen_cons; lia]).
        exists (128 + blen b :: b). split.
        -- rewrite blen_cons. change 0x80 with (1 * 2 ^ 7). rewrite lor_add by (change (2 ^ 7) with 128; lia).
           reflexivity.
        -- rewrite <- V at 1. constructor; try assumption; lia.
  - exists [128]. split; [reflexivity|constructor].
Qed.

(** ** Whole headers *)

Definition header_fits (t : N) (l : blength) : Prop :=
  t < 2 ^ 32 /\ forall n, l = Definite n -> n < 2 ^ 64.

(** The identifier an encoder writes. *)
Definition written_ident (e : encoder) (c : class) (k : bool) (t : N) : class * bool * N :=
  match e with
  | EncPrimitive tag => (Universal, false, tag)
  | EncConstructed | EncConstructedIndefinite => (c, true, t)
  | EncGeneric => (c, k, t)
  end.

Lemma write_header_ok v c k t :
  written_ident (tb_encoder v) (tb_class v) (tb_constructed v) (tb_tag v) = (c, k, t) ->
  header_fits t (tb_content_len v) ->
  exists idb lenb,
    write_header v = Ok (idb ++ lenb, blen (idb ++ lenb))
    /\ blen idb <= 6 /\ ident_shortest c k t idb /\ length_shortest (tb_content_len v) lenb.
Proof.
  intros W [Ht Hl]. destruct (write_length_ok _ Hl) as (lenb & Elen & Slen).
  destruct (write_tag_generic_ok c k t Ht) as (idb & E & S & L).
  assert (G : wseq (write_tag_generic c k t) (write_length (tb_content_len v))
              = Ok (idb ++ lenb, blen (idb ++ lenb))).
  { rewrite E, Elen. cbn [wseq bind]. rewrite blen_app. reflexivity. }
  exists idb, lenb. repeat split; try assumption.
  unfold write_header. destruct (tb_encoder v); cbn [write_tag_info written_ident] in *;
    injection W as -> -> ->; exact G.
Qed.

(** The header writer of [Header] values. *)
Lemma header_write_ok c k t l :
  header_fits t l ->
  exists idb lenb,
    write_header (tober_header (header_new c k t l)) = Ok (idb ++ lenb, blen (idb ++ lenb))
    /\ blen idb <= 6 /\ ident_shortest c k t idb /\ length_shortest l lenb.
Proof.
  intros H. apply (write_header_ok (tober_header (header_new c k t l)) c k t); [reflexivity|exact H].
Qed.

Lemma ident_octets_ok c k t bs : ident_octets c k t bs -> bytes_ok bs.
Proof.
  intros [c' k' t' Ht|c' k' ds d Hds Hd].
  - constructor; [|constructor]. apply (first_octet_encode c' k' t'). lia.
  - constructor; [apply (first_octet_encode c' k' 31); lia|].
    apply Forall_app. split.
    + apply Forall_map. eapply Forall_impl; [|exact Hds]. intros; cbn in *; lia.
    + constructor; [lia|constructor].
Qed.

Lemma length_octets_ok l bs : length_octets l bs -> bytes_ok bs.
Proof.
  intros []; try (constructor; [lia|]); try constructor; assumption.
Qed.

Lemma header_parse_write c k t l idb lenb rest :
  header_fits t l -> (l = Indefinite -> k = true) -> bytes_ok rest ->
  blen idb <= 6 -> ident_shortest c k t idb -> length_shortest l lenb ->
  parse_header (idb ++ lenb ++ rest)
  = Ok (rest, mk_header c k t l (Some idb) (Some (idb ++ lenb))).
Proof.
  intros [Ht Hl] Hk Hr L S1 S2.
  apply ident_shortest_octets in S1. apply length_shortest_octets in S2.
  apply parse_header_ok.
  - apply bytes_ok_app. split; [eapply ident_octets_ok; eassumption|].
    apply bytes_ok_app. split; [eapply length_octets_ok; eassumption|exact Hr].
  - exists c, k, t, l, idb, lenb. repeat split; try assumption.
    rewrite N.mod_small by exact Ht. reflexivity.
Qed.

(** ** Announced lengths *)

Lemma tag_length_loop_ok fuel v sz :
  v < 128 ^ (N.of_nat fuel + 1) ->
  forall ds, value_be 128 ds = v -> Forall (fun x => x < 128) ds -> normal ds -> ds <> [] ->
  tag_length_loop fuel v sz = sz + blen ds.
Proof.
  revert v sz. induction fuel as [|f IH]; intros v sz Hv ds V F Nm Ne; cbn [tag_length_loop].
  - change (128 ^ (N.of_nat 0 + 1)) with 128 in Hv.
    replace (v <=? 127) with true by lia.
    rewrite <- V in Hv. pose proof (normal_lower 128 ds ltac:(lia) Ne Nm).
    assert (blen ds - 1 < 1) by (apply (N.pow_lt_mono_r_iff 128); [lia|]; change (128 ^ 1) with 128; lia).
    destruct ds as [|d ds]; [congruence|]. rewrite blen_cons in *. lia.
  - destruct (N.leb_spec v 127) as [H|H].
    + pose proof (normal_lower 128 ds ltac:(lia) Ne Nm).
      assert (blen ds - 1 < 1) by (apply (N.pow_lt_mono_r_iff 128); [lia|]; change (128 ^ 1) with 128; lia).
      destruct ds as [|d ds]; [congruence|]. rewrite blen_cons in *. lia.
    + destruct (exists_last Ne) as (ds' & d & ->).
      apply Forall_app in F as [F1 F2]. inversion F2 as [|? ? Hd _]; subst.
      rewrite value_be_snoc in *. rewrite N.shiftr_div_pow2. change (2 ^ 7) with 128.
      replace ((value_be 128 ds' * 128 + d) / 128) with (value_be 128 ds') by lia.
      rewrite (IH _ (sz + 1)) with (ds := ds'); try assumption; try reflexivity.
      * rewrite blen_app, blen_one. lia.
      * replace (N.of_nat (S f) + 1) with (N.succ (N.of_nat f + 1)) in Hv by lia.
        rewrite N.pow_succ_r in Hv by lia. nia.
      * destruct ds' as [|x ds']; [exact I|exact Nm].
      * intros ->. rewrite value_be_nil in H. lia.
Qed.

Lemma ber_tag_length_ok c k t idb :
  t < 2 ^ 32 -> ident_shortest c k t idb -> ber_tag_length t = blen idb.
Proof.
  intros Ht S. unfold ber_tag_length. destruct S as [c k t H|c k ds d Hds Hd Hn Hv].
  - replace (t <=? 30) with true by lia. reflexivity.
  - destruct (N.leb_spec (value_be 128 (ds ++ [d])) 30) as [H|H]; [lia|].
    rewrite (tag_length_loop_ok 5 _ 1) with (ds := ds ++ [d]).
    + rewrite blen_cons, !blen_app, blen_map. lia.
    + change (128 ^ (N.of_nat 5 + 1)) with 4398046511104. change (2 ^ 32) with 4294967296 in Ht. lia.
    + reflexivity.
    + apply Forall_app; split; [exact Hds|constructor; [exact Hd|constructor]].
    + eapply normal_snoc; eassumption.
    + destruct ds; discriminate.
Qed.

Lemma length_shortest_size n lenb :
  length_shortest (Definite n) lenb ->
  (n < 128 -> blen lenb = 1) /\ (forall k, 128 <= n -> 256 ^ k <= n < 256 ^ (k + 1) -> blen lenb = k + 2).
Proof.
  intros S. inversion S as [n' H|bs Hb Hl Hn Hv|]; subst; split; intros.
  - reflexivity.
  - lia.
  - lia.
  - rewrite blen_cons. rewrite (normal_len 256 bs k); try assumption; [lia|lia|].
    intros ->. rewrite blen_nil in Hl. lia.
Qed.

Lemma ber_length_length_exact n lenb :
  n < 2 ^ 64 -> length_shortest (Definite n) lenb ->
  (ber_length_length (Definite n) = Ok (blen lenb) <-> n < 2 ^ 24).
Proof.
  intros Hn S. destruct (length_shortest_size n lenb S) as [S1 S2]. unfold ber_length_length.
  pose proof (S2 0) as B0. pose proof (S2 1) as B1. pose proof (S2 2) as B2. pose proof (S2 3) as B3.
  change (256 ^ 0) with 1 in B0. change (256 ^ (0 + 1)) with 256 in B0.
  change (256 ^ 1) with 256 in B1. change (256 ^ (1 + 1)) with 65536 in B1.
  change (256 ^ 2) with 65536 in B2. change (256 ^ (2 + 1)) with 16777216 in B2.
  change (256 ^ 3) with 16777216 in B3. change (256 ^ (3 + 1)) with 4294967296 in B3.
  change (2 ^ 24) with 16777216.
  destruct (N.leb_spec n 0x7f) as [H1|H1]; [rewrite S1 by lia; split; [lia|reflexivity]|].
  destruct (N.leb_spec n 0xff) as [H2|H2]; [rewrite B0 by lia; split; [lia|reflexivity]|].
  destruct (N.leb_spec n 0xffff) as [H3|H3]; [rewrite B1 by lia; split; [lia|reflexivity]|].
  destruct (N.leb_spec n 0xffffffff) as [H4|H4].
  - destruct (N.lt_ge_cases n 16777216) as [H5|H5].
    + rewrite B2 by lia. split; [lia|reflexivity].
    + rewrite B3 by lia. split; [discriminate|lia].
  - split; [discriminate|lia].
Qed.

Lemma ber_header_length_exact c k t n idb lenb :
  t < 2 ^ 32 -> n < 2 ^ 64 -> ident_shortest c k t idb -> length_shortest (Definite n) lenb ->
  (unwrap_or0 (ber_header_length t (Definite n)) = blen (idb ++ lenb) <-> n < 2 ^ 24).
Proof.
  intros Ht Hn S1 S2. unfold ber_header_length. rewrite (ber_tag_length_ok c k t idb Ht S1).
  pose proof (ber_length_length_exact n lenb Hn S2) as H. rewrite blen_app.
  pose proof (ident_octets_len _ _ _ _ (ident_shortest_octets _ _ _ _ S1)).
  destruct (ber_length_length (Definite n)) as [m|e|m|]; cbn [bind unwrap_or0].
  - split.
    + intros E. apply H. f_equal. lia.
    + intros E. apply H in E. injection E as ->. reflexivity.
  - split; [lia|]. intros E. apply H in E. discriminate.
  - split; [lia|]. intros E. apply H in E. discriminate.
  - split; [lia|]. intros E. apply H in E. discriminate.
Qed.
