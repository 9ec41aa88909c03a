(** Proofs about the header parser. *)
From Verif Require Import Base MHeader SHeader PArith.

Lemma bind_ok {A B} (r : res A) (f : A -> res B) b :
  bind r f = Ok b <-> exists a, r = Ok a /\ f a = Ok b.
Proof.
  split.
  - destruct r; cbn; intros H; try discriminate. eauto.
  - intros (a & -> & H). exact H.
Qed.

(** ** Leading identifier octet *)

Lemma first_octet_decode b :
  b < 256 ->
  exists c, class_try_from (N.shiftr b 6) = Some c
            /\ b = ident_first c (negb (N.land b 0x20 =? 0)) (N.land b 0x1f)
            /\ N.land b 0x1f < 32.
Proof.
  intros Hb.
  pose proof (byte_forall
    (fun b => match class_try_from (N.shiftr b 6) with
              | Some c => (b =? ident_first c (negb (N.land b 0x20 =? 0)) (N.land b 0x1f))
                          && (N.land b 0x1f <? 32)
              | None => false end)) as H.
  specialize (H ltac:(vm_compute; reflexivity) b Hb). cbv beta in H.
  destruct (class_try_from (N.shiftr b 6)) as [c|]; [|discriminate].
  exists c. split; [reflexivity|]. lia.
Qed.

Lemma first_octet_encode c k t :
  t < 32 ->
  let b := ident_first c k t in
  b < 256 /\ class_try_from (N.shiftr b 6) = Some c
  /\ negb (N.land b 0x20 =? 0) = k /\ N.land b 0x1f = t.
Proof.
  intros Ht b.
  pose proof (byte_forall
    (fun t => implb (t <? 32)
       (let b := ident_first c k t in
        (b <? 256) && (match class_try_from (N.shiftr b 6) with
                       | Some c' => class_eqb c' c | None => false end)
        && Bool.eqb (negb (N.land b 0x20 =? 0)) k && (N.land b 0x1f =? t)))) as H.
  assert (Hc : forallb (fun t => implb (t <? 32)
       (let b := ident_first c k t in
        (b <? 256) && (match class_try_from (N.shiftr b 6) with
                       | Some c' => class_eqb c' c | None => false end)
        && Bool.eqb (negb (N.land b 0x20 =? 0)) k && (N.land b 0x1f =? t)))
       (map N.of_nat (seq 0 256)) = true)
    by (destruct c, k; vm_compute; reflexivity).
  specialize (H Hc t ltac:(lia)). cbv beta zeta in H. fold b in H.
  replace (t <? 32) with true in H by lia. cbn [implb] in H.
  apply andb_prop in H as [H H4]. apply andb_prop in H as [H H3]. apply andb_prop in H as [H1 H2].
  repeat split.
  - lia.
  - destruct (class_try_from (N.shiftr b 6)) as [c'|]; [|discriminate].
    unfold class_eqb in H2. f_equal. destruct c, c'; cbn in H2; try reflexivity; discriminate.
  - apply Bool.eqb_prop. exact H3.
  - lia.
Qed.

(** ** Tag octets *)

Lemma tag_step c b :
  N.lor (N.shiftl c 7 mod 2 ^ 32) (N.land b 0x7f) = (c * 128 + b mod 128) mod 2 ^ 32.
Proof.
  rewrite N.shiftl_mul_pow2, land_7f.
  change (2 ^ 32) with (2 ^ 25 * 2 ^ 7).
  rewrite N.mul_mod_distr_r by discriminate.
  rewrite lor_add by (change (2 ^ 7) with 128; apply N.mod_lt; lia).
  change (2 ^ 25 * 2 ^ 7) with 4294967296. change (2 ^ 25) with 33554432. change (2 ^ 7) with 128.
  lia.
Qed.

Lemma tag_mod_step a b m : 0 < m -> ((a mod m) * 128 + b) mod m = (a * 128 + b) mod m.
Proof.
  intros Hm. rewrite N.add_mod, N.mul_mod by lia. rewrite N.mod_mod by lia.
  rewrite <- N.mul_mod, <- N.add_mod by lia. reflexivity.
Qed.

Lemma tag_fold_mod ds a m :
  0 < m ->
  fold_left (fun acc d => acc * 128 + d) ds (a mod m) mod m
  = fold_left (fun acc d => acc * 128 + d) ds a mod m.
Proof.
  intros Hm. revert a. induction ds as [|d ds IH]; intros a; cbn [fold_left].
  - apply N.mod_mod. lia.
  - rewrite <- (IH (a mod m * 128 + d)), <- (IH (a * 128 + d)), tag_mod_step by lia. reflexivity.
Qed.

Lemma tag_loop_ok rem c count r t cnt :
  bytes_ok rem -> c < 2 ^ 32 ->
  (tag_loop rem c count = Ok (r, t, cnt) <->
   exists ds d, rem = map (fun x => 128 + x) ds ++ d :: r
     /\ Forall (fun x => x < 128) ds /\ d < 128 /\ count + blen ds <= 5
     /\ cnt = count + blen ds + 1
     /\ t = fold_left (fun acc d => acc * 128 + d) (ds ++ [d]) c mod 2 ^ 32).
Proof.
  revert c count. induction rem as [|b rem IH]; intros c count Hok Hc; cbn [tag_loop].
  - split; [discriminate|]. intros (ds & d & H & _). destruct ds; discriminate.
  - apply bytes_ok_cons in Hok as [Hb Hok].
    destruct (N.ltb_spec 5 count) as [H5|H5].
    + split; [discriminate|]. intros (ds & d & _ & _ & _ & H & _). lia.
    + rewrite land_80 by exact Hb. rewrite tag_step.
      destruct (N.ltb_spec b 128) as [Hlt|Hge].
      * split.
        -- intros E. injection E as <- <- <-. exists [], b. cbn [map app fold_left].
           rewrite blen_nil. rewrite (N.mod_small b 128) by lia.
           repeat split; try reflexivity; try lia; constructor.
        -- intros (ds & d & E & Hds & Hd & Hcnt & -> & ->). destruct ds as [|x ds].
           ++ cbn [map app] in E. injection E as <- <-. cbn [app fold_left].
              rewrite blen_nil. rewrite (N.mod_small b 128) by lia. repeat f_equal; lia.
           ++ cbn [map app] in E. injection E as E1 E2. lia.
      * rewrite IH; [|exact Hok|apply N.mod_lt; lia]. split.
        -- intros (ds & d & -> & Hds & Hd & Hcnt & -> & ->).
           exists (b - 128 :: ds), d. rewrite blen_cons. repeat split; try lia.
           ++ cbn [map app]. f_equal. lia.
           ++ constructor; [lia|exact Hds].
           ++ cbn [app fold_left]. replace (b mod 128) with (b - 128) by lia.
              apply tag_fold_mod. lia.
        -- intros (ds & d & E & Hds & Hd & Hcnt & -> & ->). destruct ds as [|x ds].
           ++ cbn [map app] in E. injection E as E1 E2. lia.
           ++ cbn [map app] in E. injection E as E1 E2. inversion Hds as [|? ? Hx Hds']; subst.
              rewrite blen_cons in *. exists ds, d. repeat split; try assumption; try lia.
              cbn [app fold_left]. replace ((128 + x) mod 128) with x by lia.
              symmetry. apply tag_fold_mod. lia.
Qed.

(** ** Length octets *)

Lemma land_top_byte u : u < 2 ^ 64 -> (N.land u 0xff00000000000000 =? 0) = (u <? 2 ^ 56).
Proof.
  intros Hu.
  assert (E : N.land u 0xff00000000000000 = N.shiftl (N.shiftr u 56) 56).
  { change 0xff00000000000000 with (N.shiftl (N.ones 8) 56).
    rewrite <- (N.land_ones_low (N.shiftr u 56) 8) at 1.
    - rewrite N.shiftl_land. apply N.bits_inj. intros n. rewrite !N.land_spec.
      destruct (N.lt_ge_cases n 56) as [Hn|Hn].
      + rewrite !N.shiftl_spec_low by assumption. rewrite !andb_false_r. reflexivity.
      + rewrite !N.shiftl_spec_high' by assumption. rewrite N.shiftr_spec'.
        replace (n - 56 + 56) with n by lia. reflexivity.
    - destruct (N.eq_dec (N.shiftr u 56) 0) as [->|H0]; [reflexivity|].
      apply N.log2_lt_pow2; [lia|]. rewrite N.shiftr_div_pow2.
      apply N.div_lt_upper_bound; [lia|]. change (2 ^ 56 * 2 ^ 8) with (2 ^ 64). exact Hu. }
  rewrite E, N.shiftl_mul_pow2, N.shiftr_div_pow2.
  destruct (N.ltb_spec u (2 ^ 56)) as [H|H].
  - rewrite N.div_small by exact H. reflexivity.
  - assert (1 <= u / 2 ^ 56) by (apply N.div_le_lower_bound; lia).
    apply N.eqb_neq. change (2 ^ 56) with 72057594037927936 in *. lia.
Qed.

Lemma bytes_to_u64_from_spec s u :
  bytes_ok s -> u < 2 ^ 64 ->
  bytes_to_u64_from u s =
    (let v := fold_left (fun acc d => acc * 256 + d) s u in
     if v <? 2 ^ 64 then Some v else None).
Proof.
  revert u. induction s as [|c s IH]; intros u Hok Hu; cbn [bytes_to_u64_from fold_left]; cbv zeta.
  - replace (u <? 2 ^ 64) with true by lia. reflexivity.
  - apply bytes_ok_cons in Hok as [Hc Hok]. rewrite land_top_byte by exact Hu.
    assert (Hmono : forall s a, a <= fold_left (fun acc d => acc * 256 + d) s a).
    { intros s'. induction s' as [|x s' IHs]; intros a; cbn [fold_left]; [lia|].
      specialize (IHs (a * 256 + x)). lia. }
    destruct (N.ltb_spec u (2 ^ 56)) as [H|H].
    + rewrite N.shiftl_mul_pow2. rewrite N.mod_small
        by (change (2 ^ 64) with (2 ^ 56 * 2 ^ 8); nia).
      rewrite lor_add by exact Hc. change (2 ^ 8) with 256. apply IH; [exact Hok|].
      change (2 ^ 64) with (2 ^ 56 * 256). nia.
    + specialize (Hmono s (u * 256 + c)).
      destruct (N.ltb_spec (fold_left (fun acc d => acc * 256 + d) s (u * 256 + c)) (2 ^ 64));
        [|reflexivity].
      change (2 ^ 64) with (2 ^ 56 * 256) in *. nia.
Qed.

Lemma bytes_to_u64_spec s :
  bytes_ok s ->
  bytes_to_u64 s = if value_be 256 s <? 2 ^ 64 then Some (value_be 256 s) else None.
Proof. intros H. unfold bytes_to_u64. rewrite bytes_to_u64_from_spec by (assumption || lia). reflexivity. Qed.

Lemma parse_length_ok k rem r l :
  bytes_ok rem ->
  (parse_length k rem = Ok (r, l) <->
   exists lenb, rem = lenb ++ r /\ length_octets l lenb /\ (l = Indefinite -> k = true)
                /\ (forall n, l = Definite n -> n < 2 ^ 64)).
Proof.
  intros Hok. unfold parse_length. destruct rem as [|b0 rem]; cbn [be_u8 bind].
  - split; [discriminate|]. intros (lenb & H & Hl & _). destruct Hl; cbn in H; discriminate.
  - apply bytes_ok_cons in Hok as [Hb Hok].
    destruct (N.eqb_spec b0 0x80) as [->|Hn80].
    + split.
      * destruct k; [|discriminate]. intros E. injection E as <- <-. exists [128].
        repeat split; [constructor|discriminate].
      * intros (lenb & E & Hl & Hk & _). destruct Hl as [n Hn|bs Hbs Hlen|].
        -- cbn in E. injection E as E _. lia.
        -- cbn in E. injection E as E _. lia.
        -- cbn in E. injection E as ->. rewrite Hk by reflexivity. reflexivity.
    + rewrite land_80 by exact Hb. destruct (N.ltb_spec b0 128) as [Hlt|Hge].
      * split.
        -- intros E. injection E as <- <-. exists [b0]. repeat split; try discriminate.
           ++ constructor. exact Hlt.
           ++ intros n E. injection E as <-. lia.
        -- intros (lenb & E & Hl & _ & _). destruct Hl as [n Hn|bs Hbs Hlen|]; cbn in E.
           ++ injection E as <- <-. reflexivity.
           ++ injection E as E _. lia.
           ++ injection E as E _. lia.
      * destruct (N.eqb_spec b0 0xff) as [->|Hnff].
        -- split; [discriminate|]. intros (lenb & E & Hl & _ & _).
           destruct Hl as [n Hn|bs Hbs Hlen|]; cbn in E; injection E as E _; lia.
        -- rewrite land_7f. replace (b0 mod 128) with (b0 - 128) by lia. rewrite bind_ok. split.
           ++ intros ([r' lb] & Ht & E). apply take_ok in Ht as [-> Hlb].
              apply bytes_ok_app in Hok as [Hoklb Hokr].
              rewrite bytes_to_u64_spec in E by exact Hoklb.
              destruct (N.ltb_spec (value_be 256 lb) (2 ^ 64)) as [Hv|]; [|discriminate].
              injection E as <- <-. exists (b0 :: lb). repeat split; try discriminate.
              ** replace b0 with (128 + blen lb) by lia. constructor; [exact Hoklb|lia].
              ** intros n E. injection E as <-. exact Hv.
           ++ intros (lenb & E & Hl & _ & Hv). destruct Hl as [n Hn|bs Hbs Hlen|]; cbn in E.
              ** injection E as E _. lia.
              ** injection E as E ->. exists (r, bs). split.
                 --- apply take_app. lia.
                 --- rewrite bytes_to_u64_spec by exact Hbs.
                     specialize (Hv _ eq_refl). replace (value_be 256 bs <? 2 ^ 64) with true by lia.
                     reflexivity.
              ** injection E as E _. lia.
Qed.

(** ** Whole header *)

Lemma firstn_app_exact {A} (xs ys : list A) : firstn (length xs) (xs ++ ys) = xs.
Proof. rewrite firstn_app, Nat.sub_diag, firstn_all. cbn. apply app_nil_r. Qed.

Lemma ident_octets_len c k t idb : ident_octets c k t idb -> 1 <= blen idb.
Proof. intros []; rewrite blen_cons; lia. Qed.

Lemma length_octets_len l lenb : length_octets l lenb -> 1 <= blen lenb <= 127.
Proof. intros []; rewrite ?blen_cons, ?blen_nil; lia. Qed.

(** The part of [parse_header] before the length octets. *)
Definition parse_ident (input : bytes) : res (bytes * (class * bool * N * bytes)) :=
  let* (rem, b0) := be_u8 input in
  match class_try_from (N.shiftr b0 6) with
  | None => Panic
  | Some cls =>
      let constructed := negb (N.land b0 0x20 =? 0) in
      let tag0 := N.land b0 0x1f in
      let* (rem, tag, count) :=
        (if tag0 =? 0x1f then tag_loop rem 0 1 else Ok (rem, tag0, 1)) in
      if blen input <? count then Panic
      else Ok (rem, (cls, constructed, tag, firstn (N.to_nat count) input))
  end.

Lemma parse_header_split input :
  parse_header input =
    let* (rem, (cls, k, tag, raw)) := parse_ident input in
    let* (rem, len) := parse_length k rem in
    Ok (rem, mk_header cls k tag len (Some raw) (Some (firstn (length input - length rem) input))).
Proof.
  unfold parse_header, parse_ident. destruct (be_u8 input) as [[rem b0]| | |]; cbn [bind]; try reflexivity.
  destruct (class_try_from (N.shiftr b0 6)) as [cls|]; cbn [bind]; [|reflexivity].
  destruct (if N.land b0 0x1f =? 0x1f then tag_loop rem 0 1 else Ok (rem, N.land b0 0x1f, 1))
    as [[[rem' tag] count]| | |]; cbn [bind]; try reflexivity.
  destruct (blen input <? count); cbn [bind]; reflexivity.
Qed.

Lemma parse_ident_ok i rem c k t raw :
  bytes_ok i ->
  (parse_ident i = Ok (rem, (c, k, t, raw)) <->
   exists t0, i = raw ++ rem /\ ident_octets c k t0 raw /\ blen raw <= 6 /\ t = t0 mod 2 ^ 32).
Proof.
  intros Hok. unfold parse_ident. destruct i as [|b0 i]; cbn [be_u8 bind].
  - split; [discriminate|]. intros (t0 & E & Hid & _). destruct Hid; cbn in E; discriminate.
  - apply bytes_ok_cons in Hok as [Hb Hok].
    destruct (first_octet_decode b0 Hb) as (c' & Hc' & Hb0 & Hlow). rewrite Hc'.
    set (k' := negb (N.land b0 0x20 =? 0)) in *. set (low := N.land b0 0x1f) in *.
    split.
    + intros E. apply bind_ok in E as ([[rem' tag] count] & Hloop & E).
      destruct (N.eqb_spec low 0x1f) as [Hl|Hl].
      * apply tag_loop_ok in Hloop as (ds & d & -> & Hds & Hd & Hcnt & -> & ->);
          [|exact Hok|lia].
        destruct (N.ltb_spec (blen (b0 :: map (fun x => 128 + x) ds ++ d :: rem'))
                             (1 + blen ds + 1)) as [|Hle]; [discriminate|].
        injection E as <- <- <- <- <-.
        exists (value_be 128 (ds ++ [d])).
        assert (Hraw : firstn (N.to_nat (1 + blen ds + 1)) (b0 :: map (fun x => 128 + x) ds ++ d :: rem')
                       = b0 :: map (fun x => 128 + x) ds ++ [d]).
        { replace (N.to_nat (1 + blen ds + 1))
            with (length (b0 :: map (fun x => 128 + x) ds ++ [d]))
            by (cbn [length]; rewrite app_length, map_length; unfold blen; cbn [length]; lia).
          replace (b0 :: map (fun x => 128 + x) ds ++ d :: rem')
            with ((b0 :: map (fun x => 128 + x) ds ++ [d]) ++ rem')
            by (cbn [app]; rewrite <- app_assoc; reflexivity).
          apply firstn_app_exact. }
        rewrite Hraw. repeat split.
        -- cbn [app]. rewrite <- app_assoc. reflexivity.
        -- rewrite Hb0, Hl. constructor; assumption.
        -- rewrite blen_cons, blen_app, blen_map, blen_one. lia.
      * injection Hloop as <- <- <-.
        destruct (blen (b0 :: i) <? 1); [discriminate|]. injection E as <- <- <- <- <-.
        exists low. cbn [firstn]. change (N.to_nat 1) with 1%nat. cbn [firstn app].
        repeat split.
        -- rewrite Hb0 at 1. constructor. lia.
        -- rewrite blen_one. lia.
        -- symmetry. apply N.mod_small. lia.
    + intros (t0 & E & Hid & Hlen & ->). destruct Hid as [c k t Ht|c k ds d Hds Hd].
      * cbn [app] in E. injection E as E ->.
        destruct (first_octet_encode c k t) as (_ & H1 & H2 & H3); [lia|].
        rewrite <- E in H1, H2, H3. fold k' in H2. fold low in H3.
        rewrite Hc' in H1. injection H1 as ->. subst k'. rewrite H2 in *. rewrite H3 in *.
        destruct (N.eqb_spec t 0x1f); [lia|]. cbn [bind].
        rewrite blen_cons. destruct (N.ltb_spec (1 + blen rem) 1); [lia|].
        change (N.to_nat 1) with 1%nat. cbn [firstn]. rewrite E. rewrite N.mod_small by lia.
        reflexivity.
      * cbn [app] in E. injection E as E ->.
        destruct (first_octet_encode c k 31) as (_ & H1 & H2 & H3); [lia|].
        rewrite <- E in H1, H2, H3. fold k' in H2. fold low in H3.
        rewrite Hc' in H1. injection H1 as ->. rewrite H3. rewrite H2.
        rewrite N.eqb_refl.
        rewrite <- app_assoc in *. cbn [app] in *.
        rewrite blen_cons, blen_app, blen_map, blen_one in Hlen.
        assert (Hl : tag_loop (map (fun x => 128 + x) ds ++ d :: rem) 0 1
                     = Ok (rem, value_be 128 (ds ++ [d]) mod 2 ^ 32, 1 + blen ds + 1)).
        { apply tag_loop_ok; [exact Hok|lia|]. exists ds, d.
          repeat split; try assumption; try reflexivity; lia. }
        rewrite Hl. cbn [bind].
        destruct (N.ltb_spec (blen (b0 :: map (fun x => 128 + x) ds ++ d :: rem)) (1 + blen ds + 1))
          as [Hlt|_].
        { rewrite blen_cons, blen_app, blen_map, blen_cons in Hlt. lia. }
        repeat f_equal.
        replace (N.to_nat (1 + blen ds + 1))
            with (length (b0 :: map (fun x => 128 + x) ds ++ [d]))
            by (cbn [length]; rewrite app_length, map_length; unfold blen; cbn [length]; lia).
        replace (b0 :: map (fun x => 128 + x) ds ++ d :: rem)
            with ((b0 :: map (fun x => 128 + x) ds ++ [d]) ++ rem)
            by (cbn [app]; rewrite <- app_assoc; reflexivity).
        rewrite firstn_app_exact. rewrite E. reflexivity.
Qed.

Lemma parse_header_ok i rem h :
  bytes_ok i ->
  (parse_header i = Ok (rem, h) <->
   exists c k t l idb lenb,
     header_octets c k t l idb lenb /\ within_limits l idb /\ i = idb ++ lenb ++ rem
     /\ h = mk_header c k (t mod 2 ^ 32) l (Some idb) (Some (idb ++ lenb))).
Proof.
  intros Hok. rewrite parse_header_split, bind_ok. split.
  - intros ([rem1 [[[c k] t] raw]] & Hid & E). apply bind_ok in E as ([rem2 l] & Hlen & E).
    apply parse_ident_ok in Hid as (t0 & -> & Hid & Hraw & ->); [|exact Hok].
    apply bytes_ok_app in Hok as [Hok1 Hok2].
    apply parse_length_ok in Hlen as (lenb & -> & Hlo & Hk & Hv); [|exact Hok2].
    injection E as <- <-. exists c, k, t0, l, raw, lenb.
    split; [split; [exact Hid|split; [exact Hlo|exact Hk]]|].
    split; [split; assumption|]. split; [reflexivity|]. f_equal.
    replace (length (raw ++ lenb ++ rem2) - length rem2)%nat with (length (raw ++ lenb))
      by (rewrite !app_length; lia).
    rewrite app_assoc, firstn_app_exact. reflexivity.
  - intros (c & k & t & l & idb & lenb & (Hid & Hlo & Hk) & (Hraw & Hv) & -> & ->).
    exists (lenb ++ rem, (c, k, t mod 2 ^ 32, idb)). split.
    + apply parse_ident_ok; [exact Hok|]. exists t. repeat split; assumption.
    + apply bytes_ok_app in Hok as [Hok1 Hok2]. apply bind_ok. exists (rem, l). split.
      * apply parse_length_ok; [exact Hok2|]. exists lenb. repeat split; assumption.
      * replace (length (idb ++ lenb ++ rem) - length rem)%nat with (length (idb ++ lenb))
          by (rewrite !app_length; lia).
        rewrite app_assoc, firstn_app_exact. reflexivity.
Qed.
