(** Proofs about object contents, [Any] and the iterator. *)
From Verif Require Import Base MHeader MEncode SHeader PArith PHeader PEncode MBer SBer.

(** ** Streaming parsers *)

(** The answer on [i] determines the answer on [i ++ x]. [EInvalidTag] is excepted: the header parser
    gives it on truncated tag octets. *)
Definition streaming {A} (p : bytes -> res (bytes * A)) : Prop :=
  forall i, bytes_ok i ->
    match p i with
    | Ok (r, a) => (exists pre, i = pre ++ r) /\ forall x, bytes_ok x -> p (i ++ x) = Ok (r ++ x, a)
    | Err e => e <> EInvalidTag -> forall x, bytes_ok x -> p (i ++ x) = Err e
    | Incomplete n => 1 <= n /\ forall x, bytes_ok x -> blen x < n -> p (i ++ x) = Incomplete (n - blen x)
    | Panic => False
    end.

Lemma streaming_bind {A B} (p : bytes -> res (bytes * A)) (f : A -> bytes -> res (bytes * B)) :
  streaming p -> (forall a, streaming (f a)) ->
  streaming (fun i => let* (r, a) := p i in f a r).
Proof.
  intros Hp Hf i Hi. specialize (Hp i Hi). destruct (p i) as [[r a]|e|n|] eqn:E; cbn [bind].
  - destruct Hp as [(pre & ->) Hx]. apply bytes_ok_app in Hi as [_ Hr].
    specialize (Hf a r Hr). destruct (f a r) as [[r' b]|e|n|] eqn:E2.
    + destruct Hf as [(pre2 & ->) Hx2]. split.
      * exists (pre ++ pre2). rewrite app_assoc. reflexivity.
      * intros x Hxok. rewrite Hx by exact Hxok. cbn [bind]. apply Hx2. exact Hxok.
    + intros He x Hxok. rewrite Hx by exact Hxok. cbn [bind]. apply Hf; assumption.
    + destruct Hf as [H1 Hx2]. split; [exact H1|]. intros x Hxok Hlen.
      rewrite Hx by exact Hxok. cbn [bind]. apply Hx2; assumption.
    + exact Hf.
  - intros He x Hxok. rewrite Hp by assumption. reflexivity.
  - destruct Hp as [H1 Hx]. split; [exact H1|]. intros x Hxok Hlen. rewrite Hx by assumption. reflexivity.
  - exact Hp.
Qed.

Lemma streaming_ok {A} (a : A) : streaming (fun i => Ok (i, a)).
Proof. intros i Hi. split; [exists []; reflexivity|]. reflexivity. Qed.

Lemma streaming_err {A} e : streaming (fun _ => Err e : res (bytes * A)).
Proof. intros i Hi He x Hx. reflexivity. Qed.

Lemma streaming_ext {A} (p q : bytes -> res (bytes * A)) :
  (forall i, p i = q i) -> streaming q -> streaming p.
Proof.
  intros E H i Hi. specialize (H i Hi). rewrite E. destruct (q i) as [[r a]|e|n|]; [| | |exact H].
  - destruct H as [H1 H2]. split; [exact H1|]. intros x Hx. rewrite E. apply H2. exact Hx.
  - intros He x Hx. rewrite E. apply H; assumption.
  - destruct H as [H1 H2]. split; [exact H1|]. intros x Hx Hl. rewrite E. apply H2; assumption.
Qed.

Lemma streaming_be_u8 : streaming be_u8.
Proof.
  intros [|b i] Hi; cbn [be_u8].
  - split; [lia|]. intros [|b x] Hx Hl; [reflexivity|]. rewrite blen_cons in Hl. lia.
  - split; [exists [b]; reflexivity|]. reflexivity.
Qed.

Lemma streaming_take n : streaming (take n).
Proof.
  intros i Hi. unfold take at 1. destruct (N.leb_spec n (blen i)) as [H|H].
  - split.
    + exists (firstn (N.to_nat n) i). symmetry. apply firstn_skipn.
    + intros x Hx. apply take_ok. split.
      * rewrite app_assoc, firstn_skipn. reflexivity.
      * unfold blen in *. rewrite firstn_length. lia.
  - split; [lia|]. intros x Hx Hl. unfold take. rewrite blen_app.
    destruct (N.leb_spec n (blen i + blen x)); [lia|]. f_equal. lia.
Qed.

Lemma streaming_parse_length k : streaming (parse_length k).
Proof.
  unfold parse_length.
  apply (streaming_bind be_u8 (fun len_b0 rem =>
    if len_b0 =? 0x80 then if k then Ok (rem, Indefinite) else Err EIndefiniteLengthUnexpected
    else if N.land len_b0 0x80 =? 0 then Ok (rem, Definite len_b0)
    else if len_b0 =? 0xff then Err EInvalidLength
    else let* (r, len_bytes) := take (N.land len_b0 0x7f) rem in
      match bytes_to_u64 len_bytes with
      | Some l => Ok (r, Definite l) | None => Err EInvalidLength end)).
  - exact streaming_be_u8.
  - intros b. destruct (b =? 0x80).
    + destruct k; [apply streaming_ok|apply streaming_err].
    + destruct (N.land b 0x80 =? 0); [apply streaming_ok|].
      destruct (b =? 0xff); [apply streaming_err|].
      apply (streaming_bind (take (N.land b 0x7f)) (fun len_bytes r =>
        match bytes_to_u64 len_bytes with
        | Some l => Ok (r, Definite l) | None => Err EInvalidLength end)).
      * apply streaming_take.
      * intros s. destruct (bytes_to_u64 s); [apply streaming_ok|apply streaming_err].
Qed.

Lemma tag_loop_cases rem c count :
  match tag_loop rem c count with
  | Ok (r, _, cnt) => count <= cnt /\ blen rem + count = blen r + cnt
  | Err e => e = EInvalidTag
  | _ => False
  end.
Proof.
  revert c count. induction rem as [|b rem IH]; intros c count; cbn [tag_loop]; [reflexivity|].
  destruct (5 <? count); [reflexivity|].
  destruct (N.land b 0x80 =? 0).
  - rewrite blen_cons. lia.
  - specialize (IH (N.lor (N.shiftl c 7 mod 2 ^ 32) (N.land b 0x7f)) (count + 1)).
    destruct (tag_loop rem _ (count + 1)) as [[[r t] cnt]|e|n|]; [|exact IH|exact IH|exact IH].
    rewrite blen_cons. lia.
Qed.

Lemma streaming_parse_ident : streaming parse_ident.
Proof.
  intros i Hi. destruct (parse_ident i) as [[r [[[c k] t] raw]]|e|n|] eqn:E.
  - pose proof E as E'. apply parse_ident_ok in E' as (t0 & -> & Hid & Hl & ->); [|exact Hi].
    split; [exists raw; reflexivity|]. intros x Hx. apply parse_ident_ok.
    + apply bytes_ok_app. split; assumption.
    + exists t0. rewrite app_assoc. repeat split; assumption.
  - intros He. exfalso. apply He. unfold parse_ident in E.
    destruct i as [|b0 i]; [discriminate|]. cbn [be_u8 bind] in E.
    destruct (class_try_from (N.shiftr b0 6)); [|discriminate].
    destruct (N.land b0 0x1f =? 0x1f); cbn [bind] in E.
    + pose proof (tag_loop_cases i 0 1) as T.
      destruct (tag_loop i 0 1) as [[[r t] cnt]|e'|n|]; cbn [bind] in E.
      * destruct (blen (b0 :: i) <? cnt); discriminate.
      * congruence.
      * contradiction.
      * contradiction.
    + destruct (blen (b0 :: i) <? 1); discriminate.
  - unfold parse_ident in E. destruct i as [|b0 i].
    + cbn in E. injection E as <-. split; [lia|]. intros x Hx Hl.
      destruct x; [reflexivity|]. rewrite blen_cons in Hl. lia.
    + exfalso. cbn [be_u8 bind] in E. destruct (class_try_from (N.shiftr b0 6)); [|discriminate].
      destruct (N.land b0 0x1f =? 0x1f); cbn [bind] in E.
      * pose proof (tag_loop_cases i 0 1) as T.
        destruct (tag_loop i 0 1) as [[[r t] cnt]|e'|m|]; cbn [bind] in E; try discriminate.
        -- destruct (blen (b0 :: i) <? cnt); discriminate.
        -- contradiction.
      * destruct (blen (b0 :: i) <? 1); discriminate.
  - unfold parse_ident in E. destruct i as [|b0 i]; [discriminate|]. cbn [be_u8 bind] in E.
    apply bytes_ok_cons in Hi as [Hb _].
    destruct (first_octet_decode b0 Hb) as (c' & Hc' & _ & _). rewrite Hc' in E.
    destruct (N.land b0 0x1f =? 0x1f); cbn [bind] in E.
    + pose proof (tag_loop_cases i 0 1) as T.
      destruct (tag_loop i 0 1) as [[[r t] cnt]|e'|m|]; cbn [bind] in E; try discriminate.
      * destruct (N.ltb_spec (blen (b0 :: i)) cnt); [|discriminate].
        rewrite blen_cons in *. lia.
      * contradiction.
    + destruct (N.ltb_spec (blen (b0 :: i)) 1); [|discriminate]. rewrite blen_cons in *. lia.
Qed.

Lemma streaming_parse_header : streaming parse_header.
Proof.
  intros i Hi.
  pose proof (streaming_bind parse_ident
    (fun a rem => let '(cls, k, tag, raw) := a in
       let* (rem, len) := parse_length k rem in
       Ok (rem, (cls, k, tag, len, raw)))) as S.
  assert (S1 : streaming (fun i => let* (r, a) := parse_ident i in
     let '(cls, k, tag, raw) := a in
     let* (rem, len) := parse_length k r in Ok (rem, (cls, k, tag, len, raw)))).
  { apply S; [apply streaming_parse_ident|]. intros [[[cls k] tag] raw].
    apply (streaming_bind (parse_length k) (fun len rem => Ok (rem, (cls, k, tag, len, raw)))).
    - apply streaming_parse_length.
    - intros len. apply streaming_ok. }
  clear S. rename S1 into S. specialize (S i Hi). cbv beta in S.
  assert (G : forall j, parse_header j =
    let* (r, a) := (let* (r, a) := parse_ident j in
       let '(cls, k, tag, raw) := a in
       let* (rem, len) := parse_length k r in Ok (rem, (cls, k, tag, len, raw))) in
    let '(cls, k, tag, len, raw) := a in
    Ok (r, mk_header cls k tag len (Some raw) (Some (firstn (length j - length r) j)))).
  { intros j. rewrite parse_header_split.
    destruct (parse_ident j) as [[r [[[c k] t] raw]]|e|n|]; cbn [bind]; try reflexivity.
    destruct (parse_length k r) as [[r' l]|e|n|]; reflexivity. }
  rewrite G. set (q := fun i => let* (r, a) := parse_ident i in
       let '(cls, k, tag, raw) := a in
       let* (rem, len) := parse_length k r in Ok (rem, (cls, k, tag, len, raw))) in *.
  change (match q i with
    | Ok (r, a) => (exists pre, i = pre ++ r) /\ forall x, bytes_ok x -> q (i ++ x) = Ok (r ++ x, a)
    | Err e => e <> EInvalidTag -> forall x, bytes_ok x -> q (i ++ x) = Err e
    | Incomplete n => 1 <= n /\ forall x, bytes_ok x -> blen x < n -> q (i ++ x) = Incomplete (n - blen x)
    | Panic => False
    end) in S.
  change (let* (r, a) := parse_ident i in
       let '(cls, k, tag, raw) := a in
       let* (rem, len) := parse_length k r in Ok (rem, (cls, k, tag, len, raw))) with (q i).
  assert (G' : forall j, parse_header j = let* (r, a) := q j in
    let '(cls, k, tag, len, raw) := a in
    Ok (r, mk_header cls k tag len (Some raw) (Some (firstn (length j - length r) j)))) by exact G.
  destruct (q i) as [[r [[[[c k] t] l] raw]]|e|n|] eqn:E; cbn [bind].
  - destruct S as [(pre & ->) S]. split; [exists pre; reflexivity|]. intros x Hx.
    rewrite G', S by exact Hx. cbn [bind]. do 4 f_equal.
    rewrite <- app_assoc.
    replace (length (pre ++ r ++ x) - length (r ++ x))%nat with (length pre) by (rewrite !app_length; lia).
    replace (length (pre ++ r) - length r)%nat with (length pre) by (rewrite !app_length; lia).
    rewrite !firstn_app_exact. reflexivity.
  - intros He x Hx. rewrite G', S by assumption. reflexivity.
  - destruct S as [H1 S]. split; [exact H1|]. intros x Hx Hl. rewrite G', S by assumption. reflexivity.
  - exact S.
Qed.

Lemma parse_header_consumes i r h :
  bytes_ok i -> parse_header i = Ok (r, h) -> exists pre, i = pre ++ r /\ (2 <= length pre)%nat.
Proof.
  intros Hi E. apply parse_header_ok in E as (c & k & t & l & idb & lenb & (O1 & O2 & O3) & _ & -> & _);
    [|exact Hi].
  exists (idb ++ lenb). rewrite app_assoc. split; [reflexivity|].
  apply ident_octets_len in O1. apply length_octets_len in O2. rewrite app_length. unfold blen in *. lia.
Qed.

(** ** The skipping loop *)

Definition suffixing (s : header -> bytes -> res (bytes * bool)) : Prop :=
  forall h i r b, bytes_ok i -> s h i = Ok (r, b) -> exists pre, i = pre ++ r.

Lemma skip_loop_fuel s f f' i :
  suffixing s -> bytes_ok i -> (length i < f)%nat -> (length i < f')%nat ->
  skip_loop s f i = skip_loop s f' i.
Proof.
  intros Hs. revert f' i. induction f as [|f IH]; intros f' i Hi H1 H2; [lia|].
  destruct f' as [|f']; [lia|]. cbn [skip_loop]. unfold header_parse_ber.
  destruct (parse_header i) as [[i2 h2]|e|n|] eqn:E; cbn [bind]; try reflexivity.
  destruct (parse_header_consumes _ _ _ Hi E) as (pre & -> & Hl).
  apply bytes_ok_app in Hi as [_ Hi2].
  destruct (s h2 i2) as [[i3 eoc]|e|n|] eqn:E2; cbn [bind]; try reflexivity.
  destruct eoc; [reflexivity|].
  destruct (Hs _ _ _ _ Hi2 E2) as (pre2 & ->). apply bytes_ok_app in Hi2 as [_ Hi3].
  rewrite !app_length in *. apply IH; [exact Hi3|lia|lia].
Qed.

Lemma skip_loop_unfold s i :
  suffixing s -> bytes_ok i ->
  skip_loop s (S (length i)) i =
    let* (i2, h2) := header_parse_ber i in
    let* (i3, eoc) := s h2 i2 in
    if eoc then Ok (i3, false) else skip_loop s (S (length i3)) i3.
Proof.
  intros Hs Hi. cbn [skip_loop]. unfold header_parse_ber.
  destruct (parse_header i) as [[i2 h2]|e|n|] eqn:E; cbn [bind]; try reflexivity.
  destruct (parse_header_consumes _ _ _ Hi E) as (pre & -> & Hl).
  apply bytes_ok_app in Hi as [_ Hi2].
  destruct (s h2 i2) as [[i3 eoc]|e|n|] eqn:E2; cbn [bind]; try reflexivity.
  destruct eoc; [reflexivity|].
  destruct (Hs _ _ _ _ Hi2 E2) as (pre2 & ->). apply bytes_ok_app in Hi2 as [_ Hi3].
  rewrite !app_length in *. apply (skip_loop_fuel s _ (S (length i3))); try assumption; lia.
Qed.

Lemma streaming_suffixing s : (forall h, streaming (s h)) -> suffixing s.
Proof.
  intros Hs h i r b Hi E. specialize (Hs h i Hi). rewrite E in Hs. apply Hs.
Qed.

Lemma streaming_skip_loop s :
  (forall h, streaming (s h)) -> streaming (fun i => skip_loop s (S (length i)) i).
Proof.
  intros Hs. pose proof (streaming_suffixing s Hs) as Hsuf.
  assert (G : forall n i, (length i < n)%nat -> bytes_ok i ->
    match skip_loop s (S (length i)) i with
    | Ok (r, a) => (exists pre, i = pre ++ r) /\ forall x, bytes_ok x ->
        skip_loop s (S (length (i ++ x))) (i ++ x) = Ok (r ++ x, a)
    | Err e => e <> EInvalidTag -> forall x, bytes_ok x ->
        skip_loop s (S (length (i ++ x))) (i ++ x) = Err e
    | Incomplete n => 1 <= n /\ forall x, bytes_ok x -> blen x < n ->
        skip_loop s (S (length (i ++ x))) (i ++ x) = Incomplete (n - blen x)
    | Panic => False
    end).
  { intros n. induction n as [|n IH]; intros i Hn Hi; [lia|].
    assert (U : forall x, bytes_ok x -> skip_loop s (S (length (i ++ x))) (i ++ x) =
      let* (i2, h2) := header_parse_ber (i ++ x) in
      let* (i3, eoc) := s h2 i2 in
      if eoc then Ok (i3, false) else skip_loop s (S (length i3)) i3).
    { intros x Hx. apply skip_loop_unfold; [exact Hsuf|]. apply bytes_ok_app. split; assumption. }
    rewrite skip_loop_unfold by assumption. unfold header_parse_ber in *.
    pose proof (streaming_parse_header i Hi) as P.
    destruct (parse_header i) as [[i2 h2]|e|m|] eqn:E; cbn [bind].
    - destruct P as [_ P]. destruct (parse_header_consumes _ _ _ Hi E) as (pre & Ei & Hl).
      assert (Hi2 : bytes_ok i2) by (rewrite Ei in Hi; apply bytes_ok_app in Hi; apply Hi).
      pose proof (Hs h2 i2 Hi2) as Q. destruct (s h2 i2) as [[i3 eoc]|e|m|] eqn:E2; cbn [bind].
      + destruct Q as [(pre2 & E3) Q].
        assert (Hi3 : bytes_ok i3) by (rewrite E3 in Hi2; apply bytes_ok_app in Hi2; apply Hi2).
        destruct eoc.
        * split.
          -- exists (pre ++ pre2). rewrite Ei, E3, app_assoc. reflexivity.
          -- intros x Hx. rewrite U, P by exact Hx. cbn [bind]. rewrite Q by exact Hx. reflexivity.
        * specialize (IH i3). assert (Hlen : (length i3 < n)%nat)
            by (rewrite Ei, E3, !app_length in Hn; lia).
          specialize (IH Hlen Hi3).
          destruct (skip_loop s (S (length i3)) i3) as [[r b]|e|m|] eqn:E4.
          -- destruct IH as [(pre3 & E5) IH]. split.
             ++ exists (pre ++ pre2 ++ pre3). rewrite Ei, E3, E5, !app_assoc. reflexivity.
             ++ intros x Hx. rewrite U, P by exact Hx. cbn [bind]. rewrite Q by exact Hx. cbn [bind].
                apply IH. exact Hx.
          -- intros He x Hx. rewrite U, P by exact Hx. cbn [bind]. rewrite Q by exact Hx. cbn [bind].
             apply IH; assumption.
          -- destruct IH as [H1 IH]. split; [exact H1|]. intros x Hx Hlx.
             rewrite U, P by exact Hx. cbn [bind]. rewrite Q by exact Hx. cbn [bind].
             apply IH; assumption.
          -- exact IH.
      + intros He x Hx. rewrite U, P by exact Hx. cbn [bind]. rewrite Q by assumption. reflexivity.
      + destruct Q as [H1 Q]. split; [exact H1|]. intros x Hx Hlx.
        rewrite U, P by exact Hx. cbn [bind]. rewrite Q by assumption. reflexivity.
      + exact Q.
    - intros He x Hx. rewrite U, P by assumption. reflexivity.
    - destruct P as [H1 P]. split; [exact H1|]. intros x Hx Hlx. rewrite U, P by assumption. reflexivity.
    - exact P. }
  intros i Hi. apply (G (S (length i)) i); [lia|exact Hi].
Qed.

Lemma streaming_skip_content d h : streaming (skip_content d h).
Proof.
  revert h. induction d as [|d IH]; intros h; cbn [skip_content]; [apply streaming_err|].
  destruct (h_length h) as [l|].
  - destruct ((l =? 0) && (h_tag h =? TagEndOfContent)); [apply streaming_ok|].
    apply (streaming_bind (take l) (fun _ i => Ok (i, false))); [apply streaming_take|].
    intros _. apply streaming_ok.
  - unfold assert_constructed. destruct (h_constructed h); cbn [bind]; [|apply streaming_err].
    apply streaming_skip_loop. exact IH.
Qed.

Lemma skip_content_suffixing d : suffixing (skip_content d).
Proof. apply streaming_suffixing. apply streaming_skip_content. Qed.

(** ** Contents: soundness and completeness with respect to the grammar *)

Lemma readable_det c k t l idb lenb c' k' t' l' idb' lenb' x x' :
  readable_header c k t l idb lenb -> readable_header c' k' t' l' idb' lenb' ->
  bytes_ok x -> bytes_ok x' ->
  idb ++ lenb ++ x = idb' ++ lenb' ++ x' ->
  c = c' /\ k = k' /\ t mod 2 ^ 32 = t' mod 2 ^ 32 /\ l = l' /\ idb = idb' /\ lenb = lenb' /\ x = x'.
Proof.
  intros [H1 L1] [H2 L2] Hx Hx' E.
  assert (Hok : bytes_ok (idb ++ lenb ++ x)).
  { destruct H1 as (A & B & _). apply bytes_ok_app. split; [eapply ident_octets_ok; eassumption|].
    apply bytes_ok_app. split; [eapply length_octets_ok; eassumption|exact Hx]. }
  assert (P1 : parse_header (idb ++ lenb ++ x)
    = Ok (x, mk_header c k (t mod 2 ^ 32) l (Some idb) (Some (idb ++ lenb)))).
  { apply parse_header_ok; [exact Hok|]. exists c, k, t, l, idb, lenb. auto. }
  assert (P2 : parse_header (idb ++ lenb ++ x)
    = Ok (x', mk_header c' k' (t' mod 2 ^ 32) l' (Some idb') (Some (idb' ++ lenb')))).
  { rewrite E in Hok |- *. apply parse_header_ok; [exact Hok|]. exists c', k', t', l', idb', lenb'. auto. }
  rewrite P1 in P2. injection P2 as E1 E2 E3 E4 E5 E6 E7. subst idb'. apply app_inv_head in E7.
  repeat split; assumption.
Qed.

Lemma marker_like_iff c k t l idb lenb :
  readable_header c k t l idb lenb ->
  (marker_like (idb ++ lenb) <-> l = Definite 0 /\ t mod 2 ^ 32 = 0).
Proof.
  intros H. split.
  - intros (c' & k' & t' & idb' & lenb' & H' & Ht & E).
    destruct (readable_det c k t l idb lenb c' k' t' (Definite 0) idb' lenb' [] [] H H'
      (Forall_nil _) (Forall_nil _)) as (_ & _ & E1 & E2 & _).
    + rewrite !app_nil_r. exact E.
    + split; [exact E2|]. rewrite E1. exact Ht.
  - intros [-> Ht]. exists c, k, t, idb, lenb. auto.
Qed.

Definition is_marker_header (h : header) : bool :=
  match h_length h with Definite l => (l =? 0) && (h_tag h =? TagEndOfContent) | Indefinite => false end.

Lemma skip_content_sound d h i r b :
  bytes_ok i -> skip_content d h i = Ok (r, b) ->
  exists bs, i = bs ++ r /\ b = is_marker_header h /\ contents marker_like marker_like d (h_length h) bs.
Proof.
  revert h i r b. induction d as [|d IH]; intros h i r b Hi E; cbn [skip_content] in E; [discriminate|].
  unfold is_marker_header. destruct (h_length h) as [l|] eqn:Hl.
  - destruct ((l =? 0) && (h_tag h =? TagEndOfContent)) eqn:Hm.
    + injection E as <- <-. exists []. repeat split. constructor. rewrite blen_nil. lia.
    + apply bind_ok in E as ([r' data] & Ht & E). injection E as <- <-.
      apply take_ok in Ht as [-> Hd]. exists data. repeat split. constructor. exact Hd.
  - apply bind_ok in E as ([] & Hc & E).
    assert (G : forall n i, (length i < n)%nat -> bytes_ok i ->
      skip_loop (skip_content d) (S (length i)) i = Ok (r, b) ->
      exists es m, i = es ++ m ++ r /\ b = false /\ elements marker_like marker_like d es /\ marker_like m
                   /\ (1 <= d)%nat).
    { clear i Hi E. intros n. induction n as [|n IHn]; intros i Hn Hi E; [lia|].
      rewrite skip_loop_unfold in E by (assumption || apply skip_content_suffixing).
      apply bind_ok in E as ([i2 h2] & E1 & E). apply bind_ok in E as ([i3 eoc] & E2 & E).
      unfold header_parse_ber in E1. pose proof E1 as E1'.
      apply parse_header_ok in E1 as (c & k & t & l & idb & lenb & HO & HL & Ei & Eh); [|exact Hi].
      assert (Hi2 : bytes_ok i2)
        by (rewrite Ei in Hi; apply bytes_ok_app in Hi as [_ Hi]; apply bytes_ok_app in Hi; apply Hi).
      assert (Hd : (1 <= d)%nat) by (destruct d; [discriminate|lia]).
      destruct (IH _ _ _ _ Hi2 E2) as (bs & Eb & Em & Hcont).
      pose proof (marker_like_iff c k t l idb lenb (conj HO HL)) as Hmk.
      unfold is_marker_header in Em. rewrite Eh in Em. cbn [h_length h_tag] in Em.
      destruct eoc.
      - injection E as <- <-. destruct l as [l|]; [|discriminate].
        symmetry in Em. apply andb_prop in Em as [M1 M2]. apply N.eqb_eq in M1, M2. unfold TagEndOfContent in M2.
        exists [], (idb ++ lenb). rewrite Eh in Hcont. cbn [h_length] in Hcont.
        inversion Hcont as [d0 n0 bs0 Hbs|]; subst.
        destruct bs; [|rewrite blen_cons in Hbs; lia].
        cbn [app]. rewrite app_assoc. repeat split; try assumption.
        + constructor.
        + apply Hmk. split; [reflexivity|exact M2].
      - assert (Hi3 : bytes_ok i3) by (rewrite Eb in Hi2; apply bytes_ok_app in Hi2; apply Hi2).
        destruct (parse_header_consumes _ _ _ Hi E1') as (pre & Ep & Hlp).
        destruct (IHn i3) as (es & m & E3 & -> & He & Hm & _);
          [rewrite Ep, Eb, !app_length in Hn; lia|exact Hi3|exact E|].
        exists (idb ++ lenb ++ bs ++ es), m. rewrite Ei, Eb, E3, <- !app_assoc.
        repeat split; try assumption.
        rewrite Eh in Hcont. cbn [h_length] in Hcont.
        econstructor; [split; eassumption| |exact Hcont|exact He].
        rewrite Hmk. intros [-> Ht]. cbn in Em. unfold TagEndOfContent in Em. rewrite Ht in Em. discriminate. }
    destruct (G (S (length i)) i) as (es & m & -> & -> & He & Hm & Hd); [lia|exact Hi|exact E|].
    exists (es ++ m). rewrite <- app_assoc. repeat split.
    destruct d as [|d]; [lia|]. constructor; assumption.
Qed.

Lemma contents_complete :
  (forall d l bs, contents marker_like marker_like d l bs ->
     forall h r, bytes_ok (bs ++ r) -> h_length h = l -> (l = Indefinite -> h_constructed h = true) ->
     skip_content d h (bs ++ r) = Ok (r, is_marker_header h))
  /\ (forall d es, elements marker_like marker_like d es ->
     (1 <= d)%nat -> forall m r, marker_like m -> bytes_ok (es ++ m ++ r) ->
     skip_loop (skip_content d) (S (length (es ++ m ++ r))) (es ++ m ++ r) = Ok (r, false)).
Proof.
  apply (contents_elements_ind marker_like marker_like
    (fun d l bs _ => forall h r, bytes_ok (bs ++ r) -> h_length h = l ->
       (l = Indefinite -> h_constructed h = true) ->
       skip_content d h (bs ++ r) = Ok (r, is_marker_header h))
    (fun d es _ => (1 <= d)%nat -> forall m r, marker_like m -> bytes_ok (es ++ m ++ r) ->
       skip_loop (skip_content d) (S (length (es ++ m ++ r))) (es ++ m ++ r) = Ok (r, false))).
  - intros d n bs Hn h r Hok Hl Hk. cbn [skip_content]. rewrite Hl. unfold is_marker_header. rewrite Hl.
    destruct ((n =? 0) && (h_tag h =? TagEndOfContent)) eqn:Hm.
    + destruct bs; [reflexivity|]. rewrite blen_cons in Hn. lia.
    + rewrite take_app by exact Hn. reflexivity.
  - intros d es m He IHe Hm h r Hok Hl Hk. cbn [skip_content]. rewrite Hl.
    unfold is_marker_header. rewrite Hl.
    unfold assert_constructed. rewrite Hk by reflexivity. cbn [bind].
    rewrite <- app_assoc in *. apply IHe; [lia|exact Hm|exact Hok].
  - intros d Hd m r (c & k & t & idb & lenb & HR & Ht & ->) Hok. cbn [app] in *.
    rewrite skip_loop_unfold by (assumption || apply skip_content_suffixing).
    rewrite <- app_assoc in *.
    assert (P : header_parse_ber (idb ++ lenb ++ r)
      = Ok (r, mk_header c k (t mod 2 ^ 32) (Definite 0) (Some idb) (Some (idb ++ lenb)))).
    { apply parse_header_ok; [exact Hok|]. exists c, k, t, (Definite 0), idb, lenb.
      destruct HR. auto. }
    rewrite P. cbn [bind]. destruct d as [|d]; [lia|]. cbn [skip_content h_length h_tag].
    rewrite Ht. reflexivity.
  - intros d c k t l idb lenb bs rest HR Hnm Hc IHc He IHe Hd m r Hm Hok.
    rewrite skip_loop_unfold by (assumption || apply skip_content_suffixing).
    rewrite <- !app_assoc in *.
    assert (P : header_parse_ber (idb ++ lenb ++ bs ++ rest ++ m ++ r)
      = Ok (bs ++ rest ++ m ++ r, mk_header c k (t mod 2 ^ 32) l (Some idb) (Some (idb ++ lenb)))).
    { apply parse_header_ok; [exact Hok|]. exists c, k, t, l, idb, lenb.
      destruct HR. auto. }
    rewrite P. cbn [bind].
    apply bytes_ok_app in Hok as [_ Hok]. apply bytes_ok_app in Hok as [_ Hok].
    rewrite IHc; [|exact Hok|reflexivity|].
    + cbn [bind]. unfold is_marker_header. cbn [h_length h_tag].
      rewrite (marker_like_iff _ _ _ _ _ _ HR) in Hnm.
      assert (Hf : match l with Definite l => (l =? 0) && (t mod 2 ^ 32 =? TagEndOfContent)
                   | Indefinite => false end = false).
      { destruct l as [l|]; [|reflexivity]. apply not_true_iff_false. intros Htr.
        apply andb_prop in Htr as [T1 T2]. apply N.eqb_eq in T1, T2. apply Hnm. subst l. auto. }
      rewrite Hf. apply IHe; [exact Hd|exact Hm|]. apply bytes_ok_app in Hok. apply Hok.
    + cbn [h_constructed]. destruct HR as [(_ & _ & HK) _]. exact HK.
Qed.

Lemma marker_like_len m : marker_like m -> (2 <= length m)%nat.
Proof.
  intros (c & k & t & idb & lenb & [(H1 & H2 & _) _] & _ & ->).
  apply ident_octets_len in H1. apply length_octets_len in H2. rewrite app_length. unfold blen in *. lia.
Qed.

Lemma contents_indefinite_len (m ex : bytes -> Prop) d bs :
  (forall x, m x -> (2 <= length x)%nat) -> contents m ex d Indefinite bs -> (2 <= length bs)%nat.
Proof.
  intros Hm H. inversion H as [|d' es mk He Hmk]; subst. specialize (Hm mk Hmk). rewrite app_length. lia.
Qed.

Lemma ber_object_content_ok d h i r data :
  bytes_ok i ->
  (ber_object_content h i d = Ok (r, data) <->
   exists bs, i = bs ++ r /\ contents marker_like marker_like d (h_length h) bs
     /\ (h_length h = Indefinite -> h_constructed h = true) /\ data = content_of (h_length h) bs).
Proof.
  intros Hi. unfold ber_object_content. rewrite bind_ok. split.
  - intros ([r' b] & E & F). pose proof E as E'. apply skip_content_sound in E as (bs & -> & -> & Hc); [|exact Hi].
    replace (length (bs ++ r') - length r')%nat with (length bs) in F by (rewrite app_length; lia).
    unfold content_of. destruct (h_length h) as [l|] eqn:Hl; cbn [is_definite] in F.
    + injection F as <- <-. exists bs. rewrite firstn_app_exact, skipn_app, skipn_all, Nat.sub_diag.
      cbn [skipn app]. repeat split; [exact Hc|discriminate].
    + destruct (length bs <? 2)%nat eqn:H2; [discriminate|]. injection F as <- <-.
      exists bs. repeat split; [exact Hc| |].
      * intros _. destruct d as [|d]; [discriminate|]. cbn [skip_content] in E'. rewrite Hl in E'.
        apply bind_ok in E' as ([] & Hk & _). unfold assert_constructed in Hk.
        destruct (h_constructed h); [reflexivity|discriminate].
      * rewrite firstn_app. replace (length bs - 2 - length bs)%nat with 0%nat by lia.
        cbn [firstn]. rewrite app_nil_r. reflexivity.
  - intros (bs & -> & Hc & Hk & ->).
    pose proof (proj1 contents_complete _ _ _ Hc h r Hi eq_refl Hk) as E.
    exists (r, is_marker_header h). split; [exact E|].
    replace (length (bs ++ r) - length r)%nat with (length bs) by (rewrite app_length; lia).
    unfold content_of. destruct (h_length h) as [l|] eqn:Hl; cbn [is_definite].
    + rewrite firstn_app_exact, skipn_app, skipn_all, Nat.sub_diag. reflexivity.
    + pose proof (contents_indefinite_len _ _ _ _ marker_like_len Hc) as H2.
      destruct (Nat.ltb_spec (length bs) 2); [lia|].
      rewrite firstn_app. replace (length bs - 2 - length bs)%nat with 0%nat by lia.
      cbn [firstn]. rewrite app_nil_r. reflexivity.
Qed.

Lemma streaming_ber_object_content d h : streaming (fun i => ber_object_content h i d).
Proof.
  intros i Hi. pose proof (streaming_skip_content d h i Hi) as S.
  destruct (ber_object_content h i d) as [[r data]|e|n|] eqn:E.
  - apply ber_object_content_ok in E as (bs & -> & Hc & Hk & ->); [|exact Hi].
    split; [exists bs; reflexivity|]. intros x Hx. apply ber_object_content_ok.
    + apply bytes_ok_app. split; assumption.
    + exists bs. rewrite app_assoc. auto.
  - unfold ber_object_content in *. destruct (skip_content d h i) as [[r b]|e'|n|]; cbn [bind] in *.
    + destruct (is_definite (h_length h)); [discriminate|].
      destruct (length i - length r <? 2)%nat; discriminate.
    + injection E as ->. intros He x Hx. rewrite S by assumption. reflexivity.
    + discriminate.
    + contradiction.
  - unfold ber_object_content in *. destruct (skip_content d h i) as [[r b]|e'|n'|]; cbn [bind] in *.
    + destruct (is_definite (h_length h)); [discriminate|].
      destruct (length i - length r <? 2)%nat; discriminate.
    + discriminate.
    + injection E as ->. destruct S as [H1 S]. split; [exact H1|]. intros x Hx Hl.
      rewrite S by assumption. reflexivity.
    + contradiction.
  - unfold ber_object_content in E.
    destruct (skip_content d h i) as [[r b]|e'|n'|] eqn:E2; cbn [bind] in E; try discriminate;
      [|contradiction].
    pose proof (skip_content_sound _ _ _ _ _ Hi E2) as (bs & -> & _ & Hc).
    replace (length (bs ++ r) - length r)%nat with (length bs) in E by (rewrite app_length; lia).
    destruct (h_length h) as [l|]; cbn [is_definite] in E; [discriminate|].
    pose proof (contents_indefinite_len _ _ _ _ marker_like_len Hc) as H2.
    destruct (Nat.ltb_spec (length bs) 2); [lia|discriminate].
Qed.

Lemma streaming_parse_ber_any : streaming parse_ber_any.
Proof.
  unfold parse_ber_any, header_parse_ber.
  apply (streaming_bind parse_header (fun h i => let* (i, data) := ber_object_content h i MAX_RECURSION in
    Ok (i, mk_any h data))); [apply streaming_parse_header|].
  intros h. apply (streaming_bind (fun i => ber_object_content h i MAX_RECURSION)
    (fun data i => Ok (i, mk_any h data))); [apply streaming_ber_object_content|].
  intros data. apply streaming_ok.
Qed.

Lemma streaming_header_parse_der : streaming header_parse_der.
Proof.
  unfold header_parse_der.
  apply (streaming_bind parse_header (fun h rem => if is_definite (h_length h) then Ok (rem, h)
    else Err (EDerConstraintFailed DCIndefiniteLength))); [apply streaming_parse_header|].
  intros h. destruct (is_definite (h_length h)); [apply streaming_ok|apply streaming_err].
Qed.

Lemma streaming_der_get_content h : streaming (der_get_content h).
Proof. unfold der_get_content. destruct (h_length h); [apply streaming_take|apply streaming_err]. Qed.

Lemma streaming_parse_der_any : streaming parse_der_any.
Proof.
  unfold parse_der_any.
  apply (streaming_bind header_parse_der (fun h i => let* _ := length_assert_definite (h_length h) in
    let* (i, data) := der_get_content h i in Ok (i, mk_any h data)));
    [apply streaming_header_parse_der|].
  intros h. unfold length_assert_definite. destruct (is_definite (h_length h)); cbn [bind];
    [|apply streaming_err].
  apply (streaming_bind (der_get_content h) (fun data i => Ok (i, mk_any h data)));
    [apply streaming_der_get_content|]. intros data. apply streaming_ok.
Qed.

(** [EFuel] is never produced. *)
Lemma skip_loop_no_fuel s f i :
  suffixing s -> (forall h i, bytes_ok i -> s h i <> Err EFuel) ->
  bytes_ok i -> (length i < f)%nat -> skip_loop s f i <> Err EFuel.
Proof.
  intros Hs Hn. revert i. induction f as [|f IH]; intros i Hi Hf; [lia|]. cbn [skip_loop].
  unfold header_parse_ber. intros E.
  destruct (parse_header i) as [[i2 h2]|e|n|] eqn:E1; cbn [bind] in E; try discriminate.
  - destruct (parse_header_consumes _ _ _ Hi E1) as (pre & -> & Hl).
    apply bytes_ok_app in Hi as [_ Hi2]. specialize (Hn h2 i2 Hi2).
    destruct (s h2 i2) as [[i3 eoc]|e|n|] eqn:E2; cbn [bind] in E; try discriminate; [|congruence].
    destruct eoc; [discriminate|]. destruct (Hs _ _ _ _ Hi2 E2) as (pre2 & ->).
    apply bytes_ok_app in Hi2 as [_ Hi3]. rewrite !app_length in Hf. revert E. apply IH; [exact Hi3|lia].
  - injection E as ->. clear - E1. unfold parse_header in E1.
    destruct i as [|b0 i]; [discriminate|]. cbn [be_u8 bind] in E1.
    destruct (class_try_from (N.shiftr b0 6)); [|discriminate].
    set (k := negb (N.land b0 32 =? 0)) in *.
    assert (PL : forall r, parse_length k r <> Err EFuel).
    { intros r E. unfold parse_length in E. destruct r as [|b r]; [discriminate|]. cbn [be_u8 bind] in E.
      destruct (b =? 128); [destruct k; discriminate|].
      destruct (N.land b 128 =? 0); [discriminate|]. destruct (b =? 255); [discriminate|].
      unfold take in E. destruct (N.land b 127 <=? blen r); [|discriminate]. cbn [bind] in E.
      destruct (bytes_to_u64 _); discriminate. }
    assert (K : forall raw r t, (let* (rem, len) := parse_length k r in
        Ok (rem, mk_header c k t len raw (Some (firstn (length (b0 :: i) - length rem) (b0 :: i)))))
        <> Err EFuel).
    { intros raw r t E. specialize (PL r). destruct (parse_length k r) as [[r' l]|e|n|]; cbn [bind] in E;
        try discriminate. congruence. }
    destruct (N.land b0 31 =? 31); cbn [bind] in E1.
    + pose proof (tag_loop_cases i 0 1) as T.
      destruct (tag_loop i 0 1) as [[[r t] cnt]|e|n|]; cbn [bind] in E1; try discriminate.
      * destruct (blen (b0 :: i) <? cnt); [discriminate|]. exact (K _ _ _ E1).
      * congruence.
    + destruct (blen (b0 :: i) <? 1); [discriminate|]. exact (K _ _ _ E1).
Qed.

Lemma skip_content_no_fuel d h i : bytes_ok i -> skip_content d h i <> Err EFuel.
Proof.
  revert h i. induction d as [|d IH]; intros h i Hi; cbn [skip_content]; [discriminate|].
  destruct (h_length h) as [l|].
  - destruct ((l =? 0) && (h_tag h =? TagEndOfContent)); [discriminate|].
    unfold take. destruct (l <=? blen i); discriminate.
  - unfold assert_constructed. destruct (h_constructed h); [|discriminate]. cbn [bind].
    apply skip_loop_no_fuel; [apply skip_content_suffixing|exact IH|exact Hi|lia].
Qed.
