(** Proofs about the typed entry points (for any type) and the object iterator. *)
From Verif Require Import Base MHeader MEncode SHeader PArith PHeader PEncode MBer SBer PBer.

(** ** [Any] entry points *)

Lemma parse_ber_any_ok i r a :
  bytes_ok i ->
  (parse_ber_any i = Ok (r, a) <->
   exists c k t l idb lenb bs,
     readable_header c k t l idb lenb /\ i = idb ++ lenb ++ bs ++ r
     /\ impl_contents MAX_RECURSION l bs
     /\ a = mk_any (mk_header c k (t mod 2 ^ 32) l (Some idb) (Some (idb ++ lenb))) (content_of l bs)).
Proof.
  intros Hi. unfold parse_ber_any. rewrite bind_ok. split.
  - intros ([i2 h] & E1 & E). apply bind_ok in E as ([i3 data] & E2 & E). injection E as <- <-.
    unfold header_parse_ber in E1.
    apply parse_header_ok in E1 as (c & k & t & l & idb & lenb & HO & HL & -> & ->); [|exact Hi].
    apply bytes_ok_app in Hi as [_ Hi]. apply bytes_ok_app in Hi as [_ Hi].
    apply ber_object_content_ok in E2 as (bs & -> & Hc & _ & ->); [|exact Hi].
    cbn [h_length] in *. exists c, k, t, l, idb, lenb, bs. repeat split; try assumption; apply HO || apply HL.
  - intros (c & k & t & l & idb & lenb & bs & [HO HL] & -> & Hc & ->).
    exists (bs ++ r, mk_header c k (t mod 2 ^ 32) l (Some idb) (Some (idb ++ lenb))). split.
    + apply parse_header_ok; [exact Hi|]. exists c, k, t, l, idb, lenb. auto.
    + apply bytes_ok_app in Hi as [_ Hi]. apply bytes_ok_app in Hi as [_ Hi].
      apply bind_ok. exists (r, content_of l bs). split; [|reflexivity].
      apply ber_object_content_ok; [exact Hi|]. exists bs. cbn [h_length h_constructed].
      repeat split; try assumption. apply HO.
Qed.

Lemma parse_der_any_ok i r a :
  bytes_ok i ->
  (parse_der_any i = Ok (r, a) <->
   exists c k t n idb lenb bs,
     readable_header c k t (Definite n) idb lenb /\ i = idb ++ lenb ++ bs ++ r /\ blen bs = n
     /\ a = mk_any (mk_header c k (t mod 2 ^ 32) (Definite n) (Some idb) (Some (idb ++ lenb))) bs).
Proof.
  intros Hi. unfold parse_der_any, header_parse_der, length_assert_definite, der_get_content. split.
  - intros E. apply bind_ok in E as ([i2 h] & E1 & E). apply bind_ok in E1 as ([i2' h'] & E1 & E3).
    destruct (h_length h') as [n|] eqn:Hl; cbn [is_definite] in E3; [|discriminate].
    injection E3 as <- <-. rewrite Hl in E. cbn [is_definite bind] in E.
    apply bind_ok in E as ([i3 data] & E2 & E). injection E as <- <-.
    apply take_ok in E2 as [-> E2].
    apply parse_header_ok in E1 as (c & k & t & l & idb & lenb & HO & HL & -> & ->); [|exact Hi].
    cbn [h_length] in Hl. subst l. exists c, k, t, n, idb, lenb, data. repeat split; try assumption; apply HO || apply HL.
  - intros (c & k & t & n & idb & lenb & bs & [HO HL] & -> & Hn & ->).
    assert (P : parse_header (idb ++ lenb ++ bs ++ r) = Ok (bs ++ r,
       mk_header c k (t mod 2 ^ 32) (Definite n) (Some idb) (Some (idb ++ lenb)))).
    { apply parse_header_ok; [exact Hi|]. exists c, k, t, (Definite n), idb, lenb. auto. }
    rewrite P. cbn [bind is_definite h_length]. rewrite take_app by exact Hn. reflexivity.
Qed.

Lemma contents_definite_len m ex d n bs : contents m ex d (Definite n) bs -> blen bs = n.
Proof. intros H. inversion H. assumption. Qed.

Lemma take_all i : take (blen i) i = Ok ([], i).
Proof. rewrite <- (app_nil_r i) at 2. apply take_app. reflexivity. Qed.

Lemma any_parse_ber_eq i : bytes_ok i -> any_parse_ber i = parse_ber_any i.
Proof.
  intros Hi. unfold any_parse_ber, parse_ber, parse_ber_any, any_codec, any_ber_content, header_parse_ber.
  cbn [accept_tag ber_content].
  destruct (parse_header i) as [[i2 h]|e|n|] eqn:E; cbn [bind]; try reflexivity.
  destruct (parse_header_consumes _ _ _ Hi E) as (pre & -> & _). apply bytes_ok_app in Hi as [_ Hi].
  destruct (ber_object_content h i2 MAX_RECURSION) as [[i3 data]|e|n|] eqn:E2; cbn [bind]; try reflexivity.
  apply ber_object_content_ok in E2 as (bs & -> & Hc & _ & ->); [|exact Hi].
  destruct (h_length h) as [l|]; unfold content_of.
  - rewrite <- (contents_definite_len _ _ _ _ _ Hc), take_all. reflexivity.
  - rewrite take_all. reflexivity.
Qed.

Lemma any_parse_der_eq i : bytes_ok i -> any_parse_der i = parse_der_any i.
Proof.
  intros Hi. unfold any_parse_der, parse_der, parse_der_any, any_codec, any_der_content, der_get_content,
    length_assert_definite, header_parse_der.
  cbn [accept_tag der_content].
  destruct (parse_header i) as [[i2 h]|e|n|] eqn:E; cbn [bind]; try reflexivity.
  destruct (h_length h) as [l|] eqn:Hl; cbn [is_definite bind]; [|reflexivity].
  rewrite Hl. cbn [is_definite bind].
  destruct (take l i2) as [[i3 data]|e|n|] eqn:E2; cbn [bind]; try reflexivity.
  apply take_ok in E2 as [_ E2]. rewrite <- E2, take_all. reflexivity.
Qed.

Lemma streaming_on {A} (p q : bytes -> res (bytes * A)) :
  (forall i, bytes_ok i -> p i = q i) -> streaming q -> streaming p.
Proof.
  intros E H i Hi. specialize (H i Hi). rewrite E by exact Hi.
  assert (E' : forall x, bytes_ok x -> p (i ++ x) = q (i ++ x))
    by (intros x Hx; apply E; apply bytes_ok_app; split; assumption).
  destruct (q i) as [[r a]|e|n|]; [| | |exact H].
  - destruct H as [H1 H2]. split; [exact H1|]. intros x Hx. rewrite E' by exact Hx. apply H2. exact Hx.
  - intros He x Hx. rewrite E' by exact Hx. apply H; assumption.
  - destruct H as [H1 H2]. split; [exact H1|]. intros x Hx Hl. rewrite E' by exact Hx. apply H2; assumption.
Qed.

Lemma streaming_any_parse_ber : streaming any_parse_ber.
Proof. apply (streaming_on _ parse_ber_any any_parse_ber_eq). apply streaming_parse_ber_any. Qed.

Lemma streaming_any_parse_der : streaming any_parse_der.
Proof. apply (streaming_on _ parse_der_any any_parse_der_eq). apply streaming_parse_der_any. Qed.

(** ** Typed entry points *)

(** A result that is neither [Incomplete] nor a panic. *)
Definition settled {A} (r : res A) : Prop := match r with Ok _ | Err _ => True | _ => False end.

(** A type whose conversions settle. *)
Definition settled_codec {T} (p : codec T) : Prop :=
  (forall h d, bytes_ok d -> settled (ber_content p h d)) /\
  (forall h d, bytes_ok d -> settled (der_content p h d)).

Definition settled_from {T} (p : codec T) : Prop :=
  (forall a, bytes_ok (any_data a) -> settled (try_from_any p a)) /\
  (forall a, bytes_ok (any_data a) -> settled (check_constraints p a)).

(** Running a parser then a function of its result only. *)
Lemma streaming_map {A B} (p : bytes -> res (bytes * A)) (g : A -> res B) (P : A -> Prop) :
  streaming p -> (forall i r a, bytes_ok i -> p i = Ok (r, a) -> P a) ->
  (forall a, P a -> settled (g a)) ->
  streaming (fun i => let* (r, a) := p i in let* b := g a in Ok (r, b)).
Proof.
  intros Hp HP Hg i Hi. specialize (Hp i Hi). destruct (p i) as [[r a]|e|n|] eqn:E; cbn [bind].
  - destruct Hp as [H1 H2]. specialize (Hg a (HP _ _ _ Hi E)).
    destruct (g a) as [b|e|n|] eqn:Eg; cbn [bind]; try contradiction.
    + split; [exact H1|]. intros x Hx. rewrite H2 by exact Hx. cbn [bind]. rewrite Eg. reflexivity.
    + intros He x Hx. rewrite H2 by exact Hx. cbn [bind]. rewrite Eg. reflexivity.
  - intros He x Hx. rewrite Hp by assumption. reflexivity.
  - destruct Hp as [H1 H2]. split; [exact H1|]. intros x Hx Hl. rewrite H2 by assumption. reflexivity.
  - exact Hp.
Qed.

Lemma content_of_ok l bs : bytes_ok bs -> bytes_ok (content_of l bs).
Proof.
  intros H. destruct l; [exact H|]. cbn [content_of]. rewrite <- (firstn_skipn (length bs - 2) bs) in H.
  apply bytes_ok_app in H. apply H.
Qed.

Lemma parse_ber_any_data i r a : bytes_ok i -> parse_ber_any i = Ok (r, a) -> bytes_ok (any_data a).
Proof.
  intros Hi E. apply parse_ber_any_ok in E as (c & k & t & l & idb & lenb & bs & _ & -> & _ & ->);
    [|exact Hi].
  cbn [any_data]. apply content_of_ok. rewrite !bytes_ok_app in Hi. apply Hi.
Qed.

Lemma parse_der_any_data i r a : bytes_ok i -> parse_der_any i = Ok (r, a) -> bytes_ok (any_data a).
Proof.
  intros Hi E. apply parse_der_any_ok in E as (c & k & t & n & idb & lenb & bs & _ & -> & _ & ->);
    [|exact Hi].
  cbn [any_data]. rewrite !bytes_ok_app in Hi. apply Hi.
Qed.

Lemma streaming_from_ber {T} (p : codec T) : settled_from p -> streaming (from_ber p).
Proof.
  intros [H1 H2]. unfold from_ber.
  apply (streaming_map parse_ber_any (try_from_any p) (fun a => bytes_ok (any_data a))).
  - apply streaming_parse_ber_any.
  - exact parse_ber_any_data.
  - exact H1.
Qed.

Lemma streaming_from_der {T} (p : codec T) : settled_from p -> streaming (from_der p).
Proof.
  intros [H1 H2].
  apply (streaming_ext _ (fun i => let* (r, a) := parse_der_any i in
    let* x := (let* _ := check_constraints p a in try_from_any p a) in Ok (r, x))).
  - intros i. unfold from_der. destruct (parse_der_any i) as [[r a]|e|n|]; cbn [bind]; try reflexivity.
    destruct (check_constraints p a); reflexivity.
  - apply (streaming_map parse_der_any _ (fun a => bytes_ok (any_data a))).
    + apply streaming_parse_der_any.
    + exact parse_der_any_data.
    + intros a Ha. specialize (H1 a Ha). specialize (H2 a Ha).
      destruct (check_constraints p a); cbn [bind]; try contradiction; [exact H1|exact I].
Qed.

Lemma ber_object_content_data h i d r data :
  bytes_ok i -> ber_object_content h i d = Ok (r, data) -> bytes_ok data.
Proof.
  intros Hi E. apply ber_object_content_ok in E as (bs & -> & _ & _ & ->); [|exact Hi].
  apply content_of_ok. apply bytes_ok_app in Hi. apply Hi.
Qed.

Lemma streaming_parse_ber {T} (p : codec T) : settled_codec p -> streaming (parse_ber p).
Proof.
  intros [H1 _]. unfold parse_ber, header_parse_ber.
  apply (streaming_bind parse_header (fun h rem =>
    if accept_tag p (h_tag h) then
      let* (rem, data) := ber_object_content h rem MAX_RECURSION in
      let* (_, x) := ber_content p h data in Ok (rem, x)
    else Err EUnexpectedTag)); [apply streaming_parse_header|].
  intros h. destruct (accept_tag p (h_tag h)); [|apply streaming_err].
  apply (streaming_ext _ (fun i => let* (r, data) := ber_object_content h i MAX_RECURSION in
    let* x := (let* (_, x) := ber_content p h data in Ok x) in Ok (r, x))).
  - intros i. destruct (ber_object_content h i MAX_RECURSION) as [[r data]|e|n|]; cbn [bind]; try reflexivity.
    destruct (ber_content p h data) as [[? ?]|e|n|]; reflexivity.
  - apply (streaming_map (fun i => ber_object_content h i MAX_RECURSION) _ bytes_ok).
    + apply streaming_ber_object_content.
    + intros i r a. apply ber_object_content_data.
    + intros data Hd. specialize (H1 h data Hd).
      destruct (ber_content p h data) as [[? ?]|e|n|]; cbn; auto.
Qed.

Lemma streaming_parse_der {T} (p : codec T) : settled_codec p -> streaming (parse_der p).
Proof.
  intros [_ H1]. unfold parse_der.
  apply (streaming_bind header_parse_der (fun h rem =>
    match h_length h with
    | Indefinite => Err EIndefiniteLengthUnexpected
    | Definite l =>
      if accept_tag p (h_tag h) then
        let* (rem, data) := take l rem in
        let* (_, x) := der_content p h data in
        Ok (rem, x)
      else Err EUnexpectedTag
    end)); [apply streaming_header_parse_der|].
  intros h. destruct (h_length h) as [l|]; [|apply streaming_err].
  destruct (accept_tag p (h_tag h)); [|apply streaming_err].
  apply (streaming_ext _ (fun i => let* (r, data) := take l i in
    let* x := (let* (_, x) := der_content p h data in Ok x) in Ok (r, x))).
  - intros i. destruct (take l i) as [[r data]|e|n|]; cbn [bind]; try reflexivity.
    destruct (der_content p h data) as [[? ?]|e|n|]; reflexivity.
  - apply (streaming_map (take l) _ bytes_ok).
    + apply streaming_take.
    + intros i r a Hi E. apply take_ok in E as [-> _]. apply bytes_ok_app in Hi. apply Hi.
    + intros data Hd. specialize (H1 h data Hd).
      destruct (der_content p h data) as [[? ?]|e|n|]; cbn; auto.
Qed.

(** Successful results are stable for every type, settled or not. *)
Lemma parse_ber_stable {T} (p : codec T) i r a x :
  bytes_ok i -> bytes_ok x -> parse_ber p i = Ok (r, a) -> parse_ber p (i ++ x) = Ok (r ++ x, a).
Proof.
  intros Hi Hx E. unfold parse_ber, header_parse_ber in *.
  apply bind_ok in E as ([i2 h] & E1 & E). pose proof (streaming_parse_header i Hi) as S. rewrite E1 in S.
  destruct S as [(pre & Ei) S]. rewrite S by exact Hx. cbn [bind].
  destruct (accept_tag p (h_tag h)); [|discriminate].
  apply bind_ok in E as ([i3 data] & E2 & E).
  assert (Hi2 : bytes_ok i2) by (rewrite Ei in Hi; apply bytes_ok_app in Hi; apply Hi).
  pose proof (streaming_ber_object_content MAX_RECURSION h i2 Hi2) as S2. cbv beta in S2. rewrite E2 in S2.
  destruct S2 as [_ S2]. rewrite S2 by exact Hx. cbn [bind].
  apply bind_ok in E as ([? v] & E3 & E). rewrite E3. cbn [bind]. injection E as <- <-. reflexivity.
Qed.

Lemma parse_der_stable {T} (p : codec T) i r a x :
  bytes_ok i -> bytes_ok x -> parse_der p i = Ok (r, a) -> parse_der p (i ++ x) = Ok (r ++ x, a).
Proof.
  intros Hi Hx E. unfold parse_der in *.
  apply bind_ok in E as ([i2 h] & E1 & E). pose proof (streaming_header_parse_der i Hi) as S. rewrite E1 in S.
  destruct S as [(pre & Ei) S]. rewrite S by exact Hx. cbn [bind].
  destruct (h_length h) as [l|]; [|discriminate].
  destruct (accept_tag p (h_tag h)); [|discriminate].
  apply bind_ok in E as ([i3 data] & E2 & E).
  assert (Hi2 : bytes_ok i2) by (rewrite Ei in Hi; apply bytes_ok_app in Hi; apply Hi).
  pose proof (streaming_take l i2 Hi2) as S2. rewrite E2 in S2.
  destruct S2 as [_ S2]. rewrite S2 by exact Hx. cbn [bind].
  apply bind_ok in E as ([? v] & E3 & E). rewrite E3. cbn [bind]. injection E as <- <-. reflexivity.
Qed.

Lemma from_ber_stable {T} (p : codec T) i r a x :
  bytes_ok i -> bytes_ok x -> from_ber p i = Ok (r, a) -> from_ber p (i ++ x) = Ok (r ++ x, a).
Proof.
  intros Hi Hx E. unfold from_ber in *. apply bind_ok in E as ([i2 v] & E1 & E).
  pose proof (streaming_parse_ber_any i Hi) as S. rewrite E1 in S. destruct S as [_ S].
  rewrite S by exact Hx. cbn [bind]. apply bind_ok in E as (y & E2 & E). rewrite E2. cbn [bind].
  injection E as <- <-. reflexivity.
Qed.

Lemma from_der_stable {T} (p : codec T) i r a x :
  bytes_ok i -> bytes_ok x -> from_der p i = Ok (r, a) -> from_der p (i ++ x) = Ok (r ++ x, a).
Proof.
  intros Hi Hx E. unfold from_der in *. apply bind_ok in E as ([i2 v] & E1 & E).
  pose proof (streaming_parse_der_any i Hi) as S. rewrite E1 in S. destruct S as [_ S].
  rewrite S by exact Hx. cbn [bind]. apply bind_ok in E as (u & E3 & E). rewrite E3. cbn [bind].
  apply bind_ok in E as (y & E2 & E). rewrite E2. cbn [bind].
  injection E as <- <-. reflexivity.
Qed.

(** ** The iterator *)

(** What the iterator needs of the object parser. *)
Definition object_parser (p : bytes -> res (bytes * any)) : Prop :=
  streaming p /\
  (forall i r a, bytes_ok i -> p i = Ok (r, a) ->
     exists pre, i = pre ++ r /\ (2 <= length pre)%nat /\ p pre = Ok ([], a)).

Lemma object_parser_ber : object_parser any_parse_ber.
Proof.
  split; [apply streaming_any_parse_ber|]. intros i r a Hi E.
  rewrite any_parse_ber_eq in E by exact Hi.
  apply parse_ber_any_ok in E as (c & k & t & l & idb & lenb & bs & HR & -> & Hc & ->); [|exact Hi].
  exists (idb ++ lenb ++ bs). rewrite <- !app_assoc. split; [reflexivity|]. split.
  - destruct HR as [(O1 & O2 & _) _]. apply ident_octets_len in O1. apply length_octets_len in O2.
    rewrite !app_length. unfold blen in *. lia.
  - assert (Hok : bytes_ok (idb ++ lenb ++ bs)) by (rewrite !bytes_ok_app in *; intuition).
    rewrite any_parse_ber_eq by exact Hok. apply parse_ber_any_ok; [exact Hok|].
    exists c, k, t, l, idb, lenb, bs. rewrite app_nil_r. auto.
Qed.

Lemma object_parser_der : object_parser any_parse_der.
Proof.
  split; [apply streaming_any_parse_der|]. intros i r a Hi E.
  rewrite any_parse_der_eq in E by exact Hi.
  apply parse_der_any_ok in E as (c & k & t & n & idb & lenb & bs & HR & -> & Hc & ->); [|exact Hi].
  exists (idb ++ lenb ++ bs). rewrite <- !app_assoc. split; [reflexivity|]. split.
  - destruct HR as [(O1 & O2 & _) _]. apply ident_octets_len in O1. apply length_octets_len in O2.
    rewrite !app_length. unfold blen in *. lia.
  - assert (Hok : bytes_ok (idb ++ lenb ++ bs)) by (rewrite !bytes_ok_app in *; intuition).
    rewrite any_parse_der_eq by exact Hok. apply parse_der_any_ok; [exact Hok|].
    exists c, k, t, n, idb, lenb, bs. rewrite app_nil_r. auto.
Qed.

Lemma iter_calls_stopped p n s :
  fst (iter_next p s) = None -> iter_calls p n s = (repeat None n, s).
Proof.
  intros H. induction n as [|n IH]; [reflexivity|]. cbn [iter_calls repeat].
  unfold iter_next in *. destruct (it_has_error s || (blen (it_input s) =? 0)).
  - rewrite IH. reflexivity.
  - exfalso. destruct (p (it_input s)) as [[r a]|e|m|]; discriminate.
Qed.

(** The outcome of [n] calls to [next]. *)
Lemma iter_calls_spec p n i :
  object_parser p -> bytes_ok i ->
  exists oks e k,
    fst (iter_calls p n (iter_new i)) = map (fun x => Some (Ok x)) oks ++ e ++ repeat None k
    /\ (length oks + length e + k)%nat = n
    /\ i = concat (map fst oks) ++ it_input (snd (iter_calls p n (iter_new i)))
    /\ Forall (fun x => p (fst x) = Ok ([], snd x) /\ (2 <= length (fst x))%nat) oks
    /\ (e = [] /\ (k <> 0%nat -> it_input (snd (iter_calls p n (iter_new i))) = [])
        \/ exists err, e = [Some (Err err)]
             /\ it_input (snd (iter_calls p n (iter_new i))) <> []
             /\ close (p (it_input (snd (iter_calls p n (iter_new i))))) = Err err).
Proof.
  intros [Hst Hp]. revert i. induction n as [|n IH]; intros i Hi.
  - exists [], [], 0%nat. cbn. repeat split; try constructor. split; [reflexivity|congruence].
  - destruct (fst (iter_next p (iter_new i))) as [x|] eqn:En.
    2:{ rewrite iter_calls_stopped by exact En. exists [], [], (S n). cbn [fst snd map app concat].
        repeat split; try constructor. split; [reflexivity|]. intros _.
        unfold iter_next, iter_new in En. cbn [it_has_error it_input orb] in *.
        destruct (N.eqb_spec (blen i) 0) as [H0|H0].
        - destruct i; [reflexivity|]. rewrite blen_cons in H0. lia.
        - exfalso. destruct (p i) as [[r a]|e|m|]; discriminate. }
    cbn [iter_calls]. unfold iter_next, iter_new in *. cbn [it_has_error it_input orb] in *.
    destruct (N.eqb_spec (blen i) 0) as [H0|H0]; [discriminate|].
    assert (Hne : i <> []) by (intros ->; rewrite blen_nil in H0; lia).
    destruct (p i) as [[r a]|e|m|] eqn:E; cbn [fst] in En.
    + destruct (Hp _ _ _ Hi E) as (pre & -> & Hlen & Hpre).
      apply bytes_ok_app in Hi as [Hpok Hr].
      replace (length (pre ++ r) - length r)%nat with (length pre) by (rewrite app_length; lia).
      rewrite firstn_app_exact. specialize (IH r Hr). unfold iter_new in IH.
      destruct (iter_calls p n (mk_iter r false)) as [xs s2] eqn:Ec. cbn [fst snd] in *.
      destruct IH as (oks & e & k & E1 & E2 & E3 & E4 & E5).
      exists ((pre, a) :: oks), e, k. cbn [map app fst snd concat length]. rewrite E1.
      repeat split.
      * lia.
      * rewrite <- app_assoc, <- E3. reflexivity.
      * constructor; [split; assumption|exact E4].
      * exact E5.
    + rewrite iter_calls_stopped by reflexivity.
      exists [], [Some (Err e)], n. cbn [fst snd map app concat it_input length].
      split; [reflexivity|split; [lia|split; [reflexivity|split; [constructor|right]]]]. exists e. rewrite E. repeat split. exact Hne.
    + rewrite iter_calls_stopped by reflexivity.
      exists [], [Some (Err (EIncomplete m))], n. cbn [fst snd map app concat it_input length].
      split; [reflexivity|split; [lia|split; [reflexivity|split; [constructor|right]]]]. exists (EIncomplete m). rewrite E. repeat split. exact Hne.
    + exfalso. specialize (Hst i Hi). rewrite E in Hst. exact Hst.
Qed.

Lemma concat_len_2 (oks : list (bytes * any)) :
  Forall (fun x => (2 <= length (fst x))%nat) oks ->
  (2 * length oks <= length (concat (map fst oks)))%nat.
Proof.
  induction 1 as [|x oks Hx H IH]; cbn [map concat length]; [lia|]. cbv beta in Hx. rewrite app_length. lia.
Qed.

(** ** Collecting *)

Lemma collect_loop_fuel {T} p (f : any -> res T) n n' i :
  object_parser p -> bytes_ok i -> (length i < n)%nat -> (length i < n')%nat ->
  collect_loop p f n i = collect_loop p f n' i.
Proof.
  intros [Hst Hp]. revert n' i. induction n as [|n IH]; intros n' i Hi H1 H2; [lia|].
  destruct n' as [|n']; [lia|]. cbn [collect_loop]. destruct (blen i =? 0); [reflexivity|].
  destruct (p i) as [[r a]|e|m|] eqn:E; cbn [close bind]; try reflexivity.
  destruct (f a); cbn [bind]; try reflexivity.
  destruct (Hp _ _ _ Hi E) as (pre & -> & Hlen & _). apply bytes_ok_app in Hi as [_ Hr].
  rewrite !app_length in *. rewrite (IH n' r) by (assumption || lia). reflexivity.
Qed.

Lemma collect_unfold {T} p (f : any -> res T) i :
  object_parser p -> bytes_ok i ->
  collect_loop p f (S (length i)) i =
    if blen i =? 0 then Ok (i, [])
    else
      let* (rem, a) := close (p i) in
      let* x := f a in
      let* (r, xs) := collect_loop p f (S (length rem)) rem in
      Ok (r, x :: xs).
Proof.
  intros Hop Hi. pose proof Hop as [Hst Hp]. cbn [collect_loop]. destruct (blen i =? 0); [reflexivity|].
  destruct (p i) as [[r a]|e|m|] eqn:E; cbn [close bind]; try reflexivity.
  destruct (f a); cbn [bind]; try reflexivity.
  destruct (Hp _ _ _ Hi E) as (pre & -> & Hlen & _). apply bytes_ok_app in Hi as [_ Hr].
  rewrite (collect_loop_fuel p f _ (S (length r))) by (assumption || rewrite ?app_length; lia). reflexivity.
Qed.

(** Collecting succeeds exactly when the input is a concatenation of objects that all convert. *)
Lemma collect_ok {T} p (f : any -> res T) i r xs :
  object_parser p -> bytes_ok i ->
  (collect_loop p f (S (length i)) i = Ok (r, xs) <->
   exists oks, i = concat (map fst oks) /\ r = []
     /\ Forall2 (fun o x => p (fst o) = Ok ([], snd o) /\ f (snd o) = Ok x /\ (2 <= length (fst o))%nat) oks xs).
Proof.
  intros Hop. pose proof Hop as [Hst Hp].
  assert (G : forall n i r xs, (length i < n)%nat -> bytes_ok i ->
    (collect_loop p f (S (length i)) i = Ok (r, xs) <->
     exists oks, i = concat (map fst oks) /\ r = []
       /\ Forall2 (fun o x => p (fst o) = Ok ([], snd o) /\ f (snd o) = Ok x /\ (2 <= length (fst o))%nat) oks xs)).
  { clear i r xs. intros n. induction n as [|n IH]; intros i r xs Hn Hi; [lia|].
    rewrite collect_unfold by assumption. destruct (N.eqb_spec (blen i) 0) as [H0|H0].
    - assert (i = []) as -> by (destruct i; [reflexivity|rewrite blen_cons in H0; lia]). split.
      + intros E. injection E as <- <-. exists []. repeat split. constructor.
      + intros (oks & E & -> & F). destruct F as [|o x oks xs (Fo & _ & Fl) F]; [reflexivity|].
        cbn in E. destruct (fst o); [cbn in Fl; lia|discriminate].
    - rewrite bind_ok. split.
      + intros ([rem a] & E1 & E). apply bind_ok in E as (x & E2 & E).
        apply bind_ok in E as ([r' xs'] & E3 & E). injection E as <- <-.
        assert (E1' : p i = Ok (rem, a)) by (destruct (p i); cbn in E1; congruence).
        destruct (Hp _ _ _ Hi E1') as (pre & -> & Hlen & Hpre).
        apply bytes_ok_app in Hi as [_ Hr]. rewrite app_length in Hn.
        apply IH in E3 as (oks & -> & -> & F); [|lia|exact Hr].
        exists ((pre, a) :: oks). repeat split. constructor; [|exact F]. auto.
      + intros (oks & E & -> & F). destruct F as [|o x oks xs (Fo & Ff & Fl) F].
        { cbn in E. subst i. rewrite blen_nil in H0. lia. }
        cbn [map concat] in E. destruct o as [o a]. cbn [fst snd] in *. subst i.
        apply bytes_ok_app in Hi as [Ho Hr]. rewrite app_length in Hn.
        pose proof (Hst o Ho) as S. rewrite Fo in S. destruct S as [_ S].
        exists (concat (map fst oks), a). rewrite S by exact Hr. split; [reflexivity|].
        rewrite Ff. cbn [bind].
        assert (E3 : collect_loop p f (Datatypes.S (length (concat (map fst oks)))) (concat (map fst oks)) = Ok ([], xs)).
        { apply IH; [lia|exact Hr|]. exists oks. auto. }
        rewrite E3. reflexivity. }
  intros Hi. apply (G (S (length i))); [lia|exact Hi].
Qed.
