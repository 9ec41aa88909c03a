(** C06: BER objects of indefinite length whose input ends inside a tag. *)
From Verif Require Import Base PArith MHeader MEncode SHeader PHeader PEncode MBer SBer PBer PropBer PropOpen.

(** A series of complete objects and of headers of indefinite length that are not closed, followed by an unfinished tag. *)
Inductive cut_in_tag : bytes -> Prop :=
| cut_here j : open_tag j -> cut_in_tag j
| cut_inside c t idb lenb r : readable_header c true t Indefinite idb lenb -> cut_in_tag r -> cut_in_tag (idb ++ lenb ++ r)
| cut_after c k t l idb lenb d bs r :
    readable_header c k t l idb lenb -> impl_contents d l bs -> cut_in_tag r -> cut_in_tag (idb ++ lenb ++ bs ++ r).
(** An object cut short inside a tag: its own or that of one inside. *)
Definition object_cut_in_tag (i : bytes) : Prop :=
  open_tag i \/ exists c t idb lenb r, readable_header c true t Indefinite idb lenb /\ i = idb ++ lenb ++ r /\ cut_in_tag r.

(** The answers after the tag has been finished. *)
Definition goes_on {A} (r : res (bytes * A)) : Prop :=
  match r with Ok (r, _) => r = [] | Incomplete _ => True | Err e => e = EBerMaxDepth | Panic => False end.

Definition cut_or_final (d : nat) : Prop := forall h i e, bytes_ok i -> skip_content d h i = Err e ->
  (forall x, bytes_ok x -> skip_content d h (i ++ x) = Err e)
  \/ e = EInvalidTag /\ h_length h = Indefinite /\ h_constructed h = true /\ cut_in_tag i /\ goes_on (skip_content d h (i ++ [0; 0])).

Lemma bytes_zero : bytes_ok [0; 0].
Proof. repeat constructor. Qed.

Lemma loop_cut d : cut_or_final d -> forall n i e, (length i < n)%nat -> bytes_ok i -> skip_loop (skip_content d) (S (length i)) i = Err e ->
  (forall x, bytes_ok x -> skip_loop (skip_content d) (S (length (i ++ x))) (i ++ x) = Err e)
  \/ e = EInvalidTag /\ cut_in_tag i /\ goes_on (skip_loop (skip_content d) (S (length (i ++ [0; 0]))) (i ++ [0; 0])).
Proof.
  intros Hd n. induction n as [|n IH]; intros i e Hn Hi E; [lia|].
  assert (U : forall x, bytes_ok x -> skip_loop (skip_content d) (S (length (i ++ x))) (i ++ x) =
      let* (i2, h2) := header_parse_ber (i ++ x) in
      let* (i3, eoc) := skip_content d h2 i2 in
      if eoc then Ok (i3, false) else skip_loop (skip_content d) (S (length i3)) i3).
  { intros x Hx. apply skip_loop_unfold; [apply skip_content_suffixing|]. apply bytes_ok_app. split; assumption. }
  assert (Go : forall h j, goes_on (skip_content d h j) ->
    goes_on (let* (i3, eoc) := skip_content d h j in if eoc then Ok (i3, false) else skip_loop (skip_content d) (S (length i3)) i3)).
  { intros h j G. destruct (skip_content d h j) as [[i3 eoc]|e3|m|]; cbn [bind goes_on] in *; try exact G. subst i3. destruct eoc; [reflexivity|exact I]. }
  rewrite skip_loop_unfold in E by (try apply skip_content_suffixing; assumption).
  destruct (header_parse_ber i) as [[i2 h2]|e'|m|] eqn:Eh; cbn [bind] in E; try discriminate.
  - change header_parse_ber with parse_header in *. pose proof (streaming_parse_header i Hi) as P. rewrite Eh in P. destruct P as [_ P].
    pose proof (parse_header_consumes _ _ _ Hi Eh) as (pre & Ei & Hl).
    destruct (proj1 (parse_header_ok i i2 h2 Hi) Eh) as (c & k & t & l & idb & lenb & H1 & H2 & Eo & Hh).
    assert (Hi2 : bytes_ok i2) by (rewrite Ei in Hi; apply bytes_ok_app in Hi; apply Hi).
    destruct (skip_content d h2 i2) as [[i3 eoc]|e'|m|] eqn:Es; cbn [bind] in E; try discriminate.
    + pose proof (streaming_skip_content d h2 i2 Hi2) as Q. rewrite Es in Q. destruct Q as [_ Q].
      destruct (skip_content_sound _ _ _ _ _ Hi2 Es) as (bs & E3 & _ & Hc).
      assert (Hi3 : bytes_ok i3) by (rewrite E3 in Hi2; apply bytes_ok_app in Hi2; apply Hi2).
      destruct eoc; [discriminate|]. assert (Hlen : (length i3 < n)%nat) by (rewrite Ei, E3, !app_length in Hn; lia).
      destruct (IH i3 e Hlen Hi3 E) as [F|(-> & C & G)].
      * left. intros x Hx. rewrite U, P by exact Hx. cbn [bind]. rewrite Q by exact Hx. cbn [bind]. apply F, Hx.
      * right. split; [reflexivity|]. split.
        -- rewrite Eo, E3. apply (cut_after c k t l idb lenb d bs i3); [split; assumption| |exact C]. subst h2. exact Hc.
        -- rewrite U, P by exact bytes_zero. cbn [bind]. rewrite Q by exact bytes_zero. cbn [bind]. exact G.
    + injection E as ->. destruct (Hd h2 i2 e Hi2 Es) as [F|(-> & L & K & C & G)].
      * left. intros x Hx. rewrite U, P by exact Hx. cbn [bind]. rewrite F by exact Hx. reflexivity.
      * right. split; [reflexivity|]. subst h2. cbn [h_length h_constructed] in L, K. subst l k. split.
        -- rewrite Eo. apply (cut_inside c t idb lenb i2); [split; assumption|exact C].
        -- rewrite U, P by exact bytes_zero. cbn [bind]. apply Go, G.
  - injection E as ->. destruct (header_open i e Hi Eh) as [(O & -> & h & Eo & Lo)|(_ & F)].
    + right. split; [reflexivity|]. split; [apply cut_here, O|]. rewrite U by exact bytes_zero. rewrite Eo. cbn [bind]. apply Go.
      destruct d as [|d]; cbn [skip_content]; [reflexivity|]. rewrite Lo. destruct ((0 =? 0) && (h_tag h =? TagEndOfContent)); reflexivity.
    + left. intros x Hx. rewrite U by exact Hx. rewrite F by exact Hx. reflexivity.
Qed.

Lemma skip_cut d : cut_or_final d.
Proof.
  induction d as [|d IH]; intros h i e Hi E; cbn [skip_content] in *; [left; intros; exact E|].
  destruct (h_length h) as [l|] eqn:L.
  - destruct ((l =? 0) && (h_tag h =? TagEndOfContent)); [discriminate|]. destruct (take l i) as [[r x]|e'|n|] eqn:T; cbn [bind] in E; try discriminate.
    unfold take in T. destruct (_ <=? _) in T; discriminate.
  - unfold assert_constructed in *. destruct (h_constructed h); cbn [bind] in *; [|left; intros; exact E].
    destruct (loop_cut d IH (S (length i)) i e (Nat.lt_succ_diag_r _) Hi E) as [F|(-> & C & G)]; [left; exact F|right; auto].
Qed.

(** An error on a BER object is final, or it is [InvalidTag] on an object cut short inside a tag, and then two zero octets change it. *)
Theorem C06_ber_exact i e : bytes_ok i -> parse_ber_any i = Err e ->
  (forall x, bytes_ok x -> parse_ber_any (i ++ x) = Err e)
  \/ e = EInvalidTag /\ object_cut_in_tag i
     /\ match parse_ber_any (i ++ [0; 0]) with Ok (r, _) => r = [] | Incomplete _ => True | Err e' => e' = EBerMaxDepth | Panic => False end.
Proof.
  intros Hi E. unfold parse_ber_any in *. destruct (header_parse_ber i) as [[i2 h]|e'|n|] eqn:Eh; cbn [bind] in E; try discriminate.
  - change header_parse_ber with parse_header in *. pose proof (streaming_parse_header i Hi) as P. rewrite Eh in P. destruct P as [(pre & Ei) P].
    destruct (proj1 (parse_header_ok i i2 h Hi) Eh) as (c & k & t & l & idb & lenb & H1 & H2 & Eo & Hh).
    assert (Hi2 : bytes_ok i2) by (rewrite Ei in Hi; apply bytes_ok_app in Hi; apply Hi).
    destruct (ber_object_content h i2 MAX_RECURSION) as [[r dt]|e'|n|] eqn:Ec; cbn [bind] in E; try discriminate. injection E as ->.
    assert (Es : skip_content MAX_RECURSION h i2 = Err e).
    { unfold ber_object_content in Ec. destruct (skip_content MAX_RECURSION h i2) as [[r b]|e'|n|]; cbn [bind] in Ec; try discriminate; [|congruence].
      destruct (is_definite (h_length h)); [discriminate|]. destruct (_ <? _)%nat in Ec; discriminate. }
    destruct (skip_cut MAX_RECURSION h i2 e Hi2 Es) as [F|(-> & L & K & C & G)].
    + left. intros x Hx. rewrite P by exact Hx. cbn [bind]. unfold ber_object_content. rewrite F by exact Hx. reflexivity.
    + right. split; [reflexivity|]. split.
      * right. subst h. cbn [h_length h_constructed] in L, K. subst l k. exists c, t, idb, lenb, i2. split; [split; assumption|]. split; [exact Eo|exact C].
      * rewrite P by exact bytes_zero. cbn [bind].
        assert (Z : bytes_ok (i2 ++ [0; 0])) by (apply bytes_ok_app; split; [exact Hi2|exact bytes_zero]).
        pose proof (streaming_ber_object_content MAX_RECURSION h (i2 ++ [0; 0]) Z) as S. cbv beta in S. unfold ber_object_content in *.
        destruct (skip_content MAX_RECURSION h (i2 ++ [0; 0])) as [[r b]|e'|n|]; cbn [bind goes_on] in *; try exact G. subst r. rewrite L in *. cbn [is_definite] in *.
        destruct (_ <? _)%nat; cbn [bind]; [exact S|reflexivity].
  - injection E as ->. destruct (header_open i e Hi Eh) as [(O & -> & h & Eo & Lo)|(_ & F)].
    + right. split; [reflexivity|]. split; [left; exact O|]. rewrite Eo. cbn [bind]. change MAX_RECURSION with 50%nat. unfold ber_object_content. cbn [skip_content]. rewrite Lo.
      destruct ((0 =? 0) && (h_tag h =? TagEndOfContent)); reflexivity.
    + left. intros x Hx. rewrite F by exact Hx. reflexivity.
Qed.
Print Assumptions C06_ber_exact.

(** 30 80 02 01 05 7f 81: after an integer the next element has an unfinished tag. A tag too long and a primitive form of indefinite length are final. *)
Example C06_ber_exact_case :
  let i := [0x30; 0x80; 2; 1; 5; 0x7f; 0x81] in
  parse_ber_any i = Err EInvalidTag /\ parse_ber_any (i ++ [0; 0]) = Incomplete 1 /\ is_ok (parse_ber_any (i ++ [0; 0; 0; 0])) = true
  /\ parse_ber_any [0x30; 0x80; 0x7f; 0x81; 0x81; 0x81; 0x81; 0x81] = Err EInvalidTag
  /\ parse_ber_any ([0x30; 0x80; 0x7f; 0x81; 0x81; 0x81; 0x81; 0x81] ++ [0; 0; 0; 0]) = Err EInvalidTag.
Proof. vm_compute. repeat split. Qed.
