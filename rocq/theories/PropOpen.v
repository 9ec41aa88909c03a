(** C06: exactly which errors of headers are not final. *)
From Verif Require Import Base MHeader MEncode SHeader PArith PHeader PEncode MBer SBer PBer PropBer.

(** The first octets of an identifier in high-tag-number form that is not finished and can still be accepted. *)
Definition open_tag (i : bytes) : Prop := exists b cs, i = b :: cs /\ b mod 32 = 31 /\ Forall (fun x => 128 <= x) cs /\ blen cs <= 4.

Lemma high_bit b : b < 256 -> (N.land b 0x80 =? 0) = (b <? 128).
Proof.
  intros H. assert (F : forallb (fun b => Bool.eqb (N.land b 0x80 =? 0) (b <? 128)) (map N.of_nat (seq 0 256)) = true) by (vm_compute; reflexivity).
  rewrite forallb_forall in F. apply eqb_prop, F. apply in_map_iff. exists (N.to_nat b). split; [lia|]. apply in_seq. lia.
Qed.

Lemma tag_loop_open rem : bytes_ok rem -> forall c count e, tag_loop rem c count = Err e ->
  e = EInvalidTag
  /\ ((Forall (fun x => 128 <= x) rem /\ blen rem + count <= 5) /\ (exists t n, tag_loop (rem ++ [0; 0]) c count = Ok ([0], t, n) /\ n = count + blen rem + 1)
      \/ ~ (Forall (fun x => 128 <= x) rem /\ blen rem + count <= 5) /\ forall x, tag_loop (rem ++ x) c count = Err e).
Proof.
  intros H. induction H as [|b r Hb Hr IH]; intros c count e E.
  - cbn [tag_loop] in E. injection E as <-. split; [reflexivity|]. change (blen []) with 0. destruct (N.ltb_spec 5 count) as [L|L].
    + right. split; [lia|]. intros [|y x]; [reflexivity|]. cbn [app tag_loop]. destruct (N.ltb_spec 5 count); [reflexivity|lia].
    + left. split; [split; [constructor|lia]|]. cbn [app tag_loop]. destruct (N.ltb_spec 5 count); [lia|]. cbn [N.land N.eqb]. eexists _, _. split; [reflexivity|lia].
  - cbn [tag_loop app] in *. rewrite blen_cons. destruct (N.ltb_spec 5 count) as [L|L].
    + injection E as <-. split; [reflexivity|]. right. split; [lia|reflexivity].
    + rewrite high_bit in * by exact Hb. destruct (N.ltb_spec b 128) as [B|B]; [discriminate|].
      destruct (IH _ _ _ E) as (-> & [[[F Lr] (t & n & Et & En)]|[Nf Fx]]); (split; [reflexivity|]).
      * left. split; [split; [constructor; assumption|lia]|]. exists t, n. split; [exact Et|lia].
      * right. split; [|exact Fx]. intros [F L']. apply Nf. inversion F; subst. split; [assumption|lia].
Qed.

Lemma parse_length_errors k r e : parse_length k r = Err e -> e <> EInvalidTag.
Proof.
  unfold parse_length. destruct r as [|b r]; cbn [be_u8 bind]; [discriminate|]. destruct (b =? 0x80); [destruct k; [discriminate|intros E; injection E as <-; discriminate]|].
  destruct (N.land b 0x80 =? 0); [discriminate|]. destruct (b =? 0xff); [intros E; injection E as <-; discriminate|].
  unfold take. destruct (_ <=? _); cbn [bind]; [|discriminate]. destruct (bytes_to_u64 _); [discriminate|]. intros E. injection E as <-. discriminate.
Qed.

Lemma low_bits b : b < 256 -> (N.land b 0x1f =? 0x1f) = (b mod 32 =? 31).
Proof.
  intros H. assert (F : forallb (fun b => Bool.eqb (N.land b 0x1f =? 0x1f) (b mod 32 =? 31)) (map N.of_nat (seq 0 256)) = true) by (vm_compute; reflexivity).
  rewrite forallb_forall in F. apply eqb_prop, F. apply in_map_iff. exists (N.to_nat b). split; [lia|]. apply in_seq. lia.
Qed.

Lemma header_open i e : bytes_ok i -> header_parse_ber i = Err e ->
  open_tag i /\ e = EInvalidTag /\ (exists h, header_parse_ber (i ++ [0; 0]) = Ok ([], h) /\ h_length h = Definite 0)
  \/ ~ open_tag i /\ forall x, bytes_ok x -> header_parse_ber (i ++ x) = Err e.
Proof.
  intros Hi E. pose proof (streaming_parse_header i Hi) as St. change header_parse_ber with parse_header in *. rewrite E in St.
  destruct i as [|b cs]; [discriminate|]. inversion Hi as [|? ? Hb Hc]; subst.
  unfold parse_header in E. cbn [be_u8 bind] in E. destruct (class_try_from (N.shiftr b 6)) as [cls|] eqn:Ec; [|discriminate].
  rewrite low_bits in E by exact Hb. destruct (N.eqb_spec (b mod 32) 31) as [B|B].
  - destruct (tag_loop cs 0 1) as [[[r t] n]|e'| |] eqn:T; cbn [bind] in E; [|injection E as ->| |]; try discriminate.
    + right. split.
      * intros (b' & cs' & Eq & _ & F & L). injection Eq as <- <-.
        assert (G : forall rem c count, bytes_ok rem -> Forall (fun x => 128 <= x) rem -> tag_loop rem c count = Err EInvalidTag).
        { clear. induction rem as [|x rem IH]; intros c count H F; [reflexivity|]. inversion H; subst. inversion F; subst. cbn [tag_loop].
          destruct (5 <? count); [reflexivity|]. rewrite high_bit by assumption. destruct (N.ltb_spec x 128); [lia|]. apply IH; assumption. }
        rewrite G in T by assumption. discriminate.
      * apply St. destruct (blen (b :: cs) <? n); [discriminate|]. destruct (parse_length _ r) as [[r' l]|e2| |] eqn:P; cbn [bind] in E; try discriminate.
        injection E as <-. exact (parse_length_errors _ _ _ P).
    + destruct (tag_loop_open cs Hc _ _ _ T) as (-> & [[[F L] (t & n & Et & En)]|[Nf Fx]]).
      * left. split; [exists b, cs; repeat split; try assumption; lia|]. split; [reflexivity|].
        unfold parse_header. cbn [app be_u8 bind]. rewrite Ec, low_bits by exact Hb. rewrite (proj2 (N.eqb_eq _ _) B), Et. cbn [bind].
        rewrite blen_cons, blen_app. change (blen [0; 0]) with 2. destruct (N.ltb_spec (1 + (blen cs + 2)) n); [lia|]. cbn. eexists. split; reflexivity.
      * right. split.
        -- intros (b' & cs' & Eq & _ & F & L). injection Eq as <- <-. apply Nf. split; [exact F|lia].
        -- intros x Hx. unfold parse_header. cbn [app be_u8 bind]. rewrite Ec, low_bits by exact Hb. rewrite (proj2 (N.eqb_eq _ _) B), Fx. reflexivity.
  - right. split; [intros (b' & cs' & Eq & B' & _); injection Eq as <- _; contradiction|]. apply St. cbn [bind] in E.
    destruct (blen (b :: cs) <? 1); [discriminate|]. destruct (parse_length _ cs) as [[r' l]|e2| |] eqn:P; cbn [bind] in E; try discriminate.
    injection E as <-. exact (parse_length_errors _ _ _ P).
Qed.

(** A reader whose errors are final except on an unfinished tag, which two zero octets complete. *)
Definition final_but_open {A} (p : bytes -> res (bytes * A)) : Prop :=
  forall i e, bytes_ok i -> p i = Err e ->
    ((forall x, bytes_ok x -> p (i ++ x) = Err e) <-> ~ open_tag i)
    /\ (open_tag i -> e = EInvalidTag /\ exists a, p (i ++ [0; 0]) = Ok ([], a)).

Theorem C06_open_exact :
  final_but_open header_parse_ber /\ final_but_open header_parse_der /\ final_but_open parse_der_any.
Proof.
  assert (Z : bytes_ok [0; 0]) by (repeat constructor).
  assert (G : forall A (p : bytes -> res (bytes * A)), streaming p ->
     (forall i, match header_parse_ber i with Err e => p i = Err e | Ok (r, h) => (p i = Err EInvalidTag -> False) | _ => True end) ->
     (forall i n, header_parse_ber i = Incomplete n -> p i = Incomplete n) -> (forall i, header_parse_ber i = Panic -> p i = Panic) ->
     (forall i h, header_parse_ber i = Ok ([], h) -> h_length h = Definite 0 -> exists a, p i = Ok ([], a)) -> final_but_open p).
  { intros A p Sp He Hn Hp Ho i e Hi E. specialize (He i) as Hei. destruct (header_parse_ber i) as [[r h]|e'|n|] eqn:H.
    - assert (NO : ~ open_tag i).
      { intros (b & cs & -> & B & F & L). assert (T : tag_loop cs 0 1 = Err EInvalidTag).
        { inversion Hi as [|? ? Hb Hc]; subst. clear - Hc F. generalize 0 1. revert Hc F. induction cs as [|x rem IH]; intros H F c count; [reflexivity|].
          inversion H; subst. inversion F; subst. cbn [tag_loop]. destruct (5 <? count); [reflexivity|]. rewrite high_bit by assumption.
          destruct (N.ltb_spec x 128); [lia|]. apply IH; assumption. }
        inversion Hi as [|? ? Hb Hc]; subst. unfold header_parse_ber, parse_header in H. cbn [be_u8 bind] in H.
        destruct (class_try_from _); [|discriminate]. rewrite low_bits, (proj2 (N.eqb_eq _ _) B), T in H by exact Hb. discriminate. }
      split; [|tauto]. split; [intros _; exact NO|]. intros _ x Hx. specialize (Sp i Hi). rewrite E in Sp. apply Sp; [|exact Hx]. intros ->. apply Hei. exact E.
    - rewrite Hei in E. injection E as ->. destruct (header_open i e Hi H) as [(O & -> & h & Eh & Lh)|(NO & F)].
      + destruct (Ho _ _ Eh Lh) as [a Ea]. split; [|intros _; split; [reflexivity|eauto]]. split; [|tauto]. intros F. specialize (F [0; 0] Z). rewrite Ea in F. discriminate.
      + split; [|tauto]. split; [intros _; exact NO|]. intros _ x Hx. specialize (F x Hx). specialize (He (i ++ x)). rewrite F in He. exact He.
    - rewrite (Hn _ _ H) in E. discriminate.
    - rewrite (Hp _ H) in E. discriminate. }
  split; [|split].
  - apply G.
    + exact streaming_parse_header.
    + intros i. destruct (header_parse_ber i) as [[r h]|e|n|]; try exact I; [discriminate|reflexivity].
    + auto.
    + auto.
    + intros i h E _. exists h. exact E.
  - apply G.
    + apply streaming_header_parse_der.
    + intros i. unfold header_parse_der. change header_parse_ber with parse_header. destruct (parse_header i) as [[r h]|e|n|]; cbn [bind]; try exact I; [|reflexivity].
      destruct (is_definite (h_length h)); discriminate.
    + intros i n E. unfold header_parse_der. change header_parse_ber with parse_header in E. rewrite E. reflexivity.
    + intros i E. unfold header_parse_der. change header_parse_ber with parse_header in E. rewrite E. reflexivity.
    + intros i h E L. unfold header_parse_der. change header_parse_ber with parse_header in E. rewrite E. cbn [bind]. rewrite L. cbn [is_definite]. eexists. reflexivity.
  - apply G.
    + apply streaming_parse_der_any.
    + intros i. unfold parse_der_any, header_parse_der. change header_parse_ber with parse_header. destruct (parse_header i) as [[r h]|e|n|]; cbn [bind]; try exact I; [|reflexivity].
      destruct (h_length h) eqn:L; cbn [is_definite bind]; [|discriminate]. unfold length_assert_definite, der_get_content. rewrite L. cbn [is_definite bind].
      unfold take. destruct (_ <=? _); cbn [bind]; discriminate.
    + intros i n E. unfold parse_der_any, header_parse_der. change header_parse_ber with parse_header in E. rewrite E. reflexivity.
    + intros i E. unfold parse_der_any, header_parse_der. change header_parse_ber with parse_header in E. rewrite E. reflexivity.
    + intros i h E L. unfold parse_der_any, header_parse_der. change header_parse_ber with parse_header in E. rewrite E. cbn [bind]. rewrite L. cbn [is_definite bind].
      unfold length_assert_definite, der_get_content. rewrite L. cbn. eexists. reflexivity.
Qed.
Print Assumptions C06_open_exact.

(** 7f 81 can be completed; 1f and five octets 81 can not. *)
Example C06_open_exact_case :
  header_parse_ber [0x7f; 0x81] = Err EInvalidTag /\ open_tag [0x7f; 0x81] /\ is_ok (parse_der_any [0x7f; 0x81; 0; 0]) = true
  /\ header_parse_ber [0x1f; 0x81; 0x81; 0x81; 0x81; 0x81] = Err EInvalidTag /\ ~ open_tag [0x1f; 0x81; 0x81; 0x81; 0x81; 0x81].
Proof.
  split; [vm_compute; reflexivity|]. split; [exists 0x7f, [0x81]; repeat split; try reflexivity; [repeat constructor; lia|vm_compute; discriminate]|].
  split; [vm_compute; reflexivity|]. split; [vm_compute; reflexivity|]. intros (b & cs & E & _ & _ & L). injection E as <- <-. vm_compute in L. apply L. reflexivity.
Qed.
