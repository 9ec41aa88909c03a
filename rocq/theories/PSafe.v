(** Results that are no panic and end; closure of such parsers under the constructions of MCont.v and
    MDerive.v. *)
From Verif Require Import Base PArith MHeader MEncode SHeader PHeader PEncode MBer SBer PBer PIter PCodec.
From Verif Require Import MInt MSeg MOid MText MTime MCont PropTag PropItems.

(** ** Results *)

(** No panic, no endless loop, and no [Incomplete(0)]. *)
Definition sane {A} (r : res A) : Prop :=
  match r with Ok _ => True | Err e => e <> EFuel | Incomplete n => 1 <= n | Panic => False end.

Lemma sane_bind {A B} (r : res A) (f : A -> res B) :
  sane r -> (forall a, r = Ok a -> sane (f a)) -> sane (bind r f).
Proof. intros H F. destruct r; cbn [bind]; [apply F; reflexivity|exact H|exact H|exact H]. Qed.
Lemma sane_close {A} (r : res A) : sane r -> sane (close r).
Proof. destruct r; cbn; intros H; [exact I|exact H|discriminate|exact H]. Qed.
Lemma sane_ok {A} (a : A) : sane (Ok a).
Proof. exact I. Qed.

Ltac sane_step :=
  match goal with
  | |- sane (bind _ _) => apply sane_bind; [|intros ? ?]
  | |- sane (Ok _) => exact I
  | |- sane (Err _) => discriminate
  | |- sane (if ?b then _ else _) => destruct b eqn:?
  | |- sane (match ?x with (_, _) => _ end) => destruct x eqn:?
  | |- sane (match ?x with [] => _ | _ :: _ => _ end) => destruct x
  | |- sane (match ?x with Some _ => _ | None => _ end) => destruct x eqn:?
  | |- sane (match ?x with Definite _ => _ | Indefinite => _ end) => destruct x eqn:?
  | |- sane (match ?x with Z0 => _ | Zpos _ => _ | Zneg _ => _ end) => destruct x eqn:?
  | |- sane (close _) => apply sane_close
  | |- sane (assert_primitive _) => unfold assert_primitive
  | |- sane (assert_constructed _) => unfold assert_constructed
  | |- sane (assert_tag _ _) => unfold assert_tag
  | |- sane (assert_class _ _) => unfold assert_class
  | |- sane (check_class _ _) => unfold check_class
  | |- sane (check_tag _ _) => unfold check_tag
  | |- sane (length_assert_definite _) => unfold length_assert_definite
  end.
Ltac sane_tac := repeat sane_step.

(** ** Parsers *)

(** As [streaming], for parsers whose inner objects may be incomplete, with endless loops excluded. *)
Definition steady {A} (p : bytes -> res (bytes * A)) : Prop :=
  forall i, bytes_ok i ->
    match p i with
    | Ok (r, a) => (exists pre, i = pre ++ r /\ pre <> []) /\ forall x, bytes_ok x -> p (i ++ x) = Ok (r ++ x, a)
    | Err e => e <> EFuel /\ (e <> EInvalidTag -> forall x, bytes_ok x -> p (i ++ x) = Err e)
    | Incomplete n => 1 <= n /\ forall x, bytes_ok x -> blen x < n -> exists m, n - blen x <= m /\ p (i ++ x) = Incomplete m
    | Panic => False
    end.

(** What is needed of a part of the content. *)
Definition safe {A} (p : bytes -> res (bytes * A)) : Prop :=
  forall i, bytes_ok i -> sane (p i) /\ forall r a, p i = Ok (r, a) -> exists pre, i = pre ++ r.

Lemma steady_safe {A} (p : bytes -> res (bytes * A)) : steady p -> safe p.
Proof.
  intros H i Hi. specialize (H i Hi). destruct (p i) as [[r a]|e|n|]; cbn; try tauto.
  - split; [exact I|]. intros r0 a0 E. injection E as <- <-. destruct H as [(pre & -> & _) _]. eauto.
  - split; [tauto|]. discriminate.
  - split; [tauto|]. discriminate.
Qed.
Lemma steady_consuming {A} (p : bytes -> res (bytes * A)) : steady p -> consuming p.
Proof.
  intros H i r a Hi E. specialize (H i Hi). rewrite E in H. destruct H as [(pre & -> & Hne) _].
  apply bytes_ok_app in Hi as [_ Hr]. rewrite app_length. destruct pre; [congruence|]. cbn [length]. split; [lia|exact Hr].
Qed.
Lemma safe_rest {A} (p : bytes -> res (bytes * A)) i r a : safe p -> bytes_ok i -> p i = Ok (r, a) -> bytes_ok r.
Proof. intros H Hi E. destruct (proj2 (H i Hi) _ _ E) as (pre & ->). apply bytes_ok_app in Hi. tauto. Qed.
Lemma safe_sane {A} (p : bytes -> res (bytes * A)) i : safe p -> bytes_ok i -> sane (p i).
Proof. intros H Hi. apply H, Hi. Qed.

Lemma steady_ext {A} (p q : bytes -> res (bytes * A)) :
  (forall i, bytes_ok i -> p i = q i) -> steady q -> steady p.
Proof.
  intros E H i Hi. rewrite E by exact Hi. specialize (H i Hi).
  destruct (q i) as [[r a]|e|n|]; try exact H.
  - destruct H as [H1 H2]. split; [exact H1|]. intros x Hx. rewrite E by (apply bytes_ok_app; auto). apply H2, Hx.
  - destruct H as [H1 H2]. split; [exact H1|]. intros He x Hx. rewrite E by (apply bytes_ok_app; auto). apply H2; assumption.
  - destruct H as [H1 H2]. split; [exact H1|]. intros x Hx Hl. rewrite E by (apply bytes_ok_app; auto). apply H2; assumption.
Qed.

(** A streaming parser which consumes and ends. *)
Lemma streaming_steady {A} (p : bytes -> res (bytes * A)) :
  streaming p -> (forall i, bytes_ok i -> p i <> Err EFuel) -> consuming p -> steady p.
Proof.
  intros S F C i Hi. specialize (S i Hi). specialize (F i Hi). destruct (p i) as [[r a]|e|n|] eqn:E.
  - destruct S as [(pre & Hp) S]. split; [|exact S]. exists pre. split; [exact Hp|].
    destruct (C _ _ _ Hi E) as [Hl _]. intros ->. subst i. cbn [app] in Hl. lia.
  - split; [congruence|exact S].
  - destruct S as [S1 S2]. split; [exact S1|]. intros x Hx Hl. exists (n - blen x). split; [lia|]. apply S2; assumption.
  - exact S.
Qed.

(** A steady parser followed by a function of what it read. *)
Lemma steady_map {A B} (p : bytes -> res (bytes * A)) (g : A -> res B) (P : A -> Prop) :
  steady p -> (forall i r a, bytes_ok i -> p i = Ok (r, a) -> P a) -> (forall a, P a -> sane (g a)) ->
  steady (fun i => let* (r, a) := p i in let* b := g a in Ok (r, b)).
Proof.
  intros Hp HP Hg i Hi. specialize (Hp i Hi). destruct (p i) as [[r a]|e|n|] eqn:E; cbn [bind].
  - destruct Hp as [H1 H2]. specialize (Hg a (HP _ _ _ Hi E)).
    destruct (g a) as [b|e|n|] eqn:Eg; cbn [bind sane] in *; try contradiction.
    + split; [exact H1|]. intros x Hx. rewrite H2 by exact Hx. cbn [bind]. rewrite Eg. reflexivity.
    + split; [exact Hg|]. intros He x Hx. rewrite H2 by exact Hx. cbn [bind]. rewrite Eg. reflexivity.
    + split; [exact Hg|]. intros x Hx Hl. exists n. split; [lia|]. rewrite H2 by exact Hx. cbn [bind]. rewrite Eg. reflexivity.
  - destruct Hp as [H1 H2]. split; [exact H1|]. intros He x Hx. rewrite H2 by assumption. reflexivity.
  - destruct Hp as [H1 H2]. split; [exact H1|]. intros x Hx Hl. destruct (H2 x Hx Hl) as (m & Hm & ->).
    exists m. split; [exact Hm|reflexivity].
  - exact Hp.
Qed.

Lemma steady_err {A} e : e <> EFuel -> steady (fun _ => Err e : res (bytes * A)).
Proof. intros H i Hi. split; [exact H|reflexivity]. Qed.

(** ** Headers and objects *)

Lemma tag_loop_fuel : forall i c n, tag_loop i c n <> Err EFuel.
Proof. intros i c n. pose proof (tag_loop_cases i c n) as T. destruct (tag_loop i c n) as [[[r t] cnt]|e|m|]; congruence. Qed.

Lemma parse_header_fuel i : parse_header i <> Err EFuel.
Proof.
  unfold parse_header. destruct i as [|b0 i]; [discriminate|]. cbn [be_u8 bind].
  destruct (class_try_from (N.shiftr b0 6)); [|discriminate].
  set (k := negb (N.land b0 32 =? 0)) in *.
  assert (PL : forall r, parse_length k r <> Err EFuel).
  { intros r E. unfold parse_length in E. destruct r as [|b r]; [discriminate|]. cbn [be_u8 bind] in E.
    destruct (b =? 128); [destruct k; discriminate|].
    destruct (N.land b 128 =? 0); [discriminate|]. destruct (b =? 255); [discriminate|].
    unfold take in E. destruct (N.land b 127 <=? blen r); [|discriminate]. cbn [bind] in E.
    destruct (bytes_to_u64 _); discriminate. }
  assert (K : forall raw r t, (let* (rem, len) := parse_length k r in
      Ok (rem, mk_header c k t len raw (Some (firstn (length (b0 :: i) - length rem) (b0 :: i)))))
      <> Err EFuel).
  { intros raw r t E. specialize (PL r). destruct (parse_length k r) as [[r' l]|e|n|]; cbn [bind] in E;
      try discriminate. congruence. }
  destruct (N.land b0 31 =? 31); cbn [bind].
  - pose proof (tag_loop_fuel i 0 1) as T.
    destruct (tag_loop i 0 1) as [[[r t] cnt]|e|n|]; cbn [bind]; try congruence.
    destruct (blen (b0 :: i) <? cnt); [discriminate|]. apply K.
  - destruct (blen (b0 :: i) <? 1); [discriminate|]. apply K.
Qed.

Lemma header_ber_steady : steady header_parse_ber.
Proof.
  apply streaming_steady; [apply streaming_parse_header|intros i _; apply parse_header_fuel|].
  intros i r h Hi E. destruct (parse_header_consumes _ _ _ Hi E) as (pre & -> & Hl).
  apply bytes_ok_app in Hi as [_ Hr]. rewrite app_length. split; [lia|exact Hr].
Qed.
Lemma header_der_steady : steady header_parse_der.
Proof.
  apply (steady_ext _ (fun i => let* (r, h) := header_parse_ber i in
    let* b := (if is_definite (h_length h) then Ok h else Err (EDerConstraintFailed DCIndefiniteLength)) in Ok (r, b))).
  - intros i _. unfold header_parse_der, header_parse_ber. destruct (parse_header i) as [[r h]|e|n|]; cbn [bind]; try reflexivity.
    destruct (is_definite (h_length h)); reflexivity.
  - apply (steady_map header_parse_ber _ (fun _ => True)); [apply header_ber_steady|auto|]. intros h _. sane_tac.
Qed.

Lemma object_content_safe h d : safe (fun i => ber_object_content h i d).
Proof.
  intros i Hi. pose proof (streaming_ber_object_content d h i Hi) as S. pose proof (skip_content_no_fuel d h i Hi) as F.
  assert (G : ber_object_content h i d <> Err EFuel).
  { unfold ber_object_content. destruct (skip_content d h i) as [[r b]|e|n|]; cbn [bind]; try congruence.
    destruct (is_definite (h_length h)); [discriminate|]. destruct (_ <? 2)%nat; discriminate. }
  cbv beta in *. destruct (ber_object_content h i d) as [[r a]|e|n|]; cbn [sane].
  - split; [exact I|]. intros r0 a0 E. injection E as <- <-. apply S.
  - split; [congruence|discriminate].
  - split; [apply S|discriminate].
  - contradiction.
Qed.
Lemma object_content_sane h i d : bytes_ok i -> sane (ber_object_content h i d).
Proof. intros Hi. apply (object_content_safe h d i Hi). Qed.
Lemma take_sane n i : sane (take n i).
Proof. unfold take. destruct (N.leb_spec n (blen i)); cbn [sane]; [exact I|lia]. Qed.
Lemma der_get_content_sane h i : sane (der_get_content h i).
Proof. unfold der_get_content. destruct (h_length h); [apply take_sane|discriminate]. Qed.

(** Header and content of an object, as the default [parse_ber] and [parse_der] fetch them. *)
Lemma ber_any_steady : steady parse_ber_any.
Proof.
  apply streaming_steady; [apply streaming_parse_ber_any| |apply any_ber_consuming].
  intros i Hi E. unfold parse_ber_any in E. pose proof (parse_header_fuel i) as F. unfold header_parse_ber in E.
  destruct (parse_header i) as [[r h]|e|n|] eqn:Eh; cbn [bind] in E; try congruence.
  destruct (parse_header_consumes _ _ _ Hi Eh) as (pre & -> & _). apply bytes_ok_app in Hi as [_ Hr].
  pose proof (object_content_sane h r MAX_RECURSION Hr) as S.
  destruct (ber_object_content h r MAX_RECURSION) as [[r' d]|e|n|]; cbn [bind sane] in *; congruence.
Qed.
Lemma der_any_steady : steady parse_der_any.
Proof.
  apply streaming_steady; [apply streaming_parse_der_any| |apply any_der_consuming].
  intros i Hi E. unfold parse_der_any, header_parse_der in E. pose proof (parse_header_fuel i) as F.
  destruct (parse_header i) as [[r h]|e|n|] eqn:Eh; cbn [bind] in E; try congruence.
  destruct (is_definite (h_length h)) eqn:D; cbn [bind] in E; [|discriminate].
  unfold length_assert_definite in E. rewrite D in E. cbn [bind] in E.
  pose proof (der_get_content_sane h r) as S. destruct (der_get_content h r) as [[r' d]|e|n|]; cbn [bind sane] in *; congruence.
Qed.
Lemma from_der_any_steady : steady (from_der any_codec).
Proof. apply (steady_ext _ parse_der_any); [|apply der_any_steady]. intros i Hi. apply from_der_any_eq. Qed.

(** ** Content functions *)

Definition sane_content {T} (f : header -> bytes -> res (bytes * T)) : Prop := forall h d, bytes_ok d -> sane (f h d).
Definition sane_any {T} (f : any -> res T) : Prop := forall a, bytes_ok (any_data a) -> sane (f a).

Lemma default_try_from_sane {T} accept (f : header -> bytes -> res (bytes * T)) :
  sane_content f -> sane_any (default_try_from accept f).
Proof. intros H a Ha. unfold default_try_from. sane_tac. apply H, Ha. Qed.

(** What the readers need of a type. *)
Definition steady_parser {T} (P : parser T) : Prop :=
  sane_content (ps_ber_content P) /\ sane_content (ps_der_content P) /\ steady (ps_parse_ber P) /\ steady (ps_parse_der P).
Definition safe_parser {T} (P : parser T) : Prop :=
  sane_content (ps_ber_content P) /\ sane_content (ps_der_content P) /\ safe (ps_parse_ber P) /\ safe (ps_parse_der P).
Lemma steady_safe_parser {T} (P : parser T) : steady_parser P -> safe_parser P.
Proof. intros (A & B & C & D). split; [exact A|]. split; [exact B|]. split; apply steady_safe; assumption. Qed.

(** [der]: whether the DER half is covered. *)
Definition steady_legacy {T} (der : bool) (L : legacy T) : Prop :=
  sane_any (lg_try_from L) /\ steady (lg_from_ber L) /\ (der = true -> sane_any (lg_check L) /\ steady (lg_from_der L)).

Lemma codec_parse_ber_steady {T} (p : codec T) : sane_content (ber_content p) -> steady (parse_ber p).
Proof.
  intros H. apply (steady_ext _ (fun i => let* (r, a) := (let* (rem, h) := header_parse_ber i in
     let* (rem, data) := (if accept_tag p (h_tag h) then ber_object_content h rem MAX_RECURSION else Err EUnexpectedTag) in
     Ok (rem, mk_any h data)) in
     let* x := (let* (_, x) := ber_content p (any_header a) (any_data a) in Ok x) in Ok (r, x))).
  - intros i _. unfold parse_ber. destruct (header_parse_ber i) as [[r h]|e|n|]; cbn [bind]; try reflexivity.
    destruct (accept_tag p (h_tag h)); [|reflexivity].
    destruct (ber_object_content h r MAX_RECURSION) as [[r' d]|e|n|]; cbn [bind]; try reflexivity.
    cbn [any_header any_data]. destruct (ber_content p h d) as [[? ?]|e|n|]; reflexivity.
  - apply (steady_map _ _ (fun a => bytes_ok (any_data a))).
    + apply streaming_steady.
      * apply (streaming_bind parse_header (fun h rem => let* (rem, data) :=
          (if accept_tag p (h_tag h) then ber_object_content h rem MAX_RECURSION else Err EUnexpectedTag) in Ok (rem, mk_any h data)));
          [apply streaming_parse_header|].
        intros h. destruct (accept_tag p (h_tag h)).
        -- apply (streaming_bind (fun i => ber_object_content h i MAX_RECURSION) (fun d i => Ok (i, mk_any h d)));
             [apply streaming_ber_object_content|intros d; apply streaming_ok].
        -- apply (streaming_ext _ (fun _ => Err EUnexpectedTag)); [reflexivity|apply streaming_err].
      * intros i Hi. pose proof (parse_header_fuel i) as F. unfold header_parse_ber.
        destruct (parse_header i) as [[r h]|e|n|] eqn:Eh; cbn [bind]; try congruence.
        destruct (accept_tag p (h_tag h)); [|discriminate].
        destruct (parse_header_consumes _ _ _ Hi Eh) as (pre & -> & _). apply bytes_ok_app in Hi as [_ Hr].
        pose proof (object_content_sane h r MAX_RECURSION Hr) as S.
        destruct (ber_object_content h r MAX_RECURSION) as [[r' d]|e|n|]; cbn [bind sane] in *; congruence.
      * intros i r a Hi E. apply bind_ok in E as ([r0 h] & E1 & E). apply bind_ok in E as ([r1 d] & E2 & E).
        injection E as <- <-. destruct (accept_tag p (h_tag h)); [|discriminate].
        destruct (parse_header_consumes _ _ _ Hi E1) as (pre & -> & Hl). apply bytes_ok_app in Hi as [_ Hr].
        destruct (proj2 (object_content_safe h MAX_RECURSION r0 Hr) _ _ E2) as (pre2 & ->).
        apply bytes_ok_app in Hr as [_ Hr]. rewrite !app_length. split; [lia|exact Hr].
    + intros i r a Hi E. apply bind_ok in E as ([r0 h] & E1 & E). apply bind_ok in E as ([r1 d] & E2 & E).
      injection E as <- <-. destruct (accept_tag p (h_tag h)); [|discriminate].
      destruct (parse_header_consumes _ _ _ Hi E1) as (pre & -> & Hl). apply bytes_ok_app in Hi as [_ Hr].
      exact (ber_object_content_data _ _ _ _ _ Hr E2).
    + intros a Ha. sane_tac. apply H, Ha.
Qed.

Lemma codec_parse_der_steady {T} (p : codec T) : sane_content (der_content p) -> steady (parse_der p).
Proof.
  intros H. apply (steady_ext _ (fun i => let* (r, a) := (let* (rem, h) := header_parse_der i in
     let* (rem, data) := (match h_length h with Indefinite => Err EIndefiniteLengthUnexpected
                          | Definite l => if accept_tag p (h_tag h) then take l rem else Err EUnexpectedTag end) in
     Ok (rem, mk_any h data)) in
     let* x := (let* (_, x) := der_content p (any_header a) (any_data a) in Ok x) in Ok (r, x))).
  - intros i _. unfold parse_der. destruct (header_parse_der i) as [[r h]|e|n|]; cbn [bind]; try reflexivity.
    destruct (h_length h) as [l|]; [|reflexivity]. destruct (accept_tag p (h_tag h)); [|reflexivity].
    destruct (take l r) as [[r' d]|e|n|]; cbn [bind]; try reflexivity.
    cbn [any_header any_data]. destruct (der_content p h d) as [[? ?]|e|n|]; reflexivity.
  - assert (Q : forall i r a, bytes_ok i -> (let* (rem, h) := header_parse_der i in
       let* (rem, data) := (match h_length h with Indefinite => Err EIndefiniteLengthUnexpected
                            | Definite l => if accept_tag p (h_tag h) then take l rem else Err EUnexpectedTag end) in
       Ok (rem, mk_any h data)) = Ok (r, a) -> (length r < length i)%nat /\ bytes_ok r /\ bytes_ok (any_data a)).
    { intros i r a Hi E. apply bind_ok in E as ([r0 h] & E1 & E). apply bind_ok in E as ([r1 d] & E2 & E).
      injection E as <- <-. destruct (steady_consuming _ header_der_steady _ _ _ Hi E1) as [Hl Hr].
      destruct (h_length h) as [l|]; [|discriminate]. destruct (accept_tag p (h_tag h)); [|discriminate].
      apply take_ok in E2 as [-> _]. apply bytes_ok_app in Hr as [Hd Hr]. rewrite app_length in Hl. cbn [any_data].
      split; [lia|]. split; assumption. }
    apply (steady_map _ _ (fun a => bytes_ok (any_data a))).
    + apply streaming_steady.
      * apply (streaming_bind header_parse_der (fun h rem => let* (rem, data) :=
          (match h_length h with Indefinite => Err EIndefiniteLengthUnexpected
           | Definite l => if accept_tag p (h_tag h) then take l rem else Err EUnexpectedTag end) in Ok (rem, mk_any h data)));
          [apply streaming_header_parse_der|].
        intros h. destruct (h_length h) as [l|].
        -- destruct (accept_tag p (h_tag h)).
           ++ apply (streaming_bind (take l) (fun d i => Ok (i, mk_any h d))); [apply streaming_take|intros d; apply streaming_ok].
           ++ apply (streaming_ext _ (fun _ => Err EUnexpectedTag)); [reflexivity|apply streaming_err].
        -- apply (streaming_ext _ (fun _ => Err EIndefiniteLengthUnexpected)); [reflexivity|apply streaming_err].
      * intros i Hi. pose proof (header_der_steady i Hi) as F.
        destruct (header_parse_der i) as [[r h]|e|n|] eqn:Eh; cbn [bind]; try congruence; [|intros E; injection E; apply F].
        destruct (h_length h) as [l|]; [|discriminate]. destruct (accept_tag p (h_tag h)); [|discriminate].
        pose proof (take_sane l r) as S. destruct (take l r) as [[r' d]|e|n|]; cbn [bind sane] in *; congruence.
      * intros i r a Hi E. destruct (Q _ _ _ Hi E) as (A & B & _). split; assumption.
    + intros i r a Hi E. apply (Q _ _ _ Hi E).
    + intros a Ha. sane_tac. apply H, Ha.
Qed.

Lemma codec_parser_steady {T} (p : codec T) :
  sane_content (ber_content p) -> sane_content (der_content p) -> steady_parser (codec_parser p).
Proof.
  intros A B. split; [exact A|]. split; [exact B|]. split; [apply codec_parse_ber_steady, A|apply codec_parse_der_steady, B].
Qed.
Lemma default_parser_steady {T} accept (f g : header -> bytes -> res (bytes * T)) :
  sane_content f -> sane_content g -> steady_parser (default_parser accept f g).
Proof. intros A B. apply codec_parser_steady; assumption. Qed.

Lemma blanket_steady {T} (f : any -> res T) : sane_any f -> steady (blanket_from_ber f).
Proof.
  intros H. apply (steady_map parse_ber_any f (fun a => bytes_ok (any_data a))); [apply ber_any_steady|apply parse_ber_any_data|exact H].
Qed.
Lemma der_map_steady {T} (f : any -> res T) :
  sane_any f -> steady (fun i => let* (r, a) := from_der any_codec i in let* x := f a in Ok (r, x)).
Proof.
  intros H. apply (steady_map (from_der any_codec) f (fun a => bytes_ok (any_data a))); [apply from_der_any_steady| |exact H].
  intros i r a Hi E. rewrite from_der_any_eq in E. exact (parse_der_any_data _ _ _ Hi E).
Qed.
Lemma from_der_steady {T} (p : codec T) :
  sane_any (check_constraints p) -> sane_any (try_from_any p) -> steady (from_der p).
Proof.
  intros H1 H2. apply (steady_ext _ (fun i => let* (r, a) := parse_der_any i in
    let* x := (let* _ := check_constraints p a in try_from_any p a) in Ok (r, x))).
  - intros i _. unfold from_der. destruct (parse_der_any i) as [[r a]|e|n|]; cbn [bind]; try reflexivity.
    destruct (check_constraints p a); reflexivity.
  - apply (steady_map parse_der_any _ (fun a => bytes_ok (any_data a))); [apply der_any_steady|apply parse_der_any_data|].
    intros a Ha. apply sane_bind; [apply H1, Ha|]. intros ? ?. apply H2, Ha.
Qed.
Lemma codec_legacy_steady {T} tag (p : codec T) (der : bool) :
  sane_any (try_from_any p) -> (der = true -> sane_any (check_constraints p)) -> steady_legacy der (codec_legacy tag p).
Proof.
  intros A B. split; [exact A|]. split; [apply (blanket_steady (try_from_any p)), A|]. intros E. specialize (B E).
  split; [exact B|]. apply from_der_steady; assumption.
Qed.

(** ** Containers *)

Lemma collect_sane {T} (p : bytes -> res (bytes * any)) (f : any -> res T) :
  (forall i, bytes_ok i -> sane (p i)) -> (forall i r a, bytes_ok i -> p i = Ok (r, a) -> (length r < length i)%nat /\ bytes_ok r /\ bytes_ok (any_data a)) ->
  sane_any f -> forall n i, (length i < n)%nat -> bytes_ok i -> sane (collect_loop p f n i).
Proof.
  intros Hp Hq Hf. induction n as [|n IH]; intros i Hn Hi; [lia|]. cbn [collect_loop].
  destruct (blen i =? 0); [exact I|]. apply sane_bind; [apply sane_close, Hp, Hi|]. intros [rem a] E.
  assert (E' : p i = Ok (rem, a)) by (destruct (p i); cbn [close] in E; congruence).
  destruct (Hq _ _ _ Hi E') as (Hl & Hr & Ha). apply sane_bind; [apply Hf, Ha|]. intros x _.
  apply sane_bind; [apply IH; [lia|exact Hr]|]. intros [r xs] _. exact I.
Qed.
Lemma any_ber_next i r a : bytes_ok i -> any_parse_ber i = Ok (r, a) -> (length r < length i)%nat /\ bytes_ok r /\ bytes_ok (any_data a).
Proof.
  intros Hi E. rewrite any_parse_ber_eq in E by exact Hi. destruct (any_ber_consuming _ _ _ Hi E) as [A B].
  split; [exact A|]. split; [exact B|]. exact (parse_ber_any_data _ _ _ Hi E).
Qed.
Lemma any_der_next i r a : bytes_ok i -> any_parse_der i = Ok (r, a) -> (length r < length i)%nat /\ bytes_ok r /\ bytes_ok (any_data a).
Proof.
  intros Hi E. rewrite any_parse_der_eq in E by exact Hi. destruct (any_der_consuming _ _ _ Hi E) as [A B].
  split; [exact A|]. split; [exact B|]. exact (parse_der_any_data _ _ _ Hi E).
Qed.
Lemma any_parse_ber_sane i : bytes_ok i -> sane (any_parse_ber i).
Proof. intros Hi. rewrite any_parse_ber_eq by exact Hi. apply (steady_safe _ ber_any_steady i Hi). Qed.
Lemma any_parse_der_sane i : bytes_ok i -> sane (any_parse_der i).
Proof. intros Hi. rewrite any_parse_der_eq by exact Hi. apply (steady_safe _ der_any_steady i Hi). Qed.
Lemma convert_item_sane {T} accept (f : header -> bytes -> res (bytes * T)) : sane_content f -> sane_any (convert_item accept f).
Proof. intros H a Ha. unfold convert_item. sane_tac. apply H, Ha. Qed.
Lemma collect_ber_sane {T} (P : parser T) i : sane_content (ps_ber_content P) -> bytes_ok i -> sane (collect_ber P i).
Proof.
  intros H Hi. apply collect_sane; [apply any_parse_ber_sane|apply any_ber_next|apply convert_item_sane, H|lia|exact Hi].
Qed.
Lemma collect_der_sane {T} (P : parser T) i : sane_content (ps_der_content P) -> bytes_ok i -> sane (collect_der P i).
Proof.
  intros H Hi. apply collect_sane; [apply any_parse_der_sane|apply any_der_next|apply convert_item_sane, H|lia|exact Hi].
Qed.

Lemma seq_items_sane {T} (p : bytes -> res (bytes * T)) i : steady p -> bytes_ok i -> sane (seq_items p i).
Proof.
  intros H. unfold seq_items. assert (G : forall n i, (length i < n)%nat -> bytes_ok i -> sane (seq_collect p n i)).
  { induction n as [|n IH]; intros j Hn Hj; [lia|]. cbn [seq_collect]. destruct (blen j =? 0); [exact I|].
    apply sane_bind; [apply sane_close, (steady_safe _ H), Hj|]. intros [rem x] E.
    assert (E' : p j = Ok (rem, x)) by (destruct (p j); cbn [close] in E; congruence).
    destruct (steady_consuming _ H _ _ _ Hj E') as [Hl Hr]. apply sane_bind; [apply IH; [lia|exact Hr]|]. intros xs _. exact I. }
  intros Hi. apply G; [lia|exact Hi].
Qed.

Lemma vec_parser_steady {T} (P : parser T) :
  sane_content (ps_ber_content P) -> sane_content (ps_der_content P) -> steady_parser (vec_parser P).
Proof.
  intros A B. apply default_parser_steady; intros h d Hd; [unfold vec_ber_content|unfold vec_der_content]; sane_tac;
    [apply collect_ber_sane|apply collect_der_sane]; assumption.
Qed.
Lemma array_parser_steady {T} n (P : parser T) :
  sane_content (ps_ber_content P) -> sane_content (ps_der_content P) -> steady_parser (array_parser n P).
Proof.
  intros A B. destruct (vec_parser_steady P A B) as (C & D & _).
  apply default_parser_steady; intros h d Hd; unfold array_content; sane_tac; [apply C, Hd|apply D, Hd].
Qed.
Lemma setof_contents_sane {T} (P : parser T) :
  sane_content (ps_ber_content P) -> sane_content (ps_der_content P) ->
  sane_content (setof_ber_content P) /\ sane_content (setof_der_content P).
Proof.
  intros A B. split; intros h d Hd; [unfold setof_ber_content|unfold setof_der_content]; sane_tac;
    [apply collect_ber_sane|apply collect_der_sane]; assumption.
Qed.
Lemma setof_parser_steady {T} (P : parser T) :
  sane_content (ps_ber_content P) -> sane_content (ps_der_content P) -> steady_parser (setof_parser P).
Proof. intros A B. destruct (setof_contents_sane P A B) as [C D]. apply default_parser_steady; assumption. Qed.
Lemma btreeset_parser_steady {T} cmp (P : parser T) :
  sane_content (ps_ber_content P) -> sane_content (ps_der_content P) -> steady_parser (btreeset_parser cmp P).
Proof.
  intros A B. destruct (setof_contents_sane P A B) as [C D].
  apply default_parser_steady; intros h d Hd; unfold btreeset_content; sane_tac; [apply C, Hd|apply D, Hd].
Qed.
Lemma explicit_parser_steady {T} c n (P : parser T) :
  safe (ps_parse_ber P) -> safe (ps_parse_der P) -> steady_parser (explicit_parser c n P).
Proof.
  intros A B. apply default_parser_steady; intros h d Hd; unfold explicit_content; sane_tac;
    [apply (safe_sane _ _ A Hd)|apply (safe_sane _ _ B Hd)].
Qed.
Lemma implicit_parser_steady {T} c n (P : parser T) :
  sane_content (ps_ber_content P) -> sane_content (ps_der_content P) -> steady_parser (implicit_parser c n P).
Proof.
  intros A B. apply default_parser_steady; intros h d Hd; unfold implicit_content; sane_tac; [apply A, Hd|apply B, Hd].
Qed.

Lemma no_legacy_steady {T} (L : legacy T) der :
  lg_try_from L = (fun _ => Err EUnsupported) -> lg_check L = (fun _ => Err EUnsupported) ->
  lg_from_ber L = (fun _ => Err EUnsupported) -> lg_from_der L = (fun _ => Err EUnsupported) -> steady_legacy der L.
Proof.
  intros A B C D. split; [rewrite A; intros a Ha; discriminate|]. split; [rewrite C; apply steady_err; discriminate|].
  intros _. split; [rewrite B; intros a Ha; discriminate|rewrite D; apply steady_err; discriminate].
Qed.

Lemma items_check_sane {T} (L : legacy T) : sane_any (lg_check L) -> sane_any (items_check L).
Proof.
  intros H a Ha. unfold items_check. sane_tac. apply seq_items_sane; [|exact Ha].
  apply (steady_ext _ (fun i => let* (r, a) := from_der any_codec i in let* x := lg_check L a in Ok (r, x))).
  - intros i _. destruct (from_der any_codec i) as [[r x]|e|n|]; cbn [bind]; try reflexivity.
    destruct (lg_check L x) as [[]|e|n|]; reflexivity.
  - apply der_map_steady, H.
Qed.

(** [p] is [Any::from_der] followed by [f], up to the placing of the binds. *)
Lemma der_steady {T} (p : bytes -> res (bytes * T)) (f : any -> res T) :
  (forall i, p i = let* (r, a) := from_der any_codec i in let* x := f a in Ok (r, x)) -> sane_any f -> steady p.
Proof. intros E H. apply (steady_ext _ _ (fun i _ => E i)). apply der_map_steady, H. Qed.

Lemma vec_legacy_steady {T} (L : legacy T) der : steady_legacy der L -> steady_legacy der (vec_legacy L).
Proof.
  intros (A & B & C). assert (V : sane_any (vec_try_from L)).
  { intros a Ha. unfold vec_try_from. sane_tac. apply seq_items_sane; assumption. }
  split; [exact V|]. split; [apply blanket_steady, V|]. intros E. specialize (C E) as [C D]. split.
  - intros a Ha. cbn [vec_legacy lg_check]. unfold vec_check. sane_tac. apply items_check_sane; assumption.
  - apply (der_steady _ (fun a => let* _ := assert_tag (any_header a) TagSequence in seq_items (lg_from_der L) (any_data a))).
    + intros i. cbn [vec_legacy lg_from_der]. unfold vec_from_der. rewrite from_der_any_eq.
      destruct (parse_der_any i) as [[r a]|e|n|]; cbn [bind]; try reflexivity.
      destruct (assert_tag (any_header a) TagSequence) as [[]|e|n|]; reflexivity.
    + intros a Ha. sane_tac. apply seq_items_sane; assumption.
Qed.
Lemma setof_try_from_sane {T} (L : legacy T) : steady (lg_from_ber L) -> sane_any (setof_try_from L).
Proof. intros B a Ha. unfold setof_try_from. sane_tac. apply seq_items_sane; assumption. Qed.
Lemma setof_check_sane {T} (L : legacy T) : sane_any (lg_check L) -> sane_any (setof_check L).
Proof. intros C a Ha. unfold setof_check. sane_tac. apply items_check_sane; assumption. Qed.
Lemma setof_legacy_steady {T} (L : legacy T) der : steady_legacy der L -> steady_legacy der (setof_legacy L).
Proof.
  intros (A & B & C). pose proof (setof_try_from_sane L B) as V.
  split; [exact V|]. split; [apply blanket_steady, V|]. intros E. specialize (C E) as [C D].
  split; [exact (setof_check_sane L C)|].
  apply (der_steady _ (fun a => let* _ := assert_tag (any_header a) TagSet in seq_items (lg_from_der L) (any_data a))).
  - intros i. cbn [setof_legacy lg_from_der]. unfold setof_from_der.
    destruct (from_der any_codec i) as [[r a]|e|n|]; cbn [bind]; try reflexivity.
    destruct (assert_tag (any_header a) TagSet) as [[]|e|n|]; reflexivity.
  - intros a Ha. sane_tac. apply seq_items_sane; assumption.
Qed.
Lemma btreeset_legacy_steady {T} cmp (L : legacy T) der : steady_legacy der L -> steady_legacy der (btreeset_legacy cmp L).
Proof.
  intros (A & B & C). assert (V : sane_any (btreeset_try_from cmp L)).
  { intros a Ha. unfold btreeset_try_from. sane_tac. apply setof_try_from_sane; assumption. }
  split; [exact V|]. split; [apply blanket_steady, V|]. intros E. specialize (C E) as [C D].
  split; [exact (setof_check_sane L C)|].
  apply (der_steady _ (fun a => let* _ := assert_tag (any_header a) TagSet in let* _ := assert_constructed (any_header a) in
                                let* v := seq_items (lg_from_der L) (any_data a) in Ok (set_of_list cmp v))).
  - intros i. cbn [btreeset_legacy lg_from_der]. unfold btreeset_from_der.
    destruct (from_der any_codec i) as [[r a]|e|n|]; cbn [bind]; try reflexivity.
    destruct (assert_tag (any_header a) TagSet) as [[]|e|n|]; cbn [bind]; try reflexivity.
    destruct (assert_constructed (any_header a)) as [[]|e|n|]; cbn [bind]; try reflexivity.
    destruct (seq_items (lg_from_der L) (any_data a)) as [v|e|n|]; reflexivity.
  - intros a Ha. sane_tac. apply seq_items_sane; assumption.
Qed.
Lemma explicit_legacy_steady {T} c n (L : legacy T) der : steady_legacy der L -> steady_legacy der (explicit_legacy c n L).
Proof.
  intros (A & B & C). assert (V : sane_any (explicit_try_from c n L)).
  { intros a Ha. unfold explicit_try_from. sane_tac. apply (steady_safe _ B), Ha. }
  split; [exact V|]. split; [apply blanket_steady, V|]. intros E. specialize (C E) as [C D]. split.
  - intros a Ha. cbn [explicit_legacy lg_check]. unfold explicit_check. sane_tac; [apply (steady_safe _ ber_any_steady), Ha|].
    apply C. subst a1. match goal with H : close ?r = Ok ?x |- _ => assert (E' : r = Ok x) by (destruct r; cbn [close] in H; congruence) end.
    exact (parse_ber_any_data _ _ _ Ha E').
  - apply (der_steady _ (fun a => let* _ := assert_tag (any_header a) n in let* _ := assert_constructed (any_header a) in
                                  let* _ := check_class (any_header a) c in let* (_, x) := lg_from_der L (any_data a) in Ok x)).
    + intros i. cbn [explicit_legacy lg_from_der]. unfold explicit_from_der.
      destruct (from_der any_codec i) as [[r a]|e|m|]; cbn [bind]; try reflexivity.
      destruct (assert_tag (any_header a) n) as [[]|e|m|]; cbn [bind]; try reflexivity.
      destruct (assert_constructed (any_header a)) as [[]|e|m|]; cbn [bind]; try reflexivity.
      destruct (check_class (any_header a) c) as [[]|e|m|]; cbn [bind]; try reflexivity.
      destruct (lg_from_der L (any_data a)) as [[? ?]|e|m|]; reflexivity.
    + intros a Ha. sane_tac. apply (steady_safe _ D), Ha.
Qed.
Lemma implicit_legacy_steady {T} c n (L : legacy T) der : steady_legacy der L -> steady_legacy der (implicit_legacy c n L).
Proof.
  intros (A & B & C). assert (V : sane_any (implicit_try_from c n L)).
  { intros a Ha. unfold implicit_try_from. sane_tac. apply A, Ha. }
  split; [exact V|]. split; [apply blanket_steady, V|]. intros E. specialize (C E) as [C D]. split.
  - intros a Ha. cbn [implicit_legacy lg_check]. unfold implicit_check. sane_tac. apply C, Ha.
  - apply (der_steady _ (implicit_try_from c n L)); [reflexivity|exact V].
Qed.

(** ** Option, tuples, TaggedParser, OptTaggedParser *)

Lemma option_content_sane {T} accept (f : header -> bytes -> res (bytes * T)) : sane_content f -> sane_content (option_content accept f).
Proof.
  intros H h d Hd. unfold option_content. destruct (accept (h_tag h)); [|exact I].
  apply sane_bind; [apply object_content_sane, Hd|]. intros [rem data] E.
  apply sane_bind; [apply H; exact (ber_object_content_data _ _ _ _ _ Hd E)|]. intros [r x] _. exact I.
Qed.
Lemma option_parse_safe {T} hp accept (f : header -> bytes -> res (bytes * T)) :
  steady hp -> sane_content f -> safe (option_parse hp accept f).
Proof.
  intros Hh H i Hi. unfold option_parse. destruct (blen i =? 0).
  { split; [exact I|]. intros r a E. injection E as <- _. exists []. reflexivity. }
  destruct (hp i) as [[rem h]|e|n|] eqn:Eh; cbn [bind];
    pose proof (Hh i Hi) as S; rewrite Eh in S.
  - destruct S as [(pre & -> & _) _]. apply bytes_ok_app in Hi as [Hp Hr]. destruct (accept (h_tag h)).
    + pose proof (object_content_safe h MAX_RECURSION rem Hr) as [S1 S2].
      destruct (ber_object_content h rem MAX_RECURSION) as [[r d]|e|n|] eqn:Ec; cbn [bind sane] in *; try (split; [exact S1|discriminate]).
      destruct (S2 _ _ eq_refl) as (pre2 & ->).
      pose proof (option_content_sane accept f H h d (ber_object_content_data _ _ _ _ _ Hr Ec)) as S3.
      destruct (option_content accept f h d) as [[? ?]|e|n|]; cbn [bind sane] in *; try (split; [exact S3|discriminate]).
      split; [exact I|]. intros r' a' E. injection E as <- _. exists (pre ++ pre2). apply app_assoc.
    + split; [exact I|]. intros r' a' E. injection E as <- _. exists []. reflexivity.
  - split; [apply S|discriminate].
  - split; [apply S|discriminate].
  - contradiction.
Qed.
Lemma option_parser_safe {T} (P : parser T) :
  sane_content (ps_ber_content P) -> sane_content (ps_der_content P) -> safe_parser (option_parser P).
Proof.
  intros A B. split; [apply option_content_sane, A|]. split; [apply option_content_sane, B|].
  split; apply option_parse_safe; try assumption; [apply header_ber_steady|apply header_der_steady].
Qed.

Lemma option_from_safe {T} hp accept (p : bytes -> res (bytes * T)) : safe p -> safe (option_from hp accept p).
Proof.
  intros H i Hi. unfold option_from. destruct (blen i =? 0).
  { split; [exact I|]. intros r a E. injection E as <- _. exists []. reflexivity. }
  assert (G : sane (let* (rem, x) := p i in Ok (rem, Some x)) /\
              forall r a, (let* (rem, x) := p i in Ok (rem, Some x)) = Ok (r, a) -> exists pre, i = pre ++ r).
  { destruct (H i Hi) as [S1 S2]. destruct (p i) as [[r x]|e|n|]; cbn [bind sane] in *; try (split; [exact S1|discriminate]).
    split; [exact I|]. intros r' a' E. injection E as <- _. exact (S2 _ _ eq_refl). }
  destruct (hp i) as [[rem h]|e|n|]; try exact G. destruct (accept (h_tag h)); [exact G|].
  split; [exact I|]. intros r a E. injection E as <- _. exists []. reflexivity.
Qed.

Lemma no_field_safe : safe no_field.
Proof. intros i Hi. split; [exact I|]. intros r a E. injection E as <- _. exists []. reflexivity. Qed.
Lemma field_safe {A B} (p : bytes -> res (bytes * A)) (f : fields B) : safe p -> safe f -> safe (field p f).
Proof.
  intros Hp Hf i Hi. unfold field. destruct (Hp i Hi) as [S1 S2].
  destruct (p i) as [[r x]|e|n|]; cbn [bind sane] in *; try (split; [exact S1|discriminate]).
  destruct (S2 _ _ eq_refl) as (pre & ->). apply bytes_ok_app in Hi as [_ Hr]. destruct (Hf r Hr) as [S3 S4].
  destruct (f r) as [[r' y]|e|n|]; cbn [bind sane] in *; try (split; [exact S3|discriminate]).
  split; [exact I|]. intros r0 a0 E. injection E as <- _. destruct (S4 _ _ eq_refl) as (pre2 & ->). exists (pre ++ pre2). apply app_assoc.
Qed.
Lemma tuple_parser_steady {T} (f g : fields T) : safe f -> safe g -> steady_parser (tuple_parser f g).
Proof. intros A B. apply default_parser_steady; intros h d Hd; [apply A, Hd|apply B, Hd]. Qed.

Lemma tp_explicit_ber_steady {T} (L : legacy T) : steady (lg_from_ber L) -> steady (tp_explicit_from_ber L).
Proof.
  intros H. apply (steady_ext _ (blanket_from_ber (fun a => let* (_, x) := lg_from_ber L (any_data a) in Ok (any_header a, x)))).
  - intros i _. unfold tp_explicit_from_ber, blanket_from_ber. destruct (parse_ber_any i) as [[r a]|e|n|]; cbn [bind]; try reflexivity.
    destruct (lg_from_ber L (any_data a)) as [[? ?]|e|n|]; reflexivity.
  - apply blanket_steady. intros a Ha. sane_tac. apply (steady_safe _ H), Ha.
Qed.
Lemma tp_explicit_der_steady {T} (L : legacy T) : steady (lg_from_der L) -> steady (tp_explicit_from_der L).
Proof.
  intros H. apply (der_steady _ (fun a => let* (_, x) := lg_from_der L (any_data a) in Ok (any_header a, x))).
  - intros i. unfold tp_explicit_from_der. destruct (from_der any_codec i) as [[r a]|e|n|]; cbn [bind]; try reflexivity.
    destruct (lg_from_der L (any_data a)) as [[? ?]|e|n|]; reflexivity.
  - intros a Ha. sane_tac. apply (steady_safe _ H), Ha.
Qed.
Lemma tp_implicit_ber_steady {T} (L : legacy T) : sane_any (lg_try_from L) -> steady (tp_implicit_from_ber L).
Proof.
  intros H. apply (steady_ext _ (blanket_from_ber (fun a =>
    let* x := lg_try_from L (mk_any (with_tag (any_header a) (lg_tag L)) (any_data a)) in Ok (any_header a, x)))).
  - intros i _. unfold tp_implicit_from_ber, blanket_from_ber. destruct (parse_ber_any i) as [[r a]|e|n|]; cbn [bind]; try reflexivity.
    destruct (lg_try_from L _); reflexivity.
  - apply blanket_steady. intros a Ha. sane_tac. apply H, Ha.
Qed.
Lemma tp_implicit_der_steady {T} (L : legacy T) :
  sane_any (lg_check L) -> sane_any (lg_try_from L) -> steady (tp_implicit_from_der L).
Proof.
  intros C H. apply (der_steady _ (fun a => let a' := mk_any (with_tag (any_header a) (lg_tag L)) (any_data a) in
    let* _ := lg_check L a' in let* x := lg_try_from L a' in Ok (any_header a, x))).
  - intros i. unfold tp_implicit_from_der. destruct (from_der any_codec i) as [[r a]|e|n|]; cbn [bind]; try reflexivity.
    destruct (lg_check L _); cbn [bind]; try reflexivity. destruct (lg_try_from L _); reflexivity.
  - intros a Ha. cbv zeta. sane_tac; [apply C, Ha|apply H, Ha].
Qed.
Lemma tp_parse_steady {T} (p : bytes -> res (bytes * (header * T))) c t : steady p -> steady (tp_parse p c t).
Proof.
  intros H. apply (steady_ext _ (fun i => let* (r, a) := p i in
    let* b := (let* _ := assert_class (fst a) c in let* _ := assert_tag (fst a) t in Ok a) in Ok (r, b))).
  - intros i _. unfold tp_parse. destruct (p i) as [[r [h x]]|e|n|]; cbn [bind fst]; try reflexivity.
    destruct (assert_class h c); cbn [bind]; try reflexivity. destruct (assert_tag h t); reflexivity.
  - apply (steady_map p _ (fun _ => True)); [exact H|auto|]. intros a _. sane_tac.
Qed.
Lemma parse_der_tagged_steady {T} (p : bytes -> res (bytes * (header * T))) t : steady p -> steady (parse_der_tagged p t).
Proof.
  intros H. apply (steady_ext _ (fun i => let* (r, a) := p i in let* b := (let* _ := assert_tag (fst a) t in Ok a) in Ok (r, b))).
  - intros i _. unfold parse_der_tagged. destruct (p i) as [[r [h x]]|e|n|]; cbn [bind fst]; try reflexivity.
    destruct (assert_tag h t); reflexivity.
  - apply (steady_map p _ (fun _ => True)); [exact H|auto|]. intros a _. sane_tac.
Qed.
