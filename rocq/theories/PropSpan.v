(** C41: spans locate results in the original input. *)
From Verif Require Import Base MHeader MEncode MBer MInt MSeg MCont MSpan SSpan PSpan.

(** A result without its spans and without the location of the error. *)
Definition forget {A B} (f : A -> B) (r : sres A) : res B :=
  match r with SOk a => Ok (f a) | SErr _ e => Err e | SIncomplete n => Incomplete n | SPanic => Panic end.

Lemma sim_forget whole {A B} (f : A -> B) P r r' : sim whole f P r r' -> forget f r = r'.
Proof. unfold sim. destruct r, r'; cbn; intros H; try contradiction; try reflexivity; intuition congruence. Qed.
Lemma sim_error whole {A B} (f : A -> B) P r r' at_ e : sim whole f P r r' -> r = SErr at_ e -> located whole at_.
Proof. intros S ->. cbn in S. destruct r'; intuition. Qed.
Lemma sim_prop whole {A B} (f : A -> B) (P : A -> Prop) r r' a : sim whole f P r r' -> r = SOk a -> P a.
Proof. intros S E. exact (proj2 (sim_ok _ _ _ _ _ _ S E)). Qed.

(** ** Headers and objects

    From an input located in [whole], the functions with spans do what those without spans do, and every input in
    the result lies where its span says, header, content and remainder in a row. *)
Theorem C41_objects (whole : bytes) (i : input) : blen whole < 2 ^ 64 -> located whole i ->
  (forget dataH (s_parse_header i) = parse_header (in_data i)
   /\ forall rem h, s_parse_header i = SOk (rem, h) -> header_layout whole i h rem)
  /\ (forget dataH (s_parse_header_der i) = header_parse_der (in_data i)
      /\ forall rem h, s_parse_header_der i = SOk (rem, h) -> header_layout whole i h rem)
  /\ (forget dataO (s_parse_ber_any i) = parse_ber_any (in_data i)
      /\ forall rem a, s_parse_ber_any i = SOk (rem, a) -> object_layout whole i (sa_header a) (sa_data a) rem)
  /\ (forget dataO (s_parse_der_any i) = parse_der_any (in_data i)
      /\ forall rem a, s_parse_der_any i = SOk (rem, a) -> object_layout whole i (sa_header a) (sa_data a) rem).
Proof.
  intros W L. split; [|split; [|split]].
  - pose proof (parse_header_sim whole i W L) as S. split; [eapply sim_forget; exact S|]. intros rem h E. exact (proj1 (sim_prop _ _ _ _ _ _ S E)).
  - pose proof (parse_header_der_sim whole i W L) as S. split; [eapply sim_forget; exact S|]. intros rem h E. exact (proj1 (sim_prop _ _ _ _ _ _ S E)).
  - pose proof (parse_ber_any_sim whole i W L) as S. split; [eapply sim_forget; exact S|]. intros rem h E. exact (proj1 (sim_prop _ _ _ _ _ _ S E)).
  - pose proof (parse_der_any_sim whole i W L) as S. split; [eapply sim_forget; exact S|]. intros rem h E. exact (proj1 (sim_prop _ _ _ _ _ _ S E)).
Qed.
Print Assumptions C41_objects.

(** ** Types whose values hold inputs *)

Inductive sty : Type :=
| YAny
| YPlain (T : Type) (c : codec T)
| YVec (t : sty)
| YExplicit (c : class) (n : N) (t : sty).

(** Values with and without spans. *)
Fixpoint sval (t : sty) : Type := match t with YAny => sany | YPlain T _ => T | YVec t => list (sval t) | YExplicit _ _ t => sval t end.
Fixpoint uval (t : sty) : Type := match t with YAny => any | YPlain T _ => T | YVec t => list (uval t) | YExplicit _ _ t => uval t end.
Fixpoint bare (t : sty) : sval t -> uval t :=
  match t with YAny => dataA | YPlain _ _ => fun x => x | YVec t => map (bare t) | YExplicit _ _ t => bare t end.
(** The inputs in a value. *)
Definition raw_of (h : sheader) : list input := match sh_raw h with Some r => [r] | None => [] end.
Fixpoint inputs (t : sty) : sval t -> list input :=
  match t with
  | YAny => fun a => raw_of (sa_header a) ++ [sa_data a]
  | YPlain _ _ => fun _ => []
  | YVec t => fun l => flat_map (inputs t) l
  | YExplicit _ _ t => inputs t
  end.
(** The parsers of the type. *)
Fixpoint sparser_of (t : sty) : sparser (sval t) :=
  match t with
  | YAny => s_any_parser
  | YPlain _ c => s_plain_parser (codec_parser c)
  | YVec t => s_vec_parser (sparser_of t)
  | YExplicit c n t => s_explicit_parser c n (sparser_of t)
  end.
Fixpoint parser_of (t : sty) : parser (uval t) :=
  match t with
  | YAny => codec_parser any_codec
  | YPlain _ c => codec_parser c
  | YVec t => vec_parser (parser_of t)
  | YExplicit c n t => explicit_parser c n (parser_of t)
  end.

Lemma tracks_weaken {T U} (f : T -> U) (g g' : bytes -> T -> Prop) sp p : (forall w x, g w x -> g' w x) -> tracks f g sp p -> tracks f g' sp p.
Proof.
  intros H (A & B & C & D). split; [exact A|]. split; [exact B|]. split; [exact C|]. intros whole W h i Hh L. destruct (D whole W h i Hh L) as [D1 D2].
  split; (eapply sim_weaken; [apply H | eassumption]).
Qed.

Lemma sty_tracks t : tracks (bare t) (fun w v => Forall (located w) (inputs t v)) (sparser_of t) (parser_of t).
Proof.
  induction t as [|T c|t IH|c n t IH]; cbn [bare inputs sparser_of parser_of sval uval].
  - eapply tracks_weaken; [|exact any_tracks]. intros w a [H L]. apply Forall_app. split; [|repeat constructor; exact L].
    unfold raw_of. unfold header_located in H. destruct (sh_raw (sa_header a)); constructor; auto.
  - eapply tracks_weaken; [|apply plain_tracks]. intros. constructor.
  - eapply tracks_weaken; [|apply vec_tracks; exact IH]. intros w l H. cbn beta in H. induction H; cbn [flat_map]; [constructor|]. apply Forall_app. auto.
  - apply explicit_tracks. exact IH.
Qed.

Theorem C41_typed (t : sty) (whole : bytes) (i : input) : blen whole < 2 ^ 64 -> located whole i ->
  (forget (dataV (bare t)) (s_parse_ber (sparser_of t) i) = ps_parse_ber (parser_of t) (in_data i)
   /\ forall rem v, s_parse_ber (sparser_of t) i = SOk (rem, v) -> suffix whole i rem /\ Forall (located whole) (inputs t v))
  /\ (forget (dataV (bare t)) (s_parse_der (sparser_of t) i) = ps_parse_der (parser_of t) (in_data i)
      /\ forall rem v, s_parse_der (sparser_of t) i = SOk (rem, v) -> suffix whole i rem /\ Forall (located whole) (inputs t v))
  /\ (forall rem v, s_parse_ber_optional (sparser_of t) i = SOk (rem, Some v) \/ s_parse_der_optional (sparser_of t) i = SOk (rem, Some v) ->
      suffix whole i rem /\ Forall (located whole) (inputs t v))
  /\ (forall rem h data, s_parse_ber_as_input (sparser_of t) i = SOk (rem, (h, data)) \/ s_parse_der_as_input (sparser_of t) i = SOk (rem, (h, data)) ->
      object_layout whole i h data rem).
Proof.
  intros W L. pose proof (sty_tracks t) as K. split; [|split; [|split]].
  - pose proof (parse_ber_sim _ _ _ _ K whole W i L) as S. split; [eapply sim_forget; exact S|]. intros rem v E. exact (sim_prop _ _ _ _ _ _ S E).
  - pose proof (parse_der_sim _ _ _ _ K whole W i L) as S. split; [eapply sim_forget; exact S|]. intros rem v E. exact (sim_prop _ _ _ _ _ _ S E).
  - pose proof (parse_ber_optional_sim _ _ _ _ K whole W i L) as S1. pose proof (parse_der_optional_sim _ _ _ _ K whole W i L) as S2.
    intros rem v [E|E]; [exact (sim_prop _ _ _ _ _ _ S1 E) | exact (sim_prop _ _ _ _ _ _ S2 E)].
  - pose proof (parse_ber_as_input_sim _ _ _ _ K whole W i L) as S1. pose proof (parse_der_as_input_sim _ _ _ _ K whole W i L) as S2.
    intros rem h data [E|E]; [exact (proj1 (sim_prop _ _ _ _ _ _ S1 E)) | exact (proj1 (sim_prop _ _ _ _ _ _ S2 E))].
Qed.
Print Assumptions C41_typed.

(** ** Iteration *)

(** The two modes of [AnyIterator]. *)
Definition any_parser (p : input -> sres (input * sany)) : Prop := p = s_parse_ber s_any_parser \/ p = s_parse_der s_any_parser.

Theorem C41_items (whole : bytes) (p : input -> sres (input * sany)) (s s' : siter) (item : input) (a : sany) :
  blen whole < 2 ^ 64 -> any_parser p -> located whole (si_input s) -> s_iter_next p s = (Some (SOk (item, a)), s') ->
  in_start item = in_start (si_input s) /\ adjacent item (si_input s') /\ in_end (si_input s') = in_end (si_input s)
  /\ located whole item /\ located whole (si_input s') /\ Forall (located whole) (inputs YAny a).
Proof.
  intros W Hp L E. unfold s_iter_next in E. destruct (si_has_error s || (blen (in_data (si_input s)) =? 0)); [discriminate|].
  assert (S: exists r', sim whole dataO (any_item whole (si_input s)) (p (si_input s)) r').
  { destruct Hp as [->| ->]; eexists; [apply any_parse_ber_sim | apply any_parse_der_sim]; assumption. }
  destruct S as [r' S]. destruct (p (si_input s)) as [[rem obj]| | |] eqn:P; try discriminate.
  destruct (sim_prop _ _ _ _ _ _ S eq_refl) as [[R1 [R2 R3]] [G1 G2]]. cbn [fst snd] in *.
  pose proof (suffix_len whole (si_input s) rem L (conj R1 (conj R2 R3))) as [N1 N2].
  unfold usize_sub in E. destruct (N.leb_spec (in_start (si_input s)) (in_start rem)); [|lia]. cbn [sbind] in E.
  destruct (located_take whole (si_input s) (in_start rem - in_start (si_input s)) W L) as (x & T & D & Sx & Fx & Gx); [lia|].
  rewrite T in E. injection E as <- <- <-. cbn [si_input]. unfold adjacent. repeat split; auto; try lia.
  cbn [inputs]. apply Forall_app. split; [|repeat constructor; exact G2]. unfold raw_of, header_located in *. destruct (sh_raw (sa_header obj)); constructor; auto.
Qed.
Print Assumptions C41_items.

(** ** Any number of steps

    Every input that can be reached from a byte string by parsing, and parsing the inputs obtained. *)
Inductive reached (d : bytes) : input -> Prop :=
| reached_start : reached d (from_slice d)
| reached_header i rem h x : reached d i -> s_parse_header i = SOk (rem, h) \/ s_parse_header_der i = SOk (rem, h) ->
    In x (rem :: raw_of h) -> reached d x
| reached_any i rem a x : reached d i -> s_parse_ber_any i = SOk (rem, a) \/ s_parse_der_any i = SOk (rem, a) ->
    In x (rem :: inputs YAny a) -> reached d x
| reached_typed t i rem v x : reached d i -> s_parse_ber (sparser_of t) i = SOk (rem, v) \/ s_parse_der (sparser_of t) i = SOk (rem, v) ->
    In x (rem :: inputs t v) -> reached d x
| reached_optional t i rem v x : reached d i ->
    s_parse_ber_optional (sparser_of t) i = SOk (rem, Some v) \/ s_parse_der_optional (sparser_of t) i = SOk (rem, Some v) ->
    In x (rem :: inputs t v) -> reached d x
| reached_input t i rem h data x : reached d i ->
    s_parse_ber_as_input (sparser_of t) i = SOk (rem, (h, data)) \/ s_parse_der_as_input (sparser_of t) i = SOk (rem, (h, data)) ->
    In x (rem :: data :: raw_of h) -> reached d x
| reached_item p s s' item a x : reached d (si_input s) -> any_parser p -> s_iter_next p s = (Some (SOk (item, a)), s') ->
    In x (item :: si_input s' :: inputs YAny a) -> reached d x.

Lemma in_raw h x raw : In x (raw_of h) -> sh_raw h = Some raw -> x = raw.
Proof. unfold raw_of. intros H E. rewrite E in H. destruct H as [H|[]]. auto. Qed.

Theorem C41_steps (d : bytes) (i : input) : blen d < 2 ^ 64 -> reached d i -> located d i.
Proof.
  intros W. induction 1 as [|i rem h x _ L E I|i rem a x _ L E I|t i rem v x _ L E I|t i rem v x _ L E I|t i rem h data x _ L E I|p s s' item a x _ L P E I].
  - apply located_whole.
  - assert (H: header_layout d i h rem) by (destruct (C41_objects d i W L) as ((_ & A) & (_ & B) & _), E; auto).
    destruct H as (raw & R & _ & Lr & _ & _ & _ & Lm). destruct I as [<-|I]; [exact Lm|]. rewrite (in_raw _ _ _ I R). exact Lr.
  - assert (H: object_layout d i (sa_header a) (sa_data a) rem) by (destruct (C41_objects d i W L) as (_ & _ & (_ & A) & (_ & B)), E; auto).
    destruct H as (raw & R & _ & Lr & _ & _ & Ld & _ & _ & Lm). destruct I as [<-|I]; [exact Lm|]. cbn [inputs] in I. apply in_app_or in I as [I|[<-|[]]]; [|exact Ld].
    rewrite (in_raw _ _ _ I R). exact Lr.
  - assert (H: suffix d i rem /\ Forall (located d) (inputs t v)) by (destruct (C41_typed t d i W L) as ((_ & A) & (_ & B) & _), E; auto).
    destruct H as [S F]. destruct I as [<-|I]; [apply S|]. rewrite Forall_forall in F. auto.
  - assert (H: suffix d i rem /\ Forall (located d) (inputs t v)) by (destruct (C41_typed t d i W L) as (_ & _ & A & _); auto).
    destruct H as [S F]. destruct I as [<-|I]; [apply S|]. rewrite Forall_forall in F. auto.
  - assert (H: object_layout d i h data rem) by (destruct (C41_typed t d i W L) as (_ & _ & _ & A); auto).
    destruct H as (raw & R & _ & Lr & _ & _ & Ld & _ & _ & Lm). destruct I as [<-|[<-|I]]; [exact Lm | exact Ld|]. rewrite (in_raw _ _ _ I R). exact Lr.
  - destruct (C41_items d p s s' item a W P L E) as (_ & _ & _ & A & B & F). destruct I as [<-|[<-|I]]; [exact A | exact B|].
    rewrite Forall_forall in F. auto.
Qed.
Print Assumptions C41_steps.

(** 01 01 ff, then 30 05 holding a0 03 holding 02 01 07, then 05 00: the content of the integer is at 9..10. *)
Example C41_case :
  let d := [1; 1; 255; 48; 5; 160; 3; 2; 1; 7; 5; 0] in
  exists i rem r2,
    i = mk_input [48; 5; 160; 3; 2; 1; 7; 5; 0] 3 12 /\ rem = mk_input [5; 0] 10 12 /\ r2 = mk_input [] 12 12
    /\ match s_parse_ber_any (from_slice d) with SOk (r, _) => r = i | _ => False end
    /\ s_parse_der (sparser_of (YVec (YExplicit ContextSpecific 0 YAny))) i
       = SOk (rem, [mk_sany (mk_sheader (mk_header Universal false 2 (Definite 1) (Some [2]) (Some [2; 1])) (Some (mk_input [2; 1] 7 9))) (mk_input [7] 9 10)])
    /\ s_parse_header rem = SOk (r2, mk_sheader (mk_header Universal false 5 (Definite 0) (Some [5]) (Some [5; 0])) (Some (mk_input [5; 0] 10 12))).
Proof. cbv zeta. do 3 eexists. do 3 (split; [reflexivity|]). repeat split; vm_compute; reflexivity. Qed.

(** ** Errors

    The location in an error is a part of the input, too. *)
Theorem C41_errors (whole : bytes) (i at_ : input) (e : error) : blen whole < 2 ^ 64 -> located whole i ->
  s_parse_header i = SErr at_ e \/ s_parse_header_der i = SErr at_ e \/ s_parse_ber_any i = SErr at_ e \/ s_parse_der_any i = SErr at_ e
  \/ s_parse_ber (sparser_of (YVec YAny)) i = SErr at_ e \/ s_parse_der (sparser_of (YVec YAny)) i = SErr at_ e ->
  located whole at_.
Proof.
  intros W L [E|[E|[E|[E|[E|E]]]]]; (eapply sim_error; [|exact E]).
  - apply (parse_header_sim whole i W L).
  - apply (parse_header_der_sim whole i W L).
  - apply (parse_ber_any_sim whole i W L).
  - apply (parse_der_any_sim whole i W L).
  - apply (parse_ber_sim _ _ _ _ (sty_tracks (YVec YAny)) whole W i L).
  - apply (parse_der_sim _ _ _ _ (sty_tracks (YVec YAny)) whole W i L).
Qed.
Print Assumptions C41_errors.

Example C41_errors_case :
  s_parse_der (sparser_of (YVec YAny)) (from_slice [48; 4; 5; 0; 4; 9]) = SErr (mk_input [4; 9] 4 6) (EIncomplete 9).
Proof. vm_compute. reflexivity. Qed.

(** ** Where spans are lost

    [from_ber] works on slices: the elements of a vector of [Any] have spans counted from their own first octet, so
    that two of them are said to be at the same place. *)
Theorem C41_from_ber_refuted :
  exists d rem a b, s_vec_any_from_ber d = Ok (rem, [a; b]) /\ sa_data a = mk_input [7] 2 3 /\ sa_data b = mk_input [9] 2 3
    /\ ~ located d (sa_data a) /\ ~ located d (sa_data b).
Proof.
  exists [48; 6; 2; 1; 7; 2; 1; 9]. do 3 eexists. split; [vm_compute; reflexivity|]. split; [reflexivity|]. split; [reflexivity|].
  split; intros (pre & post & E & S & _); cbn [sa_data in_data in_start] in *;
    (destruct pre as [|x [|y [|z pre]]]; cbn in S; try (unfold blen in S; cbn in S; lia); cbn in E; congruence).
Qed.
Print Assumptions C41_from_ber_refuted.
