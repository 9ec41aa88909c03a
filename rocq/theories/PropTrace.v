(** C101: logging changes nothing. *)
From Verif Require Import Base MHeader MEncode MBer MInt MCont MColl MSpan SSpan PSpan PropSpan MTrace.

(** ** Results with and without logging *)

Definition agrees {A} (P : A -> Prop) (m : lres A) (r : sres A) : Prop := snd m = r /\ forall a, r = SOk a -> P a.

Lemma agrees_weaken {A} (P Q : A -> Prop) m r : (forall a, P a -> Q a) -> agrees P m r -> agrees Q m r.
Proof. intros H [E K]. split; auto. Qed.
Lemma agrees_silent {A} (P : A -> Prop) (r : sres A) : (forall a, r = SOk a -> P a) -> agrees P (silent r) r.
Proof. intros H. split; [reflexivity | exact H]. Qed.
Lemma agrees_ok {A} (P : A -> Prop) (a : A) : P a -> agrees P (silent (SOk a)) (SOk a).
Proof. intros H. apply agrees_silent. intros b E. injection E as <-. exact H. Qed.
Lemma agrees_err {A} (P : A -> Prop) i e : agrees P (silent (SErr i e)) (SErr i e).
Proof. apply agrees_silent. discriminate. Qed.
Lemma agrees_sim {A B} whole (f : A -> B) (P : A -> Prop) (r : sres A) (r' : res B) : sim whole f P r r' -> agrees P (silent r) r.
Proof. intros S. apply agrees_silent. intros a ->. cbn in S. destruct r'; intuition. Qed.
Lemma agrees_bind {A B} (P : A -> Prop) (Q : B -> Prop) (m : lres A) r (f : A -> lres B) g :
  agrees P m r -> (forall a, P a -> agrees Q (f a) (g a)) -> agrees Q (lbind m f) (sbind r g).
Proof.
  intros [E K] H. unfold lbind. rewrite E. destruct r as [a| | |]; cbn; try (split; [reflexivity | discriminate]).
  destruct (H a (K a eq_refl)) as [E2 K2]. split; [exact E2 | exact K2].
Qed.
Lemma agrees_at {A B} (Q : B -> Prop) i (r : res A) (f : A -> lres B) g :
  (forall a, r = Ok a -> agrees Q (f a) (g a)) -> agrees Q (lbind (silent (at_input i r)) f) (sbind (at_input i r) g).
Proof.
  intros H. destruct r as [a| | |]; cbn; try (split; [reflexivity | discriminate]).
  destruct (H a eq_refl) as [E K]. split; [exact E | exact K].
Qed.
(** The wrapper returns the result of the function, unless its remainder starts too early. *)
Lemma agrees_trace {T} c s (f : input -> lres (input * T)) i (P : input * T -> Prop) r :
  agrees P (f i) r -> (forall q, P q -> in_start i <= in_start (fst q)) -> agrees P (trace_input c s f i) r.
Proof.
  intros [E K] H. unfold trace_input. destruct (debugging c); [|split; assumption]. cbv zeta. rewrite E.
  destruct r as [[rem x]| | |]; split; try assumption; try reflexivity.
  pose proof (H _ (K _ eq_refl)) as S. cbn [fst] in S. destruct (N.ltb_spec (in_start rem) (in_start i)); [lia|].
  rewrite andb_false_r. reflexivity.
Qed.

Lemma snd_bind {A B} (m : lres A) (f : A -> lres B) : snd (lbind m f) = sbind (snd m) (fun a => snd (f a)).
Proof. unfold lbind. destruct (snd m); reflexivity. Qed.

Section Logging.
  Context (c : config) (whole : bytes) (W : small whole).

  Lemma header_agrees i : located whole i ->
    agrees (fun p => header_layout whole i (snd p) (fst p) /\ suffix whole i (fst p)) (t_header c i) (s_parse_header i).
  Proof. intros L. apply agrees_trace; [eapply agrees_sim, parse_header_sim; assumption|]. intros q [_ S]. apply S. Qed.
  Lemma header_der_agrees i : located whole i ->
    agrees (fun p => header_layout whole i (snd p) (fst p) /\ suffix whole i (fst p)) (t_header_der c i) (s_parse_header_der i).
  Proof. intros L. apply agrees_trace; [eapply agrees_sim, parse_header_der_sim; assumption|]. intros q [_ S]. apply S. Qed.

  Lemma skip_loop_agrees skip skip' :
    (forall h i, located whole i -> agrees (fun p => suffix whole i (fst p)) (skip h i) (skip' h i)) ->
    forall fuel i, located whole i -> agrees (fun p => suffix whole i (fst p)) (t_skip_loop c skip fuel i) (s_skip_loop skip' fuel i).
  Proof.
    intros K. induction fuel as [|fuel IH]; intros i L; [apply agrees_err|]. cbn [t_skip_loop s_skip_loop].
    eapply agrees_bind; [apply header_agrees; exact L|]. intros [i2 h2] [_ S2]. cbn [fst] in S2.
    eapply agrees_bind; [apply K; apply S2|]. intros [i3 eoc] S3. cbn [fst] in S3.
    pose proof (suffix_trans _ _ _ _ S2 S3) as S4. destruct eoc; [apply agrees_ok; exact S4|].
    eapply agrees_weaken; [|apply IH; apply S4]. intros a H. eapply suffix_trans; eassumption.
  Qed.
  Lemma skip_content_agrees : forall d h i, located whole i ->
    agrees (fun p => suffix whole i (fst p)) (t_skip_content c d h i) (s_skip_content d h i).
  Proof.
    induction d as [|d IH]; intros h i L; [apply agrees_err|]. cbn [t_skip_content s_skip_content].
    destruct (h_length (sh_fields h)) as [l|].
    - destruct ((l =? 0) && _); [apply agrees_ok, suffix_refl; exact L|].
      eapply agrees_bind; [eapply agrees_sim, take_sim; eassumption|]. intros [r x] (S & _). apply agrees_ok. exact S.
    - apply agrees_at. intros _ _. apply skip_loop_agrees; auto.
  Qed.
  Lemma object_content_agrees h i d : located whole i ->
    agrees (content_at whole (sh_fields h) i) (t_ber_object_content c h i d) (s_ber_object_content h i d).
  Proof.
    intros L. destruct (agrees_sim _ _ _ _ _ (ber_object_content_sim whole h i d W L)) as [_ K]. split; [|exact K].
    unfold t_ber_object_content, s_ber_object_content. rewrite snd_bind. rewrite (proj1 (skip_content_agrees d h i L)).
    destruct (s_skip_content d h i) as [[rem e]| | |]; reflexivity.
  Qed.

  Lemma ber_any_agrees i : located whole i -> agrees (any_at whole i) (t_parse_ber_any c i) (s_parse_ber_any i).
  Proof.
    intros L. apply agrees_trace; [|intros q [_ S]; apply S]. destruct (agrees_sim _ _ _ _ _ (parse_ber_any_sim whole i W L)) as [_ K].
    split; [|exact K]. unfold s_parse_ber_any. eapply (agrees_bind _ (fun _ => True)); [apply header_agrees; exact L|]. intros [r h] [_ S].
    eapply agrees_bind; [apply object_content_agrees; apply S|]. intros [r2 d] _. apply agrees_ok. exact I.
  Qed.
  Lemma der_any_agrees i : located whole i -> agrees (any_at whole i) (t_parse_der_any c i) (s_parse_der_any i).
  Proof.
    intros L. apply agrees_trace; [|intros q [_ S]; apply S]. destruct (agrees_sim _ _ _ _ _ (parse_der_any_sim whole i W L)) as [_ K].
    split; [|exact K]. unfold s_parse_der_any. eapply (agrees_bind _ (fun _ => True)); [apply header_der_agrees; exact L|]. intros [r h] [_ S].
    apply agrees_at. intros _ _. eapply agrees_bind; [eapply agrees_sim, der_get_content_sim; [exact W | apply S]|]. intros [r2 d] _. apply agrees_ok. exact I.
  Qed.

  (** A type whose content parsers give the same with logging, and return a remainder that does not start before the
      content. *)
  Definition unchanged {T} (tp : tparser T) (sp : sparser T) : Prop :=
    (forall t, tp_accept tp t = sp_accept sp t)
    /\ forall h i, header_located whole h -> located whole i ->
       agrees (fun q => suffix whole i (fst q)) (tp_ber tp h i) (sp_ber sp h i)
       /\ agrees (fun q => suffix whole i (fst q)) (tp_der tp h i) (sp_der sp h i).

  Section Typed.
    Context {T : Type} (tp : tparser T) (sp : sparser T) (U : unchanged tp sp).

    Lemma parse_ber_agrees i : located whole i -> agrees (fun q => suffix whole i (fst q)) (t_parse_ber c tp i) (s_parse_ber sp i).
    Proof.
      intros L. destruct U as [A C]. apply agrees_trace; [|intros q S; apply S]. unfold s_parse_ber.
      eapply agrees_bind; [apply header_agrees; exact L|]. intros [r h] [H S]. cbn [fst snd] in *. rewrite A.
      destruct (sp_accept sp _); [|apply agrees_err]. eapply agrees_bind; [apply object_content_agrees; apply S|]. intros [r2 d] D.
      eapply (agrees_bind (fun q => suffix whole d (fst q))).
      - apply agrees_trace; [|intros q Q; apply Q]. apply C; [eapply layout_header; exact H | apply D].
      - intros [? x] _. apply agrees_ok. cbn [fst]. eapply suffix_trans; [exact S | apply D].
    Qed.
    Lemma parse_der_agrees i : located whole i -> agrees (fun q => suffix whole i (fst q)) (t_parse_der c tp i) (s_parse_der sp i).
    Proof.
      intros L. destruct U as [A C]. apply agrees_trace; [|intros q S; apply S]. unfold s_parse_der.
      eapply agrees_bind; [apply header_der_agrees; exact L|]. intros [r h] [H S]. cbn [fst snd] in *.
      destruct (h_length (sh_fields h)) as [l|]; [|apply agrees_err]. rewrite A.
      destruct (sp_accept sp _); [|apply agrees_err]. eapply agrees_bind; [eapply agrees_sim, take_sim; [exact W | apply S]|]. intros [r2 d] D.
      eapply (agrees_bind (fun q => suffix whole d (fst q))).
      - apply agrees_trace; [|intros q Q; apply Q]. apply C; [eapply layout_header; exact H | apply D].
      - intros [? x] _. apply agrees_ok. cbn [fst]. eapply suffix_trans; [exact S | apply D].
    Qed.
    Lemma parse_ber_optional_agrees i : located whole i ->
      agrees (fun q => suffix whole i (fst q)) (t_parse_ber_optional c tp i) (s_parse_ber_optional sp i).
    Proof.
      intros L. destruct U as [A C]. unfold t_parse_ber_optional, s_parse_ber_optional.
      destruct (blen (in_data i) =? 0); [apply agrees_ok, suffix_refl; exact L|].
      eapply agrees_bind; [apply header_agrees; exact L|]. intros [r h] [H S]. cbn [fst snd] in *. rewrite A.
      destruct (sp_accept sp _); [|apply agrees_ok, suffix_refl; exact L]. eapply agrees_bind; [apply object_content_agrees; apply S|]. intros [r2 d] D.
      eapply agrees_bind; [apply C; [eapply layout_header; exact H | apply D]|].
      intros [? x] _. apply agrees_ok. cbn [fst]. eapply suffix_trans; [exact S | apply D].
    Qed.
    Lemma parse_der_optional_agrees i : located whole i ->
      agrees (fun q => suffix whole i (fst q)) (t_parse_der_optional c tp i) (s_parse_der_optional sp i).
    Proof.
      intros L. destruct U as [A C]. unfold t_parse_der_optional, s_parse_der_optional.
      destruct (blen (in_data i) =? 0); [apply agrees_ok, suffix_refl; exact L|].
      eapply agrees_bind; [apply header_der_agrees; exact L|]. intros [r h] [H S]. cbn [fst snd] in *. rewrite A.
      destruct (sp_accept sp _); [|apply agrees_ok, suffix_refl; exact L]. destruct (h_length (sh_fields h)) as [l|]; [|apply agrees_err].
      eapply agrees_bind; [eapply agrees_sim, take_sim; [exact W | apply S]|]. intros [r2 d] D.
      eapply agrees_bind; [apply C; [eapply layout_header; exact H | apply D]|].
      intros [? x] _. apply agrees_ok. cbn [fst]. eapply suffix_trans; [exact S | apply D].
    Qed.
    Lemma parse_ber_as_input_agrees i : located whole i ->
      agrees (fun q => suffix whole i (fst q)) (t_parse_ber_as_input c tp i) (s_parse_ber_as_input sp i).
    Proof.
      intros L. destruct U as [A C]. apply agrees_trace; [|intros q S; apply S]. unfold s_parse_ber_as_input.
      eapply agrees_bind; [apply header_agrees; exact L|]. intros [r h] [H S]. cbn [fst snd] in *. rewrite A.
      destruct (sp_accept sp _); [|apply agrees_err]. eapply agrees_bind; [apply object_content_agrees; apply S|]. intros [r2 d] D.
      apply agrees_ok. cbn [fst]. eapply suffix_trans; [exact S | apply D].
    Qed.
    Lemma parse_der_as_input_agrees i : located whole i ->
      agrees (fun q => suffix whole i (fst q)) (t_parse_der_as_input c tp i) (s_parse_der_as_input sp i).
    Proof.
      intros L. destruct U as [A C]. apply agrees_trace; [|intros q S; apply S]. unfold s_parse_der_as_input.
      eapply agrees_bind; [apply header_der_agrees; exact L|]. intros [r h] [H S]. cbn [fst snd] in *. rewrite A.
      destruct (sp_accept sp _); [|apply agrees_err]. eapply agrees_bind; [eapply agrees_sim, der_get_content_sim; [exact W | apply S]|]. intros [r2 d] D.
      apply agrees_ok. cbn [fst]. eapply suffix_trans; [exact S | apply D].
    Qed.
  End Typed.

  (** *** Types *)

  Lemma quiet_unchanged {T} (sp : sparser T) :
    (forall h i rem x, header_located whole h -> located whole i -> sp_ber sp h i = SOk (rem, x) \/ sp_der sp h i = SOk (rem, x) -> suffix whole i rem) ->
    unchanged (quiet sp) sp.
  Proof.
    intros H. split; [reflexivity|]. intros h i Hh L. split; apply agrees_silent; intros [rem x] E; cbn [fst]; eapply H; eauto.
  Qed.
  Lemma take_suffix n i r d : located whole i -> s_take n i = SOk (r, d) -> suffix whole i r /\ located whole d.
  Proof. intros L E. destruct (sim_ok _ _ _ _ _ _ (take_sim whole i n W L) E) as [_ (S & D & _)]. split; assumption. Qed.
  Lemma any_unchanged : unchanged (quiet s_any_parser) s_any_parser.
  Proof.
    apply quiet_unchanged. intros h i rem x _ L [E|E]; cbn [sp_ber sp_der s_any_parser] in E.
    - unfold s_any_ber_content in E. destruct (h_length (sh_fields h)); destruct (s_take _ i) as [[r d]| | |] eqn:T; try discriminate;
        injection E as <- _; eapply take_suffix; eassumption.
    - unfold s_any_der_content, s_der_get_content in E. destruct (h_length (sh_fields h)); [|discriminate].
      destruct (s_take _ i) as [[r d]| | |] eqn:T; try discriminate; injection E as <- _; eapply take_suffix; eassumption.
  Qed.
  Lemma plain_unchanged {T} (p : parser T) : unchanged (quiet (s_plain_parser p)) (s_plain_parser p).
  Proof.
    apply quiet_unchanged. intros h i rem x _ L E. cbn [sp_ber sp_der s_plain_parser] in E. unfold s_plain_content in E.
    assert (rem = i) as ->.
    { destruct E as [E|E]; [destruct (ps_ber_content p (sh_fields h) (in_data i)) as [[? ?]| | |] | destruct (ps_der_content p (sh_fields h) (in_data i)) as [[? ?]| | |]];
        cbn in E; congruence. }
    apply suffix_refl. exact L.
  Qed.
  Definition s_integer_parser : sparser bytes :=
    mk_sparser (is_tag TagInteger) s_integer_content
      (fun h i => let+ _ := at_input i (check_der_int_input (in_data i)) in s_integer_content h i).
  Lemma integer_unchanged : unchanged (t_integer_parser c) s_integer_parser.
  Proof.
    assert (B: forall h i, located whole i -> agrees (fun q => suffix whole i (fst q)) (t_integer_ber c h i) (s_integer_content h i)).
    { intros h i L. apply agrees_trace; [|intros q S; apply S]. apply agrees_silent. intros [rem x] E. unfold s_integer_content in E.
      destruct (assert_primitive (sh_fields h)); try discriminate. cbn [at_input sbind] in E. unfold s_der_get_content in E.
      destruct (h_length (sh_fields h)); [|discriminate]. destruct (s_take _ i) as [[r d]| | |] eqn:T; try discriminate. cbn [sbind] in E.
      destruct (_ =? 0); [discriminate|]. injection E as <- _. eapply take_suffix; eassumption. }
    split; [reflexivity|]. intros h i Hh L. split; [apply B; exact L|]. apply agrees_at. intros _ _. apply B. exact L.
  Qed.

  Lemma collect_agrees {T} p p' (f : sany -> lres T) g :
    (forall i, located whole i -> agrees (any_item whole i) (p i) (p' i)) ->
    (forall a, good_any whole a -> agrees (fun _ => True) (f a) (g a)) ->
    forall fuel i, located whole i -> agrees (fun q => suffix whole i (fst q)) (t_collect_loop p f fuel i) (s_collect_loop p' g fuel i).
  Proof.
    intros Hp Hg. induction fuel as [|fuel IH]; intros i L; [apply agrees_err|]. cbn [t_collect_loop s_collect_loop].
    destruct (blen (in_data i) =? 0); [apply agrees_ok, suffix_refl; exact L|].
    eapply (agrees_bind (any_item whole i)).
    - destruct (Hp i L) as [E K]. rewrite E. split; [reflexivity|]. cbn [snd]. intros a Ea. apply K. destruct (p' i); cbn in Ea; congruence.
    - intros [r a] [S G]. cbn [fst snd] in *. eapply agrees_bind; [apply Hg; exact G|]. intros x _.
      eapply agrees_bind; [apply IH; apply S|]. intros [r2 xs] S2. apply agrees_ok. cbn [fst] in *. eapply suffix_trans; eassumption.
  Qed.
  Lemma any_items_ber i : located whole i -> agrees (any_item whole i) (t_parse_ber c (quiet s_any_parser) i) (s_parse_ber s_any_parser i).
  Proof.
    intros L. split; [exact (proj1 (parse_ber_agrees _ _ any_unchanged i L))|]. intros a E. eapply sim_prop; [apply any_parse_ber_sim; [exact W | exact L] | exact E].
  Qed.
  Lemma any_items_der i : located whole i -> agrees (any_item whole i) (t_parse_der c (quiet s_any_parser) i) (s_parse_der s_any_parser i).
  Proof.
    intros L. split; [exact (proj1 (parse_der_agrees _ _ any_unchanged i L))|]. intros a E. eapply sim_prop; [apply any_parse_der_sim; [exact W | exact L] | exact E].
  Qed.
  Lemma vec_unchanged {T} (tp : tparser T) sp : unchanged tp sp -> unchanged (t_vec_parser c tp) (s_vec_parser sp).
  Proof.
    intros [A C]. split; [reflexivity|]. intros h i Hh L.
    cbn [tp_ber tp_der t_vec_parser sp_ber sp_der s_vec_parser]. unfold t_vec_content, s_vec_ber, s_vec_der.
    split; (apply agrees_at; intros _ _; destruct (blen (in_data i) =? 0); [apply agrees_ok, suffix_refl; exact L|]);
      (apply collect_agrees; [first [exact any_items_ber | exact any_items_der] | | exact L]); intros a [Ga Gd]; unfold t_convert_item, s_convert_item;
      rewrite A; (destruct (sp_accept sp _); [|apply agrees_err]); (eapply agrees_bind; [apply (C _ _ Ga Gd)|]); intros [? x] _; apply agrees_ok; exact I.
  Qed.
  Lemma explicit_unchanged {T} (tp : tparser T) sp cl t : unchanged tp sp -> unchanged (t_explicit_parser c cl t tp) (s_explicit_parser cl t sp).
  Proof.
    intros U. split; [reflexivity|]. intros h i Hh L.
    cbn [tp_ber tp_der t_explicit_parser sp_ber sp_der s_explicit_parser]. unfold t_explicit_content, s_explicit_content.
    split; (apply agrees_at; intros _ _; apply agrees_at; intros _ _; apply agrees_at; intros _ _);
      [apply parse_ber_agrees | apply parse_der_agrees]; assumption.
  Qed.
End Logging.

(** The types of C41, and [Integer], which logs. *)
Inductive tty : Type :=
| TAny
| TPlain (T : Type) (c : codec T)
| TInteger
| TVec (t : tty)
| TExplicit (c : class) (n : N) (t : tty).
Fixpoint tval (t : tty) : Type :=
  match t with TAny => sany | TPlain T _ => T | TInteger => bytes | TVec t => list (tval t) | TExplicit _ _ t => tval t end.
Fixpoint tparser_of (c : config) (t : tty) : tparser (tval t) :=
  match t with
  | TAny => quiet s_any_parser
  | TPlain _ p => quiet (s_plain_parser (codec_parser p))
  | TInteger => t_integer_parser c
  | TVec t => t_vec_parser c (tparser_of c t)
  | TExplicit cl n t => t_explicit_parser c cl n (tparser_of c t)
  end.
Fixpoint untraced (t : tty) : sparser (tval t) :=
  match t with
  | TAny => s_any_parser
  | TPlain _ p => s_plain_parser (codec_parser p)
  | TInteger => s_integer_parser
  | TVec t => s_vec_parser (untraced t)
  | TExplicit cl n t => s_explicit_parser cl n (untraced t)
  end.
Lemma tty_unchanged c whole (W : small whole) t : unchanged whole (tparser_of c t) (untraced t).
Proof.
  induction t as [|T p| |t IH|cl n t IH]; cbn [tparser_of untraced tval].
  - apply any_unchanged. exact W.
  - apply plain_unchanged.
  - apply integer_unchanged. exact W.
  - apply vec_unchanged; assumption.
  - apply explicit_unchanged; assumption.
Qed.

(** [Option<T>]. *)
Definition s_option_parse {T} (header : input -> sres (input * sheader)) (accept : N -> bool) (content : sheader -> input -> sres (input * T)) (i : input)
  : sres (input * option T) :=
  if blen (in_data i) =? 0 then SOk (i, None)
  else
    let+ (rem, h) := header i in
    if accept (h_tag (sh_fields h)) then
      let+ (rem, data) := s_ber_object_content h rem MAX_RECURSION in
      let+ (_, x) :=
        (if accept (h_tag (sh_fields h)) then
           let+ (rem, data) := s_ber_object_content h data MAX_RECURSION in
           let+ (_, x) := content h data in
           SOk (rem, Some x)
         else SOk (data, None)) in
      SOk (rem, x)
    else SOk (i, None).
Lemma option_agrees c whole (W : small whole) {T} s header header' accept (content : sheader -> input -> lres (input * T)) content' :
  (forall i, located whole i -> agrees (fun p => header_layout whole i (snd p) (fst p) /\ suffix whole i (fst p)) (header i) (header' i)) ->
  (forall h i, header_located whole h -> located whole i -> agrees (fun q => suffix whole i (fst q)) (content h i) (content' h i)) ->
  forall i, located whole i ->
  agrees (fun q => suffix whole i (fst q)) (t_option_parse c s header accept content i) (s_option_parse header' accept content' i).
Proof.
  intros HH HC i L. apply agrees_trace; [|intros q S; apply S]. unfold s_option_parse.
  destruct (blen (in_data i) =? 0); [apply agrees_ok, suffix_refl; exact L|].
  eapply agrees_bind; [apply HH; exact L|]. intros [r h] [H S]. cbn [fst snd] in *.
  destruct (accept _) eqn:A; [|apply agrees_ok, suffix_refl; exact L].
  eapply agrees_bind; [apply object_content_agrees; [exact W | apply S]|]. intros [r2 d] D.
  eapply (agrees_bind (fun _ => True)).
  - unfold t_option_content. rewrite A. eapply agrees_bind; [apply object_content_agrees; [exact W | apply D]|]. intros [r3 d3] D3.
    eapply agrees_bind; [apply HC; [eapply layout_header; exact H | apply D3]|]. intros [? x] _. apply agrees_ok. exact I.
  - intros [? x] _. apply agrees_ok. cbn [fst]. eapply suffix_trans; [exact S | apply D].
Qed.

Lemma results (c' : config) (t : tty) (whole : bytes) (i : input) : small whole -> located whole i ->
  let c := c' in
    snd (t_header c i) = s_parse_header i /\ snd (t_header_der c i) = s_parse_header_der i
    /\ snd (t_parse_ber_any c i) = s_parse_ber_any i /\ snd (t_parse_der_any c i) = s_parse_der_any i
    /\ snd (t_parse_ber c (tparser_of c t) i) = s_parse_ber (untraced t) i /\ snd (t_parse_der c (tparser_of c t) i) = s_parse_der (untraced t) i
    /\ snd (t_parse_ber_optional c (tparser_of c t) i) = s_parse_ber_optional (untraced t) i
    /\ snd (t_parse_der_optional c (tparser_of c t) i) = s_parse_der_optional (untraced t) i
    /\ snd (t_parse_ber_as_input c (tparser_of c t) i) = s_parse_ber_as_input (untraced t) i
    /\ snd (t_parse_der_as_input c (tparser_of c t) i) = s_parse_der_as_input (untraced t) i
    /\ snd (t_option_parse_ber c (tparser_of c t) i) = s_option_parse s_parse_header (sp_accept (untraced t)) (sp_ber (untraced t)) i
    /\ snd (t_option_parse_der c (tparser_of c t) i) = s_option_parse s_parse_header_der (sp_accept (untraced t)) (sp_der (untraced t)) i.
Proof.
  intros W L c. subst c. pose proof (tty_unchanged c' whole W t) as U.
    assert (A: forall n, tp_accept (tparser_of c' t) n = sp_accept (untraced t) n) by apply U.
    split; [apply (header_agrees c' whole W i L)|]. split; [apply (header_der_agrees c' whole W i L)|].
    split; [apply (ber_any_agrees c' whole W i L)|]. split; [apply (der_any_agrees c' whole W i L)|].
    split; [apply (parse_ber_agrees c' whole W _ _ U i L)|]. split; [apply (parse_der_agrees c' whole W _ _ U i L)|].
    split; [apply (parse_ber_optional_agrees c' whole W _ _ U i L)|]. split; [apply (parse_der_optional_agrees c' whole W _ _ U i L)|].
    split; [apply (parse_ber_as_input_agrees c' whole W _ _ U i L)|]. split; [apply (parse_der_as_input_agrees c' whole W _ _ U i L)|].
    assert (O: forall s hd hd' (ct : sheader -> input -> lres (input * tval t)) ct', 
      (forall i, located whole i -> agrees (fun p => header_layout whole i (snd p) (fst p) /\ suffix whole i (fst p)) (hd i) (hd' i)) ->
      (forall h i, header_located whole h -> located whole i -> agrees (fun q => suffix whole i (fst q)) (ct h i) (ct' h i)) ->
      snd (t_option_parse c' s hd (tp_accept (tparser_of c' t)) ct i) = s_option_parse hd' (sp_accept (untraced t)) ct' i).
    { intros s hd hd' ct ct' HH HC. rewrite (proj1 (option_agrees c' whole W s hd hd' _ ct ct' HH HC i L)).
      unfold s_option_parse. destruct (blen (in_data i) =? 0); [reflexivity|]. destruct (hd' i) as [[r h]| | |]; cbn [sbind]; try reflexivity. rewrite !A. reflexivity. }
    split; apply O.
    - intros j Lj. apply header_agrees; assumption.
    - intros h j Hh Lj. apply U; assumption.
    - intros j Lj. apply header_der_agrees; assumption.
    - intros h j Hh Lj. apply U; assumption. 
Qed.

(** ** The same results

    Both features off. *)
Definition off (c : config) : config := mk_config false false (cf_asserts c).

Theorem C101_same (c : config) (t : tty) (whole : bytes) (i : input) : blen whole < 2 ^ 64 -> located whole i ->
  let p := tparser_of c t in let q := tparser_of (off c) t in
  snd (t_header c i) = snd (t_header (off c) i) /\ snd (t_header_der c i) = snd (t_header_der (off c) i)
  /\ snd (t_parse_ber_any c i) = snd (t_parse_ber_any (off c) i) /\ snd (t_parse_der_any c i) = snd (t_parse_der_any (off c) i)
  /\ snd (t_parse_ber c p i) = snd (t_parse_ber (off c) q i) /\ snd (t_parse_der c p i) = snd (t_parse_der (off c) q i)
  /\ snd (t_parse_ber_optional c p i) = snd (t_parse_ber_optional (off c) q i)
  /\ snd (t_parse_der_optional c p i) = snd (t_parse_der_optional (off c) q i)
  /\ snd (t_parse_ber_as_input c p i) = snd (t_parse_ber_as_input (off c) q i)
  /\ snd (t_parse_der_as_input c p i) = snd (t_parse_der_as_input (off c) q i)
  /\ snd (t_option_parse_ber c p i) = snd (t_option_parse_ber (off c) q i)
  /\ snd (t_option_parse_der c p i) = snd (t_option_parse_der (off c) q i).
Proof.
  intros W L p q. subst p q.
  pose proof (results c t whole i W L) as X. pose proof (results (off c) t whole i W L) as Y. cbv zeta in X, Y.
  destruct X as (A1 & A2 & A3 & A4 & A5 & A6 & A7 & A8 & A9 & A10 & A11 & A12).
  destruct Y as (B1 & B2 & B3 & B4 & B5 & B6 & B7 & B8 & B9 & B10 & B11 & B12).
  split; [exact (eq_trans A1 (eq_sym B1))|].
  split; [exact (eq_trans A2 (eq_sym B2))|].
  split; [exact (eq_trans A3 (eq_sym B3))|].
  split; [exact (eq_trans A4 (eq_sym B4))|].
  split; [exact (eq_trans A5 (eq_sym B5))|].
  split; [exact (eq_trans A6 (eq_sym B6))|].
  split; [exact (eq_trans A7 (eq_sym B7))|].
  split; [exact (eq_trans A8 (eq_sym B8))|].
  split; [exact (eq_trans A9 (eq_sym B9))|].
  split; [exact (eq_trans A10 (eq_sym B10))|].
  split; [exact (eq_trans A11 (eq_sym B11))|].
  exact (eq_trans A12 (eq_sym B12)).
Qed.
Print Assumptions C101_same.

(** With the features off nothing is logged, and the results are those of the parsers with spans (C41). *)
(** Nothing is written with the features off; nothing on success without [trace]. *)
Definition writes_nothing (c : config) {A} (m : lres A) : Prop :=
  debugging c = false \/ cf_trace c = false /\ (exists a, snd m = SOk a) -> fst m = [].
Lemma nothing_silent c {A} (r : sres A) : writes_nothing c (silent r).
Proof. intros _. reflexivity. Qed.
Lemma nothing_bind c {A B} (m : lres A) (f : A -> lres B) : writes_nothing c m -> (forall a, writes_nothing c (f a)) -> writes_nothing c (lbind m f).
Proof.
  unfold writes_nothing, lbind. intros E H D. destruct (snd m) as [a| | |] eqn:S; cbn [fst snd] in *.
  - rewrite E, (H a); [reflexivity | tauto|]. destruct D as [D|[D _]]; [tauto|]. right. split; [exact D | exists a; reflexivity].
  - apply E. destruct D as [D|[D [? Z]]]; [tauto | discriminate].
  - apply E. destruct D as [D|[D [? Z]]]; [tauto | discriminate].
  - apply E. destruct D as [D|[D [? Z]]]; [tauto | discriminate].
Qed.
Lemma nothing_trace {T} c s (f : input -> lres (input * T)) i : writes_nothing c (f i) -> writes_nothing c (trace_input c s f i).
Proof.
  unfold writes_nothing, trace_input, tracing. intros H D. destruct (debugging c) eqn:G; [|tauto]. cbv zeta in *. destruct D as [D|[D [a Z]]]; [discriminate|].
  rewrite D in *. destruct (snd (f i)) as [[rem x]| | |]; try discriminate. destruct (cf_asserts c && _); [discriminate|]. cbn. rewrite app_nil_r. apply H. right. split; [reflexivity | eauto].
Qed.
Lemma nothing_close c {A} (m : lres A) i : writes_nothing c m -> writes_nothing c (fst m, s_close i (snd m)).
Proof.
  unfold writes_nothing. cbn [fst snd]. intros H D. apply H. destruct D as [D|[D [a Z]]]; [tauto|]. right. split; [exact D|].
  exists a. destruct (snd m); cbn in Z; congruence.
Qed.

Section Off.
  Context (c : config).
  Lemma nothing_skip : forall d h i, writes_nothing c (t_skip_content c d h i).
  Proof.
    induction d as [|d IH]; intros h i; [apply nothing_silent|]. cbn [t_skip_content]. destruct (h_length (sh_fields h)).
    - destruct (_ && _); [apply nothing_silent|]. apply nothing_bind; [apply nothing_silent|]. intros [? ?]. apply nothing_silent.
    - apply nothing_bind; [apply nothing_silent|]. intros _. generalize (S (length (in_data i))) as fuel. intros fuel. revert i.
      induction fuel as [|fuel IHf]; intros i; [apply nothing_silent|]. cbn [t_skip_loop]. apply nothing_bind; [apply nothing_trace, nothing_silent|].
      intros [i2 h2]. apply nothing_bind; [apply IH|]. intros [i3 eoc]. destruct eoc; [apply nothing_silent | apply IHf].
  Qed.
  Lemma nothing_content h i d : writes_nothing c (t_ber_object_content c h i d).
  Proof. apply nothing_bind; [apply nothing_skip|]. intros [? ?]. apply nothing_silent. Qed.
  Definition nothing_parser {T} (p : tparser T) : Prop := forall h i, writes_nothing c (tp_ber p h i) /\ writes_nothing c (tp_der p h i).
  Lemma nothing_parse_ber {T} (p : tparser T) i : nothing_parser p -> writes_nothing c (t_parse_ber c p i).
  Proof.
    intros H. apply nothing_trace. apply nothing_bind; [apply nothing_trace, nothing_silent|]. intros [r h].
    destruct (tp_accept p _); [|apply nothing_silent]. apply nothing_bind; [apply nothing_content|]. intros [r2 d].
    apply nothing_bind; [apply nothing_trace, H|]. intros [? ?]. apply nothing_silent.
  Qed.
  Lemma nothing_parse_der {T} (p : tparser T) i : nothing_parser p -> writes_nothing c (t_parse_der c p i).
  Proof.
    intros H. apply nothing_trace. apply nothing_bind; [apply nothing_trace, nothing_silent|]. intros [r h].
    destruct (h_length (sh_fields h)); [|apply nothing_silent]. destruct (tp_accept p _); [|apply nothing_silent]. apply nothing_bind; [apply nothing_silent|]. intros [r2 d].
    apply nothing_bind; [apply nothing_trace, H|]. intros [? ?]. apply nothing_silent.
  Qed.
  Lemma nothing_quiet {T} (p : sparser T) : nothing_parser (quiet p).
  Proof. intros h i. split; apply nothing_silent. Qed.
  Lemma nothing_type t : nothing_parser (tparser_of c t).
  Proof.
    induction t as [|T p| |t IH|cl n t IH]; cbn [tparser_of tval]; try apply nothing_quiet; intros h i.
    - split; cbn [t_integer_parser tp_ber tp_der]; [apply nothing_trace, nothing_silent|]. apply nothing_bind; [apply nothing_silent|]. intros _.
      apply nothing_trace, nothing_silent.
    - split; cbn [t_vec_parser tp_ber tp_der]; unfold t_vec_content; (apply nothing_bind; [apply nothing_silent|]); intros _; (destruct (_ =? 0); [apply nothing_silent|]);
        generalize (S (length (in_data i))) as fuel; intros fuel; revert i; (induction fuel as [|fuel IHf]; intros i; [apply nothing_silent|]); cbn [t_collect_loop];
        (destruct (_ =? 0); [apply nothing_silent|]); (apply nothing_bind; [apply nothing_close; first [apply nothing_parse_ber | apply nothing_parse_der]; apply nothing_quiet|]); intros [r a];
        (apply nothing_bind; [unfold t_convert_item; destruct (tp_accept _ _); [|apply nothing_silent]; apply nothing_bind; [apply IH|]; intros [? ?]; apply nothing_silent|]); intros x;
        (apply nothing_bind; [apply IHf|]); intros [? ?]; apply nothing_silent.
    - split; cbn [t_explicit_parser tp_ber tp_der]; unfold t_explicit_content; do 3 (apply nothing_bind; [apply nothing_silent|]; intros _);
        [apply nothing_parse_ber | apply nothing_parse_der]; exact IH.
  Qed.
End Off.


Theorem C101_off (c : config) (t : tty) (whole : bytes) (i : input) : cf_debug c = false -> cf_trace c = false ->
  blen whole < 2 ^ 64 -> located whole i ->
  t_parse_ber c (tparser_of c t) i = ([], s_parse_ber (untraced t) i)
  /\ t_parse_der c (tparser_of c t) i = ([], s_parse_der (untraced t) i).
Proof.
  intros D1 D2 W L. assert (D: debugging c = false) by (unfold debugging; rewrite D1, D2; reflexivity).
  destruct (results c t whole i W L) as (_ & _ & _ & _ & A & B & _).
  pose proof (nothing_parse_ber c _ i (nothing_type c t) (or_introl D)) as E. pose proof (nothing_parse_der c _ i (nothing_type c t) (or_introl D)) as F.
  split.
  - rewrite <- A, <- E. apply surjective_pairing.
  - rewrite <- B, <- F. apply surjective_pairing.
Qed.
Print Assumptions C101_off.

(** With [debug] alone, lines are written for failures only: an object that is read leaves no trace. *)
Theorem C101_success (c : config) (t : tty) (i : input) : cf_trace c = false ->
  (forall q, snd (t_parse_ber c (tparser_of c t) i) = SOk q -> fst (t_parse_ber c (tparser_of c t) i) = [])
  /\ (forall q, snd (t_parse_der c (tparser_of c t) i) = SOk q -> fst (t_parse_der c (tparser_of c t) i) = []).
Proof.
  intros D. split; intros q E.
  - apply (nothing_parse_ber c _ i (nothing_type c t)). eauto.
  - apply (nothing_parse_der c _ i (nothing_type c t)). eauto.
Qed.
Print Assumptions C101_success.

Definition checked {T} (c : config) (i : input) (r : sres (input * T)) : sres (input * T) :=
  match r with SOk (rem, x) => if debugging c && cf_asserts c && (in_start rem <? in_start i) then SPanic else SOk (rem, x) | r => r end.
Lemma trace_result {T} c s (f : input -> lres (input * T)) i : snd (trace_input c s f i) = checked c i (snd (f i)).
Proof.
  unfold trace_input, checked. destruct (debugging c); cbn [andb].
  - cbv zeta. destruct (snd (f i)) as [[rem x]| | |]; try reflexivity. destruct (cf_asserts c && _); reflexivity.
  - destruct (snd (f i)) as [[rem x]| | |]; reflexivity.
Qed.

(** ** Any content parsers

    The wrapper inside [parse_ber] or [parse_der] checks the remainder returned by the content parser, which is not used.
    If it starts before the content, an accepted object panics. *)
Theorem C101_exact (c : config) {T : Type} (p : sparser T) (whole : bytes) (i : input) : blen whole < 2 ^ 64 -> located whole i ->
  let early_ber := exists r h r2 data back x, s_parse_header i = SOk (r, h) /\ sp_accept p (h_tag (sh_fields h)) = true
      /\ s_ber_object_content h r MAX_RECURSION = SOk (r2, data) /\ sp_ber p h data = SOk (back, x) /\ in_start back < in_start data in
  let early_der := exists r h l r2 data back x, s_parse_header_der i = SOk (r, h) /\ h_length (sh_fields h) = Definite l
      /\ sp_accept p (h_tag (sh_fields h)) = true
      /\ s_take l r = SOk (r2, data) /\ sp_der p h data = SOk (back, x) /\ in_start back < in_start data in
  (debugging c = true /\ cf_asserts c = true /\ early_ber -> snd (t_parse_ber c (quiet p) i) = SPanic)
  /\ (~ (debugging c = true /\ cf_asserts c = true /\ early_ber) -> snd (t_parse_ber c (quiet p) i) = s_parse_ber p i)
  /\ (debugging c = true /\ cf_asserts c = true /\ early_der -> snd (t_parse_der c (quiet p) i) = SPanic)
  /\ (~ (debugging c = true /\ cf_asserts c = true /\ early_der) -> snd (t_parse_der c (quiet p) i) = s_parse_der p i).
Proof.
  intros W L early_ber early_der.
  assert (BER: forall r h r2 data, s_parse_header i = SOk (r, h) -> s_ber_object_content h r MAX_RECURSION = SOk (r2, data) -> in_start i <= in_start r2).
  { intros r h r2 data E1 E2. destruct (sim_prop _ _ _ _ _ _ (parse_header_sim whole i W L) E1) as [_ S]. cbn [fst] in S.
    destruct (sim_prop _ _ _ _ _ _ (ber_object_content_sim whole h r MAX_RECURSION W (proj1 S)) E2) as [S2 _]. cbn [fst] in S2. destruct S as (_ & _ & S), S2 as (_ & _ & S2). lia. }
  assert (DER: forall r h l r2 data, s_parse_header_der i = SOk (r, h) -> s_take l r = SOk (r2, data) -> in_start i <= in_start r2).
  { intros r h l r2 data E1 E2. destruct (sim_prop _ _ _ _ _ _ (parse_header_der_sim whole i W L) E1) as [_ S]. cbn [fst] in S.
    destruct (sim_prop _ _ _ _ _ _ (take_sim whole r l W (proj1 S)) E2) as [S2 _]. cbn [fst] in S2. destruct S as (_ & _ & S), S2 as (_ & _ & S2). lia. }
  assert (HB: snd (t_header c i) = s_parse_header i) by (apply (header_agrees c whole W i L)).
  assert (HD: snd (t_header_der c i) = s_parse_header_der i) by (apply (header_der_agrees c whole W i L)).
  assert (CB: forall r h, s_parse_header i = SOk (r, h) -> snd (t_ber_object_content c h r MAX_RECURSION) = s_ber_object_content h r MAX_RECURSION).
  { intros r h E. destruct (sim_prop _ _ _ _ _ _ (parse_header_sim whole i W L) E) as [_ S]. apply (object_content_agrees c whole W). apply S. }
  unfold t_parse_ber, t_parse_der, s_parse_ber, s_parse_der. rewrite !trace_result, !snd_bind, HB, HD.
  split; [|split; [|split]].
  - intros (D & A & r & h & r2 & data & back & x & E1 & E2 & E3 & E4 & E5). rewrite E1. cbn [sbind quiet tp_accept]. rewrite E2, snd_bind, (CB _ _ E1), E3.
    cbn [sbind]. rewrite snd_bind, trace_result. cbn [quiet tp_ber snd silent]. rewrite E4. unfold checked at 2. rewrite D, A. destruct (N.ltb_spec (in_start back) (in_start data)); [reflexivity | lia].
  - intros N. destruct (s_parse_header i) as [[r h]| | |] eqn:E1; try reflexivity. cbn [sbind quiet tp_accept]. destruct (sp_accept p _) eqn:E2; [|reflexivity].
    rewrite snd_bind, (CB _ _ eq_refl). destruct (s_ber_object_content h r MAX_RECURSION) as [[r2 data]| | |] eqn:E3; try reflexivity.
    cbn [sbind]. rewrite snd_bind, trace_result. cbn [quiet tp_ber snd silent]. destruct (sp_ber p h data) as [[back x]| | |] eqn:E4; try reflexivity.
    unfold checked at 2. destruct (debugging c && cf_asserts c && (in_start back <? in_start data)) eqn:B.
    + exfalso. apply N. apply andb_prop in B as [B B3]. apply andb_prop in B as [B1 B2]. apply N.ltb_lt in B3. split; [exact B1|]. split; [exact B2|].
      exists r, h, r2, data, back, x. repeat split; auto.
    + cbn [sbind silent snd checked]. pose proof (BER _ _ _ _ eq_refl E3). destruct (N.ltb_spec (in_start r2) (in_start i)); [lia|]. rewrite andb_false_r. reflexivity.
  - intros (D & A & r & h & l & r2 & data & back & x & E1 & E2 & E3 & E4 & E5 & E6). rewrite E1. cbn [sbind quiet tp_accept]. rewrite E2, E3, snd_bind. cbn [silent snd]. rewrite E4.
    cbn [sbind]. rewrite snd_bind, trace_result. cbn [quiet tp_der snd silent]. rewrite E5. unfold checked at 2. rewrite D, A. destruct (N.ltb_spec (in_start back) (in_start data)); [reflexivity | lia].
  - intros N. destruct (s_parse_header_der i) as [[r h]| | |] eqn:E1; try reflexivity. cbn [sbind quiet tp_accept]. destruct (h_length (sh_fields h)) as [l|] eqn:E2; [|reflexivity].
    destruct (sp_accept p _) eqn:E3; [|reflexivity].
    rewrite snd_bind. cbn [silent snd]. destruct (s_take l r) as [[r2 data]| | |] eqn:E4; try reflexivity.
    cbn [sbind]. rewrite snd_bind, trace_result. cbn [quiet tp_der snd silent]. destruct (sp_der p h data) as [[back x]| | |] eqn:E5; try reflexivity.
    unfold checked at 2. destruct (debugging c && cf_asserts c && (in_start back <? in_start data)) eqn:B.
    + exfalso. apply N. apply andb_prop in B as [B B3]. apply andb_prop in B as [B1 B2]. apply N.ltb_lt in B3. split; [exact B1|]. split; [exact B2|].
      exists r, h, l, r2, data, back, x. repeat split; auto.
    + cbn [sbind silent snd checked]. pose proof (DER _ _ _ _ _ eq_refl E4). destruct (N.ltb_spec (in_start r2) (in_start i)); [lia|]. rewrite andb_false_r. reflexivity.
Qed.
Print Assumptions C101_exact.

(** A content parser of a user (as of a derived structure whose [parse] function does not return a part of its input):
    06 01 2a is accepted, but panics with feature [debug] in a build with assertions. *)
Definition fresh_parser : sparser N := mk_sparser (fun _ => true) (fun _ i => SOk (from_slice [], blen (in_data i))) (fun _ i => SOk (from_slice [], blen (in_data i))).
Theorem C101_refuted : exists (i : input) (rem : input) (n : N),
  i = from_slice [6; 1; 42]
  /\ (forall trace, snd (t_parse_ber (mk_config true trace true) (quiet fresh_parser) i) = SPanic)
  /\ snd (t_parse_ber (mk_config false false true) (quiet fresh_parser) i) = SOk (rem, n)
  /\ snd (t_parse_ber (mk_config true true false) (quiet fresh_parser) i) = SOk (rem, n).
Proof.
  do 3 eexists. split; [reflexivity|]. split; [intros []; vm_compute; reflexivity|]. split; vm_compute; reflexivity.
Qed.
Print Assumptions C101_refuted.

(** ** Slices

    Types with [from_ber] and [from_der]: those of [TryFrom<Any>] and [CheckDerConstraints], and collections of them. *)
Inductive gty : Type -> Type :=
| GLeaf (T : Type) (tag : N) (p : codec T) : gty T
| GVec {T} (t : gty T) : gty (list T)
| GSetOf {T} (t : gty T) : gty (list T)
| GBTreeSet {T} (cmp : T -> T -> comparison) (t : gty T) : gty (list T)
| GHashSet {T} (same : T -> T -> bool) (t : gty T) : gty (list T).
(** Without logging (MCont, MColl). *)
Fixpoint legacy_of {T} (t : gty T) : legacy T :=
  match t with
  | GLeaf _ tag p => codec_legacy tag p
  | GVec t => vec_legacy (legacy_of t)
  | GSetOf t => setof_legacy (legacy_of t)
  | GBTreeSet cmp t => btreeset_legacy cmp (legacy_of t)
  | GHashSet same t => hashset_legacy same (legacy_of t)
  end.
(** With logging. *)
Fixpoint t_from_der (c : config) {T} (t : gty T) : bytes -> logged (res (bytes * T)) :=
  match t with
  | GLeaf _ _ p => t_blanket_from_der c (check_constraints p) (try_from_any p)
  | GVec t => t_collection_from_der c TagSequence false (fun v => v) (t_from_der c t)
  | GSetOf t => t_collection_from_der c TagSet false (fun v => v) (t_from_der c t)
  | GBTreeSet cmp t => t_collection_from_der c TagSet true (set_of_list cmp) (t_from_der c t)
  | GHashSet same t => t_collection_from_der c TagSet true (hash_collect same) (t_from_der c t)
  end.
Fixpoint t_from_ber (c : config) {T} (t : gty T) : bytes -> logged (res (bytes * T)) :=
  match t with
  | GLeaf _ _ p => t_blanket_from_ber c (fun a => silent (try_from_any p a))
  | GVec t => t_blanket_from_ber c (t_collection_try_from TagSequence (fun v => v) (t_from_ber c t))
  | GSetOf t => t_blanket_from_ber c (t_collection_try_from TagSet (fun v => v) (t_from_ber c t))
  | GBTreeSet cmp t => t_blanket_from_ber c (t_btreeset_try_from c (set_of_list cmp) (t_from_ber c t))
  | GHashSet same t => t_blanket_from_ber c (t_collection_try_from TagSet (hash_collect same) (t_from_ber c t))
  end.

Lemma snd_rbind {A B} (m : logged (res A)) (f : A -> logged (res B)) : snd (rbind m f) = bind (snd m) (fun a => snd (f a)).
Proof. unfold rbind. destruct (snd m); reflexivity. Qed.
Lemma snd_generic {I O} c s (f : I -> logged (res O)) i : snd (trace_generic c s f i) = snd (f i).
Proof. unfold trace_generic. destruct (debugging c); [|reflexivity]. cbv zeta. destruct (snd (f i)) eqn:E; cbn; auto. Qed.
Lemma snd_trace {T} c s (f : bytes -> logged (res (bytes * T))) i :
  (forall rem x, snd (f i) = Ok (rem, x) -> blen rem <= blen i) -> snd (trace c s f i) = snd (f i).
Proof.
  intros H. unfold trace. destruct (debugging c); [|reflexivity]. cbv zeta. destruct (snd (f i)) as [[rem x]| | |] eqn:E; cbn; auto.
  destruct (tracing c); [|reflexivity]. pose proof (H _ _ eq_refl). destruct (N.ltb_spec (blen i) (blen rem)); [lia|]. rewrite andb_false_r. reflexivity.
Qed.

Definition shorter {T} (p : bytes -> res (bytes * T)) (d : bytes) : Prop := forall rem x, p d = Ok (rem, x) -> blen rem <= blen d.

Lemma located_len whole i : located whole i -> blen (in_data i) <= blen whole.
Proof. intros L. destruct (located_end _ _ L). lia. Qed.

Section Slices.
  Context (c : config).
  Lemma any_from (f : input -> lres (input * sany)) (p : bytes -> res (bytes * any)) d :
    (exists s, snd (f (from_slice d)) = s /\ sim d dataO (any_at d (from_slice d)) s (p d)) ->
    snd (t_any_from f d) = p d /\ (forall rem a, p d = Ok (rem, a) -> blen rem <= blen d /\ blen (any_data a) <= blen d).
  Proof.
    intros (s & E & S). unfold t_any_from. rewrite snd_rbind. unfold t_wrap. cbn [snd]. rewrite E. unfold sim in S.
    destruct s as [[rem a]|at_ e|n|], (p d) as [[rem' a']|e'|n'|]; try contradiction; cbn; try (split; [congruence || (destruct S; congruence) | discriminate]).
    - destruct S as [S [(raw & _ & _ & _ & _ & _ & LD & _) SU]]. split; [rewrite S; reflexivity|]. intros r x H. injection H as <- <-.
      unfold dataO in S. cbn [fst snd] in *. injection S as -> ->. cbn [dataA any_data]. split; [apply located_len; apply SU | apply located_len; exact LD].
  Qed.
  Lemma any_from_der d : blen d < 2 ^ 64 ->
    snd (t_any_from_der c d) = parse_der_any d /\ (forall rem a, parse_der_any d = Ok (rem, a) -> blen rem <= blen d /\ blen (any_data a) <= blen d).
  Proof.
    intros W. pose proof (der_any_agrees c d W _ (located_whole d)) as A. apply any_from.
    eexists. split; [apply A | exact (parse_der_any_sim d (from_slice d) W (located_whole d))].
  Qed.
  Lemma any_from_ber d : blen d < 2 ^ 64 ->
    snd (t_any_from_ber c d) = parse_ber_any d /\ (forall rem a, parse_ber_any d = Ok (rem, a) -> blen rem <= blen d /\ blen (any_data a) <= blen d).
  Proof.
    intros W. pose proof (ber_any_agrees c d W _ (located_whole d)) as A. apply any_from.
    eexists. split; [apply A | exact (parse_ber_any_sim d (from_slice d) W (located_whole d))].
  Qed.
  Lemma from_der_any_codec d : from_der any_codec d = parse_der_any d.
  Proof.
    unfold from_der, parse_der_any. destruct (header_parse_der d) as [[r h]| | |]; cbn; try reflexivity.
    destruct (length_assert_definite (h_length h)) as [u| | |] eqn:E; cbn; try reflexivity. destruct (der_get_content h r) as [[r2 x]| | |]; cbn; try reflexivity.
    unfold any_check_constraints. cbn. rewrite E. reflexivity.
  Qed.

  Lemma items_same {T} (p : bytes -> logged (res (bytes * T))) p' :
    (forall d, blen d < 2 ^ 64 -> snd (p d) = p' d /\ shorter p' d) -> forall fuel d, blen d < 2 ^ 64 ->
    snd (t_seq_collect p fuel d) = seq_collect p' fuel d.
  Proof.
    intros H. induction fuel as [|fuel IH]; intros d W; [reflexivity|]. cbn [t_seq_collect seq_collect]. destruct (blen d =? 0); [reflexivity|].
    rewrite snd_rbind. cbn [snd]. destruct (H d W) as [E S]. rewrite E. destruct (p' d) as [[rem x]| | |] eqn:P; cbn; try reflexivity.
    rewrite snd_rbind, IH; [reflexivity|]. pose proof (S _ _ P). lia.
  Qed.
  Lemma collection_same {T U} tag (form : bool) (of_list : list T -> U) p p' :
    (forall d, blen d < 2 ^ 64 -> snd (p d) = p' d /\ shorter p' d) -> forall d, blen d < 2 ^ 64 ->
    let whole := let* (rem, a) := parse_der_any d in
                 let* _ := assert_tag (any_header a) tag in
                 let* _ := (if form then assert_constructed (any_header a) else Ok tt) in
                 let* v := seq_items p' (any_data a) in
                 Ok (rem, of_list v) in
    snd (t_collection_from_der c tag form of_list p d) = whole /\ (forall rem x, whole = Ok (rem, x) -> blen rem <= blen d).
  Proof.
    intros H d W. cbv zeta. destruct (any_from_der d W) as [E K]. unfold t_collection_from_der. rewrite snd_generic, snd_rbind, snd_trace.
    - rewrite E. destruct (parse_der_any d) as [[rem a]| | |] eqn:P; cbn [bind]; try (split; [reflexivity | discriminate]). destruct (K _ _ eq_refl) as [K1 K2].
      rewrite snd_rbind. cbn [silent snd]. destruct (assert_tag (any_header a) tag) as [u| | |]; cbn [bind]; try (split; [reflexivity | discriminate]).
      rewrite snd_rbind. cbn [silent snd]. destruct (if form then assert_constructed (any_header a) else @Ok unit tt) as [u'| | |]; cbn [bind]; try (split; [reflexivity | discriminate]).
      rewrite snd_rbind. unfold t_seq_items, seq_items. rewrite (items_same p p' H); [|lia].
      destruct (seq_collect p' _ _) as [v| | |]; cbn; try (split; [reflexivity | discriminate]). split; [reflexivity|]. intros r x Z. injection Z as <- <-. exact K1.
    - intros rem x Z. rewrite E in Z. apply (K _ _ Z).
  Qed.
  Lemma try_from_same {T U} tag (of_list : list T -> U) p p' a :
    (forall d, blen d < 2 ^ 64 -> snd (p d) = p' d /\ shorter p' d) -> blen (any_data a) < 2 ^ 64 ->
    snd (t_collection_try_from tag of_list p a)
    = let* _ := assert_tag (any_header a) tag in let* _ := assert_constructed (any_header a) in let* v := seq_items p' (any_data a) in Ok (of_list v).
  Proof.
    intros H W. unfold t_collection_try_from. rewrite snd_rbind. cbn [silent snd]. destruct (assert_tag (any_header a) tag); cbn [bind]; try reflexivity.
    rewrite snd_rbind. cbn [silent snd]. destruct (assert_constructed (any_header a)); cbn [bind]; try reflexivity.
    rewrite snd_rbind. unfold t_seq_items, seq_items. rewrite (items_same p p' H); [|lia]. destruct (seq_collect _ _ _); reflexivity.
  Qed.
  Lemma blanket_same {T} (conv : any -> logged (res T)) conv' d : blen d < 2 ^ 64 ->
    (forall a, blen (any_data a) < 2 ^ 64 -> snd (conv a) = conv' a) ->
    snd (t_blanket_from_ber c conv d) = blanket_from_ber conv' d /\ shorter (blanket_from_ber conv') d.
  Proof.
    intros W H. destruct (any_from_ber d W) as [E K]. unfold t_blanket_from_ber, shorter, blanket_from_ber. rewrite snd_rbind, E.
    destruct (parse_ber_any d) as [[rem a]| | |] eqn:P; cbn [bind]; try (split; [reflexivity | discriminate]). destruct (K _ _ eq_refl) as [K1 K2].
    assert (X: snd (conv a) = conv' a) by (apply H; lia). rewrite X. destruct (conv' a); cbn; try (split; [reflexivity | discriminate]).
    split; [reflexivity|]. intros r x Z. injection Z as <- <-. exact K1.
  Qed.
End Slices.

Theorem C101_slices (c : config) {T : Type} (t : gty T) (d : bytes) : blen d < 2 ^ 64 ->
  snd (t_from_ber c t d) = lg_from_ber (legacy_of t) d /\ snd (t_from_der c t d) = lg_from_der (legacy_of t) d.
Proof.
  assert (X: forall d, blen d < 2 ^ 64 ->
    (snd (t_from_ber c t d) = lg_from_ber (legacy_of t) d /\ shorter (lg_from_ber (legacy_of t)) d)
    /\ (snd (t_from_der c t d) = lg_from_der (legacy_of t) d /\ shorter (lg_from_der (legacy_of t)) d)).
  { clear d. induction t as [T tag p|T t IH|T t IH|T cmp t IH|T same t IH]; intros d W; cbn [t_from_ber t_from_der legacy_of].
    - split.
      + apply (blanket_same c _ (try_from_any p)); [exact W | reflexivity].
      + unfold t_blanket_from_der. rewrite snd_generic, snd_rbind. destruct (any_from_der c d W) as [E K]. rewrite E.
        cbn [codec_legacy lg_from_der]. unfold shorter, from_der. destruct (parse_der_any d) as [[rem a]| | |] eqn:P; cbn [bind]; try (split; [reflexivity | discriminate]).
        rewrite snd_rbind. cbn [silent snd]. destruct (check_constraints p a); cbn [bind]; try (split; [reflexivity | discriminate]).
        rewrite snd_rbind. cbn [silent snd]. destruct (try_from_any p a); cbn [bind]; try (split; [reflexivity | discriminate]).
        split; [reflexivity|]. intros r x Z. injection Z as <- <-. apply (K _ _ eq_refl).
    - split.
      + apply (blanket_same c _ (vec_try_from (legacy_of t))); [exact W|]. intros a Wa. rewrite (try_from_same TagSequence (fun v => v) _ (lg_from_ber (legacy_of t))); [|apply IH | exact Wa].
        unfold vec_try_from. destruct (assert_tag _ _); cbn [bind]; try reflexivity. destruct (assert_constructed _); cbn [bind]; try reflexivity.
        destruct (seq_items _ _); reflexivity.
      + apply (collection_same c TagSequence false (fun v => v) _ (lg_from_der (legacy_of t))); [apply IH | exact W].
    - split.
      + apply (blanket_same c _ (setof_try_from (legacy_of t))); [exact W|]. intros a Wa. rewrite (try_from_same TagSet (fun v => v) _ (lg_from_ber (legacy_of t))); [|apply IH | exact Wa].
        unfold setof_try_from. destruct (assert_tag _ _); cbn [bind]; try reflexivity. destruct (assert_constructed _); cbn [bind]; try reflexivity.
        destruct (seq_items _ _); reflexivity.
      + cbn [setof_legacy lg_from_der]. unfold setof_from_der, shorter. rewrite from_der_any_codec.
        apply (collection_same c TagSet false (fun v => v) _ (lg_from_der (legacy_of t))); [apply IH | exact W].
    - split.
      + apply (blanket_same c _ (btreeset_try_from cmp (legacy_of t))); [exact W|]. intros a Wa. unfold t_btreeset_try_from. rewrite snd_generic.
        rewrite (try_from_same TagSet (set_of_list cmp) _ (lg_from_ber (legacy_of t))); [|apply IH | exact Wa]. unfold btreeset_try_from, setof_try_from.
        destruct (assert_tag _ _); cbn [bind]; try reflexivity. destruct (assert_constructed _); cbn [bind]; reflexivity.
      + cbn [btreeset_legacy lg_from_der]. unfold btreeset_from_der, shorter. rewrite from_der_any_codec.
        apply (collection_same c TagSet true (set_of_list cmp) _ (lg_from_der (legacy_of t))); [apply IH | exact W].
    - split.
      + apply (blanket_same c _ (hashset_try_from same (legacy_of t))); [exact W|]. intros a Wa. apply (try_from_same TagSet (hash_collect same) _ (lg_from_ber (legacy_of t))); [apply IH | exact Wa].
      + cbn [hashset_legacy lg_from_der]. unfold hashset_from_der, shorter. rewrite from_der_any_codec.
        apply (collection_same c TagSet true (hash_collect same) _ (lg_from_der (legacy_of t))); [apply IH | exact W]. }
  intros W. split; apply X; exact W.
Qed.
Print Assumptions C101_slices.

(** ** What is logged *)

(** Octets in lower-case hexadecimal with single spaces between. *)
Definition low_hex (n : N) : N := if n <? 10 then 48 + n else 87 + n.
Fixpoint spaced (d : bytes) : bytes :=
  match d with
  | [] => []
  | [b] => [low_hex (b / 16); low_hex (b mod 16)]
  | b :: d => low_hex (b / 16) :: low_hex (b mod 16) :: 32 :: spaced d
  end.
(** The octets at the place of a failure: the first sixteen, and whether there are more. *)
Definition dump_of (d : bytes) : list line := LDump (spaced (firstn 16 d)) :: (if 16 <? blen d then [LContinued] else []).

Lemma hex_char_spec n : n < 16 -> hex_char n = low_hex n.
Proof.
  intros H. assert (A: Forall (fun n => hex_char n = low_hex n) [0;1;2;3;4;5;6;7;8;9;10;11;12;13;14;15]) by (repeat constructor).
  rewrite Forall_forall in A. apply A. cbn [In]. lia.
Qed.
Lemma hex_loop_spec d : bytes_ok d -> forall s, removelast (hex_loop d (s ++ [32])) = s ++ (match d with [] => [] | _ => 32 :: spaced d end).
Proof.
  induction 1 as [|b d Hb Hd IH]; intros s; cbn [hex_loop].
  - rewrite removelast_last, app_nil_r. reflexivity.
  - rewrite <- !(app_assoc s), <- !app_assoc. cbn [app].
    change (s ++ [32; hex_char (N.shiftr b 4); hex_char (N.land b 15); 32]) with (s ++ [32; hex_char (N.shiftr b 4); hex_char (N.land b 15)] ++ [32]).
    rewrite app_assoc, IH, <- app_assoc. f_equal. cbn [app]. f_equal.
    change 15 with (N.ones 4). rewrite N.shiftr_div_pow2, N.land_ones. change (2 ^ 4) with 16.
    rewrite !hex_char_spec by (try apply N.mod_lt; lia). destruct d; reflexivity.
Qed.
Lemma hex_dump_spec d : bytes_ok d -> hex_dump d 16 = dump_of d.
Proof.
  intros H. unfold hex_dump, dump_of. f_equal. cbv zeta.
  assert (F: firstn (N.to_nat (N.min (blen d) 16)) d = firstn 16 d).
  { unfold blen. destruct (N.min_spec (N.of_nat (length d)) 16) as [[L ->]|[L ->]]; [|reflexivity].
    rewrite Nnat.Nat2N.id, firstn_all. symmetry. apply firstn_all2. lia. }
  rewrite F. assert (H16: bytes_ok (firstn 16 d)) by (rewrite <- (firstn_skipn 16 d) in H; apply Forall_app in H; apply H). destruct (firstn 16 d) as [|b r]; [reflexivity|].
  inversion H16 as [|? ? Hb Hr]; subst. cbn [hex_loop app]. f_equal.
  change (hex_loop r [hex_char (N.shiftr b 4); hex_char (N.land b 15); 32]) with (hex_loop r ([hex_char (N.shiftr b 4); hex_char (N.land b 15)] ++ [32])).
  rewrite (hex_loop_spec r Hr). change 15 with (N.ones 4). rewrite N.shiftr_div_pow2, N.land_ones. change (2 ^ 4) with 16.
  rewrite !hex_char_spec by (try apply N.mod_lt; lia). destruct r; reflexivity.
Qed.

(** With [debug], a failure is logged with the message of the function, the start of its input, the error and the
    octets there; with [trace] entering and success are logged too, with the number of octets read.  The lines of the
    inner functions come between. *)
Theorem C101_log (c : config) {T : Type} (s : site) (f : input -> lres (input * T)) (whole : bytes) (i : input) :
  bytes_ok whole -> blen whole < 2 ^ 64 -> located whole i -> cf_debug c = true ->
  let enter := if cf_trace c then [LEnter s (in_start i) (blen (in_data i))] else [] in
  (forall at_ e, snd (f i) = SErr at_ e ->
     trace_input c s f i = (enter ++ fst (f i) ++ LFailed s (in_start i) e :: dump_of (in_data i), SErr at_ e))
  /\ (forall n, snd (f i) = SIncomplete n ->
     trace_input c s f i = (enter ++ fst (f i) ++ LMissing s (in_start i) n :: dump_of (in_data i), SIncomplete n))
  /\ (forall rem x, snd (f i) = SOk (rem, x) -> suffix whole i rem ->
     trace_input c s f i
     = (enter ++ fst (f i) ++ (if cf_trace c then [LParsed s (in_start i) (blen (in_data i) - blen (in_data rem)) (blen (in_data rem))] else []),
        SOk (rem, x))).
Proof.
  intros B W L D enter.
  assert (Bi: bytes_ok (in_data i)).
  { destruct L as (pre & post & -> & _). apply Forall_app in B as [_ B]. apply Forall_app in B. apply B. }
  unfold trace_input, debugging, tracing. rewrite D. cbn [orb]. fold enter. cbv zeta. split; [|split].
  - intros at_ e E. rewrite E, (hex_dump_spec _ Bi). reflexivity.
  - intros n E. rewrite E, (hex_dump_spec _ Bi). reflexivity.
  - intros rem x E S. rewrite E. pose proof (suffix_len whole i rem L S) as [N1 N2]. pose proof (located_end _ _ L) as [E1 E2].
    destruct S as (Lr & Se & Ss). pose proof (located_end _ _ Lr) as [E3 E4].
    destruct (N.ltb_spec (in_start rem) (in_start i)); [lia|]. rewrite andb_false_r. do 3 f_equal. destruct (cf_trace c); [|reflexivity]. do 2 f_equal.
    replace (in_start rem + 2 ^ 64 - in_start i) with (in_start rem - in_start i + 1 * 2 ^ 64) by lia. rewrite N.mod_add by (vm_compute; discriminate).
    rewrite N.mod_small by lia. lia.
Qed.
Print Assumptions C101_log.

(** 30 03 02 01 05 as [Vec<Integer>], and 30 03 02 00 05 with an empty integer. *)
Example C101_case :
  let c := mk_config true false true in
  let t := TVec TInteger in
  t_parse_ber c (tparser_of c t) (from_slice [48; 3; 2; 1; 5]) = ([], SOk (mk_input [] 5 5, [[5]]))
  /\ t_parse_ber c (tparser_of c t) (from_slice [48; 4; 2; 0; 5; 0])
     = ([LFailed AtInteger 4 EInvalidLength; LDump []; LFailed AtBerContent 2 EInvalidLength; LDump (spaced [2; 0; 5; 0]);
         LFailed AtBerParse 0 EInvalidLength; LDump (spaced [48; 4; 2; 0; 5; 0])],
        SErr (mk_input [] 4 4) EInvalidLength)
  /\ spaced [48; 4; 172] = [51; 48; 32; 48; 52; 32; 97; 99]
  /\ hex_dump (repeat 10 17) 16 = [LDump (spaced (repeat 10 16)); LContinued]
  /\ fst (t_parse_ber (mk_config true true true) (tparser_of (mk_config true true true) TInteger) (from_slice [2; 1; 5]))
     = [LEnter AtBerParse 0 3; LEnter AtHeader 0 3; LParsed AtHeader 0 2 1; LEnter AtBerContent 2 1; LEnter AtInteger 2 1;
        LParsed AtInteger 2 1 0; LParsed AtBerContent 2 1 0; LParsed AtBerParse 0 3 0]
  /\ snd (t_from_der c (GVec (GLeaf _ TagInteger integer_codec)) [48; 3; 2; 1; 5]) = Ok ([], [[5]]).
Proof. cbv zeta. repeat split; vm_compute; reflexivity. Qed.
