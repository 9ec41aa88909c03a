(** C86, C87 for the types declared with the derive macros. *)
From Verif Require Import Base MHeader MEncode SHeader PArith PHeader PEncode MBer SBer PBer PIter PCodec PropBer.
From Verif Require Import MInt SInt PInt PropInt MSeg SSeg PSeg PBits PropSeg MOid POid PropOid MText SText PText PropText.
From Verif Require Import MTime STime MCont SCont PCont SBase PBase PTypes PropCont PropTag PropItems PropAgree PropCanon.
From Verif Require Import MDerive SDerive PDerive PropDerive PropSame.

(** ** Objects with the headers DER prescribes *)

(** Shortest identifier and length octets, class and number given, either form, content [F]. *)
Definition headed (c : class) (n : N) (F : bytes -> Prop) (e : bytes) : Prop :=
  exists k idb lenb d, ident_shortest c k n idb /\ length_shortest (Definite (blen d)) lenb /\ e = idb ++ lenb ++ d /\ F d.
Definition some_headed (F : class -> N -> bytes -> Prop) (e : bytes) : Prop := exists c n, headed c n (F c n) e.

(** Content that has length octets of the same size as the whole object of that class and number (see
    [C65_implicit_refuted]). *)
Definition fits_own (c : class) (n : N) (d : bytes) : Prop :=
  forall k idb lenb, ident_shortest c k n idb -> length_shortest (Definite (blen d)) lenb ->
    same_size (blen d) (blen (idb ++ lenb ++ d)).
Definition tag_frame (g : tagging) (F : class -> N -> bytes -> Prop) : bytes -> Prop :=
  headed (tg_class g) (tg_num g) (fun d => match tg_kind g with
                                           | KExplicit => some_headed F d
                                           | KImplicit => exists c n, F c n d /\ fits_own c n d
                                           end).

(** The class, number and content of an object of the type, in which every header is such a header; nothing is
    left after the components, and components with a default value are present. *)
Fixpoint dframe {A} (t : dty A) (c : class) (n : N) (d : bytes) : Prop :=
  match t with
  | DTy t => (c, n) = own_number t /\ framed_content true t d
  | DVec t => c = Universal /\ n = 16 /\ exists es, d = concat es /\ Forall (some_headed (dframe t)) es
  | DStruct set fs => c = Universal /\ n = (if set then 17 else 16) /\ fields_frame fs d
  | DChoice k vs => variants_frame k vs c n d
  | DEnum _ => c = Universal /\ n = 10
  | DAlias t => dframe t c n d
  end
with fields_frame {A} (fs : dfields A) (d : bytes) : Prop :=
  match fs with
  | FNil => d = []
  | FPlain t fs => exists e r, d = e ++ r /\ some_headed (dframe t) e /\ fields_frame fs r
  | FDefault _ t fs => exists e r, d = e ++ r /\ some_headed (dframe t) e /\ fields_frame fs r
  | FTagged g t fs => exists e r, d = e ++ r /\ tag_frame g (dframe t) e /\ fields_frame fs r
  | FTaggedDefault g _ t fs => exists e r, d = e ++ r /\ tag_frame g (dframe t) e /\ fields_frame fs r
  | FOption _ _ | FTaggedOption _ _ _ => False
  end
with variants_frame {A} (k : option tag_kind) (vs : dvariants A) (c : class) (n : N) (d : bytes) : Prop :=
  match vs with
  | VNil => False
  | VCons u t vs =>
      match k with
      | None => dframe t c n d
      | Some KExplicit => c = ContextSpecific /\ n = u /\ some_headed (dframe t) d
      | Some KImplicit => c = ContextSpecific /\ n = u /\ exists c' n', dframe t c' n' d
      end \/ variants_frame k vs c n d
  end.
Definition dframed {A} (t : dty A) : bytes -> Prop := some_headed (dframe t).

(** Types whose contents, read by [parse_der], have one form only. *)
Fixpoint dcanonical {A} (t : dty A) : Prop :=
  match t with
  | DTy t => canonical t
  | DVec t => dcanonical t
  | DStruct _ fs => fields_canonical fs
  | DChoice _ vs => variants_canonical vs
  | DEnum _ => True
  | DAlias t => dcanonical t
  end
with fields_canonical {A} (fs : dfields A) : Prop :=
  match fs with
  | FNil => True
  | FPlain t fs => dcanonical t /\ fields_canonical fs
  | FOption t fs => dcanonical t /\ fields_canonical fs
  | FDefault _ t fs => dcanonical t /\ fields_canonical fs
  | FTagged _ t fs => dcanonical t /\ fields_canonical fs
  | FTaggedOption _ t fs => dcanonical t /\ fields_canonical fs
  | FTaggedDefault _ _ t fs => dcanonical t /\ fields_canonical fs
  end
with variants_canonical {A} (vs : dvariants A) : Prop :=
  match vs with
  | VNil => True
  | VCons _ t vs => dcanonical t /\ variants_canonical vs
  end.

(** ** Every value has one content *)

Definition one_content {T} (S : syntax T) : Prop := forall v a b, sx_content S v a -> sx_content S v b -> a = b.

Lemma one_encoding {T} (S : syntax T) v a b : one_content S -> encodes S v a -> encodes S v b -> a = b.
Proof.
  intros H (c & k & t & cb & idb & lenb & E & C & S1 & S2 & ->) (c' & k' & t' & cb' & idb' & lenb' & E' & C' & S1' & S2' & ->).
  rewrite E in E'. injection E' as <- <- <-. pose proof (H _ _ _ C C'). subst cb'.
  rewrite (ident_shortest_unique _ _ _ _ _ S1 S1'), (length_shortest_unique _ _ _ S2 S2'). reflexivity.
Qed.

Lemma items_one {T} (S : syntax T) vs : one_content S -> forall a b, items_content S vs a -> items_content S vs b -> a = b.
Proof.
  intros H. induction vs as [|v vs IH]; intros a b Ha Hb; inversion Ha; inversion Hb; subst; [reflexivity|].
  f_equal; [eapply one_encoding; eassumption|auto].
Qed.

Lemma typed_one {A} (t : ty A) : wf t -> one_content (syntax_of t).
Proof.
  induction t as [A b|A t IH|A n t IH|A t IH|A cmp t IH|A c n t IH|A c n t IH]; cbn [wf syntax_of]; intros W v x y Hx Hy.
  - pose proof (base_types_sound b W) as B. destruct (bs_writes _ _ _ _ _ B v x Hx) as (_ & _ & X).
    destruct (bs_writes _ _ _ _ _ B v y Hy) as (_ & _ & Y). rewrite X in Y. injection Y as -> _. reflexivity.
  - exact (items_one _ v (IH W) _ _ Hx Hy).
  - exact (items_one _ v (IH W) _ _ (proj2 Hx) (proj2 Hy)).
  - exact (items_one _ v (IH W) _ _ Hx Hy).
  - exact (items_one _ v (IH (proj2 W)) _ _ (proj2 Hx) (proj2 Hy)).
  - exact (one_encoding _ v _ _ (IH (proj2 W)) Hx Hy).
  - exact (IH (proj2 (proj2 W)) v _ _ Hx Hy).
Qed.

Definition one_components {T} (C : T -> bytes -> Prop) : Prop := forall v a b, C v a -> C v b -> a = b.
Lemma component_one {A B} (S : syntax A) (C : B -> bytes -> Prop) : one_content S -> one_components C -> one_components (component S C).
Proof.
  intros H1 H2 [x y] a b (e & r & E & Cr & ->) (e' & r' & E' & Cr' & ->). f_equal; [eapply one_encoding; eassumption|eapply H2; eassumption].
Qed.
Lemma tagged_one {A} g (S : syntax A) : one_content S -> one_content (tagged_syntax true g S).
Proof.
  intros H v a b. unfold tagged_syntax. destruct (tg_kind g).
  - apply one_encoding. exact H.
  - intros [_ Ha] [_ Hb]. exact (H v a b Ha Hb).
Qed.

Lemma derived_one :
  (forall A (t : dty A), dwf t -> writable t -> one_content (dsyntax_of true t))
  /\ (forall A (fs : dfields A), fields_wf fs -> fields_writable fs -> one_components (components_of true fs))
  /\ (forall A (vs : dvariants A), forall k, variants_wf k vs -> variants_writable vs -> one_content (variants_syntax true k vs)).
Proof.
  apply dty_mutind.
  - intros A t W _. exact (typed_one t W).
  - intros A t IH W Wr v a b. apply items_one. exact (IH W Wr).
  - intros A set fs IH W Wr v a b. exact (IH W Wr v a b).
  - intros A k vs IH [_ W] [_ Wr]. exact (IH k W Wr).
  - intros ds W _ v a b [_ Ha] [_ Hb]. exact (shortest_form_unique _ _ _ Ha Hb).
  - intros A t IH W Wr. exact (IH W Wr).
  - intros _ _ v a b Ha Hb. cbn in Ha, Hb. unfold no_component in *. congruence.
  - intros A B t IHt fs IHf [W1 W2] [V1 V2]. exact (component_one _ _ (IHt W1 V1) (IHf W2 V2)).
  - intros A B t IHt fs IHf _ [].
  - intros A B d t IHt fs IHf [W1 W2] [V1 V2]. exact (component_one _ _ (IHt W1 V1) (IHf W2 V2)).
  - intros A B g t IHt fs IHf (_ & W1 & W2) [V1 V2]. exact (component_one _ _ (tagged_one g _ (IHt W1 V1)) (IHf W2 V2)).
  - intros A B g t IHt fs IHf _ [].
  - intros A B g d t IHt fs IHf (_ & W1 & W2) [V1 V2]. exact (component_one _ _ (tagged_one g _ (IHt W1 V1)) (IHf W2 V2)).
  - intros k _ _ [].
  - intros A B n t IHt vs IHv k (_ & _ & W1 & W2) [V1 V2] [x|y] a b; cbn [variants_syntax sum_syntax sx_content].
    + destruct k as [[]|]; cbn [variant_syntax explicit_syntax implicit_syntax sx_content]; [apply one_encoding| |]; apply (IHt W1 V1).
    + apply (IHv k W2 V2).
Qed.

(** ** Tag numbers *)

Lemma own_number_tag {A} (t : ty A) : In (snd (own_number t)) (ty_tags t).
Proof. destruct t as [A b| | | | | |]; cbn; auto. destruct b; cbn; auto. Qed.

Lemma frame_tag :
  (forall A (t : dty A), dwf t -> forall c n d, dframe t c n d -> n < 2 ^ 32 /\ In n (dtags t))
  /\ (forall A (fs : dfields A), True)
  /\ (forall A (vs : dvariants A), forall k, variants_wf k vs -> forall c n d, variants_frame k vs c n d -> n < 2 ^ 32 /\ In n (vtags k vs)).
Proof.
  apply dty_mutind; try (intros; exact I).
  - intros A t W c n d [E _]. assert (En : n = snd (own_number t)) by (rewrite <- E; reflexivity). subst n.
    split; [exact (own_number_small t W)|apply own_number_tag].
  - intros A t IH W c n d (_ & -> & _). split; [lia|left; reflexivity].
  - intros A set fs _ W c n d (_ & -> & _). split; [destruct set; lia|left; reflexivity].
  - intros A k vs IH [_ W] c n d F. exact (IH k W c n d F).
  - intros ds W c n d (_ & ->). split; [lia|left; reflexivity].
  - intros A t IH W c n d F. exact (IH W c n d F).
  - intros k _ c n d [].
  - intros A B u t IHt vs IHv k (Hu & _ & W1 & W2) c n d. cbn [variants_frame vtags]. intros [F|F].
    + destruct k as [[]|].
      * destruct F as (_ & -> & _). split; [exact Hu|left; reflexivity].
      * destruct F as (_ & -> & _). split; [exact Hu|left; reflexivity].
      * destruct (IHt W1 c n d F) as [H1 H2]. split; [exact H1|]. apply in_or_app. left. exact H2.
    + destruct (IHv k W2 c n d F) as [H1 H2]. split; [exact H1|]. apply in_or_app. right. exact H2.
Qed.

(** ** Reading *)

(** The object at the start of an input. *)
Lemma headed_object c n (F : bytes -> Prop) e rest :
  n < 2 ^ 32 -> bytes_ok (e ++ rest) -> blen e < 2 ^ 64 -> headed c n F e ->
  exists h d, parse_der_any (e ++ rest) = Ok (rest, mk_any h d) /\ h_class h = c /\ h_tag h = n
    /\ h_length h = Definite (blen d) /\ F d /\ bytes_ok d /\ bytes_ok rest /\ blen d + 2 <= blen e /\ object c (h_constructed h) n d e.
Proof.
  intros Ht Hi Hn (k & idb & lenb & d & S1 & S2 & -> & Fd). rewrite <- !app_assoc in Hi.
  rewrite !bytes_ok_app in Hi. destruct Hi as (_ & _ & Hd & Hr).
  assert (O : object c k n d (idb ++ lenb ++ d)) by (apply object_intro; try assumption; rewrite !blen_app in Hn; lia).
  destruct (object_parse_der_any _ _ _ _ _ rest O Ht Hd Hr) as (rt & rh & E).
  exists (mk_header c k n (Definite (blen d)) rt rh), d. split; [exact E|]. do 3 (split; [reflexivity|]). split; [exact Fd|].
  split; [exact Hd|]. split; [exact Hr|]. split; [exact (object_size _ _ _ _ _ O)|exact O].
Qed.

Definition content_back {A} (t : dty A) : Prop := forall h c n d r v,
  bytes_ok d -> h_length h = Definite (blen d) -> blen d < 2 ^ 64 -> dimplicit_ok t \/ c = h_class h /\ n = h_tag h ->
  dframe t c n d -> ps_der_content (dparser_of t) h d = Ok (r, v) ->
  sx_ident (dsyntax_of true t) v = (c, h_constructed h, n) /\ sx_content (dsyntax_of true t) v d.

(** A reader that gives back, from such an object, a value with that encoding. *)
Definition back {T} (F : bytes -> Prop) (S : syntax T) (p : bytes -> res (bytes * T)) : Prop :=
  forall e rest rem v, bytes_ok (e ++ rest) -> blen e < 2 ^ 64 -> F e -> p (e ++ rest) = Ok (rem, v) -> rem = rest /\ encodes S v e.

Lemma object_back {A} (t : dty A) : dwf t -> content_back t -> back (dframed t) (dsyntax_of true t) (ps_parse_der (dparser_of t)).
Proof.
  intros W H e rest rem v Hi Hn (c & n & F) E.
  assert (Ht : n < 2 ^ 32) by (destruct F as (k & idb & lenb & d & _ & _ & _ & F); apply (proj1 frame_tag A t W c n d F)).
  destruct (headed_object c n _ e rest Ht Hi Hn F) as (h & d & E1 & Hc & Hg & L & Fd & Hd & Hr & Hs & O).
  pose proof (proj1 derive_sound A t W true) as S. rewrite (proj2 (proj1 (so_parser S))) in E.
  apply (default_parse_der_ok (ps_accept (dparser_of t)) (ps_ber_content (dparser_of t)) _ _ _ _ Hi) in E as (a & r & E & _ & C).
  rewrite E1 in E. injection E as <- <-. cbn [any_header any_data] in C. split; [reflexivity|].
  destruct (H h c n d r v Hd L ltac:(lia) (or_intror (conj (eq_sym Hc) (eq_sym Hg))) Fd C) as [I C'].
  exact (encodes_intro _ v _ _ _ d e I C' O).
Qed.

Lemma tagged_back {A} g (t : dty A) : dwf t -> writable t -> tagging_ok g t -> content_back t ->
  back (tag_frame g (dframe t)) (tagged_syntax true g (dsyntax_of true t)) (ps_parse_der (tagged_parser g (dparser_of t))).
Proof.
  intros W Wr [Hg Hk] H e rest rem v Hi Hn F E. pose proof (object_back t W H) as OB. pose proof (proj1 derived_one A t W Wr) as One.
  assert (Hg32 : tg_num g < 2 ^ 32) by lia.
  destruct (headed_object _ _ _ e rest Hg32 Hi Hn F) as (h & d & E1 & Hc & Hg' & L & Fd & Hd & Hr & Hs & O).
  unfold tagged_parser, tagged_syntax in *. destruct (tg_kind g).
  - apply (default_parse_der_ok _ _ _ _ _ _ Hi) in E as (a & r & E & _ & C). rewrite E1 in E. injection E as <- <-.
    cbn [any_header any_data] in C. apply explicit_content_ok in C as (K & _ & _ & C). split; [reflexivity|]. rewrite K in O.
    rewrite <- (app_nil_r d) in C, Hd. destruct (OB d [] r v Hd ltac:(lia) Fd C) as [_ En].
    exact (encodes_intro (explicit_syntax _ _ _) v _ _ _ d e eq_refl En O).
  - apply (default_parse_der_ok _ _ _ _ _ _ Hi) in E as (a & r & E & _ & C). rewrite E1 in E. injection E as <- <-.
    cbn [any_header any_data] in C. apply implicit_content_ok in C as (_ & C). split; [reflexivity|].
    destruct Fd as (c & n & Fd & Fo). destruct (H h c n d r v Hd L ltac:(lia) (or_introl Hk) Fd C) as [I C'].
    apply (encodes_intro (implicit_syntax _ _ (fit_syntax _)) v (tg_class g) (h_constructed h) (tg_num g) d e); [|split; [|exact C']|exact O].
    + cbn [implicit_syntax sx_ident fit_syntax]. rewrite I. reflexivity.
    + intros cb enc Hcb Henc. rewrite (One v _ _ Hcb C').
      destruct Henc as (c' & k' & t' & cb' & idb & lenb & I' & C'' & S1 & S2 & ->). rewrite I in I'. injection I' as <- <- <-.
      pose proof (One v _ _ C'' C'). subst cb'. exact (Fo _ _ _ S1 S2).
Qed.

Lemma starts_back c n F e rest tags : n < 2 ^ 32 -> bytes_ok (e ++ rest) -> blen e < 2 ^ 64 -> headed c n F e -> In n tags ->
  ~ absent true tags (e ++ rest).
Proof.
  intros Ht Hi Hn H Hin Ab. destruct (headed_object c n F e rest Ht Hi Hn H) as (h & d & E1 & Hc & Hg & L & Fd & Hd & Hr & Hs & O).
  destruct Ab as [E|(u & l & St & Hu & _)].
  - apply app_eq_nil in E as [-> _]. unfold blen in Hs. cbn in Hs. lia.
  - destruct (starts_header u l _ Hi St) as (_ & r & h' & Eh & Et & El).
    unfold parse_der_any, header_parse_der in E1. unfold header_parse_ber in Eh. rewrite Eh in E1. cbn [bind] in E1.
    destruct (is_definite (h_length h')); [|discriminate]. cbn [bind] in E1.
    destruct (length_assert_definite (h_length h')) as [[]| | |]; try discriminate. cbn [bind] in E1.
    destruct (der_get_content h' r) as [[r' d']| | |]; try discriminate. cbn [bind] in E1. injection E1 as _ <- _.
    apply Hu. rewrite <- Et, Hg. exact Hin.
Qed.

Lemma back_items {T} F (S : syntax T) p es vs : back F S p -> (forall e, F e -> e <> []) ->
  Forall F es -> bytes_ok (concat es) -> blen (concat es) < 2 ^ 64 -> reads_all p (concat es) vs -> items_content S vs (concat es).
Proof.
  intros G Ne Fe. revert vs. induction Fe as [|e es H Fe IH]; intros vs Hi Hn R; cbn [concat] in *.
  - inversion R; subst; [constructor|congruence].
  - rewrite blen_app in Hn. inversion R as [E|i rem v vs' Hne E R' E1]; subst.
    + symmetry in E. apply app_eq_nil in E as [E _]. exfalso. exact (Ne e H E).
    + destruct (G e (concat es) rem v Hi ltac:(lia) H E) as [-> En]. apply bytes_ok_app in Hi as [_ Hi].
      constructor; [exact En|]. apply IH; [exact Hi|lia|exact R'].
Qed.

Lemma headed_nonempty c n F e : headed c n F e -> e <> [].
Proof.
  intros (k & idb & lenb & d & S1 & _ & -> & _) E. apply app_eq_nil in E as [-> _].
  apply ident_shortest_octets, ident_octets_len in S1. unfold blen in S1. cbn in S1. lia.
Qed.

(** The components, one after the other. *)
Lemma field_back {A B} (F : bytes -> Prop) (S : syntax A) (p : bytes -> res (bytes * A)) (f : fields B) (G : bytes -> Prop) (C : B -> bytes -> Prop) :
  back F S p ->
  (forall d r y, bytes_ok d -> blen d < 2 ^ 64 -> G d -> f d = Ok (r, y) -> r = [] /\ C y d) ->
  forall d r v, bytes_ok d -> blen d < 2 ^ 64 -> (exists e m, d = e ++ m /\ F e /\ G m) -> field p f d = Ok (r, v) ->
    r = [] /\ component S C v d.
Proof.
  intros Bk H d r [x y] Hd Hn (e & m & -> & Fe & Gm) E. unfold field in E. rewrite blen_app in Hn.
  apply bind_ok in E as ([m' x'] & E & E'). apply bind_ok in E' as ([r' y'] & E' & Q). injection Q as -> -> ->.
  destruct (Bk e m m' x Hd ltac:(lia) Fe E) as [-> En]. apply bytes_ok_app in Hd as [_ Hm].
  destruct (H m r y Hm ltac:(lia) Gm E') as [-> Cy]. split; [reflexivity|]. exists e, m. auto.
Qed.

Lemma default_back {A} (d0 : A) (P : parser A) tags (F : bytes -> Prop) (S : syntax A) :
  regular P -> (forall n, ps_accept P n = true <-> In n tags) -> (forall e, F e -> exists c n G, n < 2 ^ 32 /\ In n tags /\ headed c n G e) ->
  back F S (ps_parse_der P) -> back F S (with_default d0 (ps_parse_der (option_parser P))).
Proof.
  intros R HA HF Bk e rest rem v Hi Hn Fe E.
  apply (default_reads d0 _ (absent true tags) (fun i m x => comes false tags i /\ dread true P i m x)) in E.
  - destruct E as [[_ E]|(Ab & _)].
    + exact (Bk e rest rem v Hi Hn Fe E).
    + exfalso. destruct (HF e Fe) as (c & n & G & Ht & Hin & H). exact (starts_back c n G e rest tags Ht Hi Hn H Hin Ab).
  - intros o. apply (option_reads true P tags _ _ o R HA Hi).
Qed.

Lemma tagged_default_back {A} (d0 : A) g (P : parser A) (F : bytes -> Prop) (S : syntax A) : tg_num g < 2 ^ 32 ->
  (forall e, F e -> exists c G, headed c (tg_num g) G e) ->
  back F S (ps_parse_der (tagged_parser g P)) -> back F S (with_default d0 (fld_tagged_optional_der g P)).
Proof.
  intros Ht HF Bk e rest rem v Hi Hn Fe E.
  apply (default_reads d0 _ (absent true [tg_num g]) (fun i m x => comes true [tg_num g] i /\ dread true (tagged_parser g P) i m x)) in E.
  - destruct E as [[_ E]|(Ab & _)].
    + exact (Bk e rest rem v Hi Hn Fe E).
    + exfalso. destruct (HF e Fe) as (c & G & H). exact (starts_back c _ G e rest [tg_num g] Ht Hi Hn H (or_introl eq_refl) Ab).
  - intros o. apply (tagged_optional_reads true g P _ _ o Hi).
Qed.

Lemma derived_back :
  (forall A (t : dty A), dwf t -> writable t -> dcanonical t -> content_back t)
  /\ (forall A (fs : dfields A), fields_wf fs -> fields_writable fs -> fields_canonical fs -> forall d r v,
        bytes_ok d -> blen d < 2 ^ 64 -> fields_frame fs d -> der_of fs d = Ok (r, v) -> r = [] /\ components_of true fs v d)
  /\ (forall A (vs : dvariants A), forall k, variants_wf k vs -> NoDup (vtags k vs) -> variants_writable vs -> variants_canonical vs ->
        forall h d r v, bytes_ok d -> h_length h = Definite (blen d) -> blen d < 2 ^ 64 ->
          (k = Some KExplicit -> h_constructed h = true) -> variants_frame k vs (h_class h) (h_tag h) d ->
          der_variants k vs h d = Ok (r, v) ->
          sx_ident (variants_syntax true k vs) v = (h_class h, h_constructed h, h_tag h) /\ sx_content (variants_syntax true k vs) v d).
Proof.
  apply dty_mutind.
  - intros A t W _ Cn h c n d r v Hd L Hn _ [E F] C. destruct (typed_canonical t W Cn h d r v Hd L Hn F C) as [K C'].
    split; [|exact C']. cbn [dsyntax_of]. rewrite (own_ident t v W), K, <- E. reflexivity.
  - intros A t IH W Wr Cn h c n d r v Hd L Hn _ (-> & -> & es & -> & F) C. cbn [dparser_of] in C.
    apply vec_der_ok in C as (K & _ & R); [|apply (so_parser (proj1 derive_sound A t W true))|exact Hd]. rewrite K. split; [reflexivity|].
    apply (back_items (dframed t) _ _ _ _ (object_back t W (IH W Wr Cn))); try assumption.
    intros e (c & n & H). exact (headed_nonempty _ _ _ _ H).
  - intros A set fs IH W Wr Cn h c n d r v Hd L Hn _ (-> & -> & F) C. cbn [dparser_of] in C.
    unfold struct_parser in C. cbn [default_parser codec_parser ps_der_content der_content] in C. unfold struct_content in C.
    apply bind_ok in C as ([] & K & C). apply assert_constructed_ok in K. rewrite K. split; [reflexivity|].
    exact (proj2 (IH W Wr Cn d r v Hd Hn F C)).
  - intros A k vs IH [Nd W] [_ Wr] Cn h c n d r v Hd L Hn [[]|[-> ->]] F C. cbn [dparser_of] in C.
    unfold choice_parser in C. cbn [default_parser codec_parser ps_der_content der_content] in C. unfold choice_content in C.
    assert (Q : (k = Some KExplicit -> h_constructed h = true) /\ der_variants k vs h d = Ok (r, v)).
    { destruct k as [[]|]; [|split; [discriminate|exact C]|split; [discriminate|exact C]].
      apply bind_ok in C as ([] & K & C). apply assert_constructed_ok in K. auto. }
    exact (IH k W Nd Wr Cn h d r v Hd L Hn (proj1 Q) F (proj2 Q)).
  - intros ds W _ _ h c n d r v Hd L Hn _ (-> & ->) C. cbn [dparser_of denum_parser] in C.
    cbn [default_parser codec_parser ps_der_content der_content] in C. unfold denum_content in C.
    apply bind_ok in C as ([] & K & C). apply assert_primitive_ok in K. apply bind_ok in C as ([r' z] & C & E).
    apply (base_canonical BEnum h d r' z I I Hd L) in C as [_ [Rg C]].
    destruct (existsb (N.eqb (Z.to_N z)) ds) eqn:X; [|discriminate]. injection E as _ <-. rewrite K. split; [reflexivity|].
    apply existsb_exists in X as (y & Hy & X). apply N.eqb_eq in X. subst y. split; [exact Hy|].
    rewrite Z2N.id; [exact C|]. destruct Rg as [Rg _]. exact Rg.
  - intros A t IH W Wr Cn h c n d r v Hd L Hn Hc F C. exact (IH W Wr Cn h c n d r v Hd L Hn Hc F C).
  - intros _ _ _ d r [] _ _ -> E. injection E as <-. split; reflexivity.
  - intros A B t IHt fs IHf [W1 W2] [V1 V2] [C1 C2] d r v Hd Hn F E.
    exact (field_back (dframed t) _ _ _ (fields_frame fs) _ (object_back t W1 (IHt W1 V1 C1)) (IHf W2 V2 C2) d r v Hd Hn F E).
  - intros A B t IHt fs IHf _ [].
  - intros A B d0 t IHt fs IHf [W1 W2] [V1 V2] [C1 C2] d r v Hd Hn F E.
    pose proof (proj1 derive_sound A t W1 true) as S.
    refine (field_back (dframed t) _ _ _ (fields_frame fs) _ _ (IHf W2 V2 C2) d r v Hd Hn F E).
    apply (default_back d0 _ (dtags t)); [apply (so_parser S)|exact (so_accept S)| |exact (object_back t W1 (IHt W1 V1 C1))].
    intros e (c & n & H). exists c, n, (dframe t c n). destruct H as (k & idb & lenb & x & S1 & S2 & -> & Fx).
    destruct (proj1 frame_tag A t W1 c n x Fx) as [T1 T2]. split; [exact T1|]. split; [exact T2|]. exists k, idb, lenb, x. auto.
  - intros A B g t IHt fs IHf (G & W1 & W2) [V1 V2] [C1 C2] d r v Hd Hn F E.
    exact (field_back (tag_frame g (dframe t)) _ _ _ (fields_frame fs) _ (tagged_back g t W1 V1 G (IHt W1 V1 C1)) (IHf W2 V2 C2) d r v Hd Hn F E).
  - intros A B g t IHt fs IHf _ [].
  - intros A B g d0 t IHt fs IHf (G & W1 & W2) [V1 V2] [C1 C2] d r v Hd Hn F E.
    refine (field_back (tag_frame g (dframe t)) _ _ _ (fields_frame fs) _ _ (IHf W2 V2 C2) d r v Hd Hn F E).
    apply tagged_default_back; [destruct G; lia| |exact (tagged_back g t W1 V1 G (IHt W1 V1 C1))].
    intros e H. exists (tg_class g). eexists. exact H.
  - intros k _ _ _ _ h d r [].
  - intros A B u t IHt vs IHv k (Hu & Hi & W1 & W2) Nd [V1 V2] [C1 C2] h d r v Hd L Hn K F E.
    pose proof (IHt W1 V1 C1) as CB. pose proof (proj1 derive_sound A t W1 true) as S.
    cbn [vtags] in Nd. destruct (nodup_app _ _ Nd) as [Nd1 Nd2]. cbn [variants_frame] in F.
    destruct F as [F|F].
    + assert (Q : exists x, v = inl x /\ sx_ident (variant_syntax k u (dsyntax_of true t)) x = (h_class h, h_constructed h, h_tag h)
        /\ sx_content (variant_syntax k u (dsyntax_of true t)) x d).
      { destruct k as [[]|]; cbn [der_variants] in E; cbn [variant_syntax].
        - unfold tagged_variant in E. destruct F as (Hc & Ht & F). rewrite Ht, N.eqb_refl in E.
          apply bind_ok in E as ([m x] & E & X). injection X as <- <-. exists x. split; [reflexivity|].
          rewrite <- (app_nil_r d) in E, Hd. destruct (object_back t W1 CB d [] m x Hd Hn F E) as [_ En].
          cbn [explicit_syntax sx_ident sx_content]. rewrite Hc, Ht, (K eq_refl). auto.
        - unfold tagged_variant in E. destruct F as (Hc & Ht & c' & n' & F). rewrite Ht, N.eqb_refl in E.
          apply bind_ok in E as ([m x] & E & X). injection X as <- <-. exists x. split; [reflexivity|].
          destruct (CB h c' n' d m x Hd L Hn (or_introl Hi) F E) as [I C]. cbn [implicit_syntax sx_ident sx_content].
          rewrite I, Hc, Ht. auto.
        - unfold untagged_variant in E. destruct (proj1 frame_tag A t W1 _ _ d F) as [_ Hin]. apply (so_accept S) in Hin. rewrite Hin in E.
          apply bind_ok in E as ([m x] & E & X). injection X as <- <-. exists x. split; [reflexivity|].
          exact (CB h _ _ d m x Hd L Hn (or_intror (conj eq_refl eq_refl)) F E). }
      destruct Q as (x & -> & I & C). split; [exact I|exact C].
    + destruct (proj2 (proj2 frame_tag) _ vs k W2 _ _ d F) as [_ Hin]. apply Nd2 in Hin.
      assert (Q : exists y m, v = inr y /\ der_variants k vs h d = Ok (m, y)).
      { destruct k as [kd|]; cbn [der_variants] in E.
        - unfold tagged_variant in E. destruct (N.eqb_spec (h_tag h) u) as [X|_]; [exfalso; apply Hin; left; congruence|].
          apply bind_ok in E as ([m y] & E & X). injection X as <- <-. eauto.
        - unfold untagged_variant in E. rewrite (proj1 (not_in_accept _ _ _ (so_accept S)) Hin) in E.
          apply bind_ok in E as ([m y] & E & X). injection X as <- <-. eauto. }
      destruct Q as (y & m & -> & Q). exact (IHv k W2 Nd1 V2 C2 h d m y Hd L Hn K F Q).
Qed.

Theorem C86_derived_partial {A} (t : dty A) (i x rem : bytes) (v : A) :
  dwf t -> writable t -> dcanonical t -> bytes_ok (i ++ x) -> blen i < 2 ^ 24 -> dframed t i ->
  ps_parse_der (dparser_of t) (i ++ x) = Ok (rem, v) ->
  rem = x /\ encodes (dsyntax_of true t) v i /\ to_vec (wr_der (dwriter_of t) v) = Ok i /\ to_vec (wr_ber (dwriter_of t) v) = Ok i.
Proof.
  intros W Wr Cn Hi Hn F E.
  destruct (object_back t W (proj1 derived_back A t W Wr Cn) i x rem v Hi ltac:(lia) F E) as [-> En].
  split; [reflexivity|]. split; [exact En|]. destruct (C65_derived_roundtrip_partial t v i W Wr En Hn) as (W1 & W2 & _). auto.
Qed.
Print Assumptions C86_derived_partial.

Theorem C86_derived_injective {A} (t : dty A) (i j x y rx ry : bytes) (v : A) :
  dwf t -> writable t -> dcanonical t -> bytes_ok (i ++ x) -> bytes_ok (j ++ y) -> blen i < 2 ^ 24 -> blen j < 2 ^ 24 ->
  dframed t i -> dframed t j ->
  ps_parse_der (dparser_of t) (i ++ x) = Ok (rx, v) -> ps_parse_der (dparser_of t) (j ++ y) = Ok (ry, v) -> i = j.
Proof.
  intros W Wr C Hi Hj Ni Nj Fi Fj Ei Ej.
  destruct (C86_derived_partial t i x rx v W Wr C Hi Ni Fi Ei) as (_ & _ & E1 & _).
  destruct (C86_derived_partial t j y ry v W Wr C Hj Nj Fj Ej) as (_ & _ & E2 & _). congruence.
Qed.
Print Assumptions C86_derived_injective.

(** Missing, with right headers: octets after the last component, a component with a default value left out,
    a variant of another class. *)
Theorem C86_derived_refuted :
  let rewritten A (t : dty A) i i' := exists v,
    ps_parse_der (dparser_of t) i = Ok ([], v) /\ to_vec (wr_der (dwriter_of t) v) = Ok i' /\ i <> i' in
  rewritten _ bool_type [0x30; 5; 1; 1; 0xff; 5; 0] [0x30; 3; 1; 1; 0xff]
  /\ rewritten _ default_uint [0x30; 0] [0x30; 5; 0xa0; 3; 2; 1; 0]
  /\ rewritten _ choice_type [0x81; 1; 0xff] [1; 1; 0xff].
Proof. cbv zeta. repeat split; eexists; (split; [vm_compute; reflexivity|]); (split; [vm_compute; reflexivity|discriminate]). Qed.
Print Assumptions C86_derived_refuted.

Lemma headed_low c k n (F : bytes -> Prop) b l d : n < 31 -> l < 128 -> b = ident_first c k n -> l = blen d ->
  F d -> headed c n F (b :: l :: d).
Proof.
  intros Hn Hl -> -> H. exists k, [ident_first c k n], [blen d], d.
  split; [apply ids_low; exact Hn|]. split; [apply los_short; exact Hl|]. auto.
Qed.
Lemma fits_low c n d : n < 31 -> blen d < 126 -> fits_own c n d.
Proof.
  intros Hn Hd k idb lenb S1 S2. rewrite (ident_shortest_unique _ _ _ _ _ S1 (ids_low c k n Hn)).
  assert (Hd' : blen d < 128) by lia. rewrite (length_shortest_unique _ _ _ S2 (los_short _ Hd')).
  unfold same_size. rewrite !blen_app. change (blen [ident_first c k n]) with 1. change (blen [blen d]) with 1. lia.
Qed.

Example C86_derived_case :
  dwf outer_type /\ writable outer_type /\ dcanonical outer_type /\ dframed outer_type outer_octets
  /\ ps_parse_der (dparser_of outer_type) (outer_octets ++ [7]) = Ok ([7], outer_value)
  /\ to_vec (wr_der (dwriter_of outer_type) outer_value) = Ok outer_octets.
Proof.
  split; [exact outer_wf|]. split; [cbn; tauto|].
  split; [cbn; repeat split|].
  split; [|split; vm_compute; reflexivity].
  exists Universal, 16. apply (headed_low _ true); [lia|lia|reflexivity|reflexivity|]. split; [reflexivity|]. split; [reflexivity|].
  exists [0xa0; 3; 2; 1; 2], [2; 1; 0xfb; 0x81; 3; 1; 2; 3; 0x31; 7; 10; 1; 3; 4; 2; 65; 66]. split; [reflexivity|].
  split; [|exists [2; 1; 0xfb], [0x81; 3; 1; 2; 3; 0x31; 7; 10; 1; 3; 4; 2; 65; 66]; split; [reflexivity|];
  split; [|exists [0x81; 3; 1; 2; 3], [0x31; 7; 10; 1; 3; 4; 2; 65; 66]; split; [reflexivity|];
  split; [|exists [0x31; 7; 10; 1; 3; 4; 2; 65; 66], []; split; [reflexivity|]; split; [|reflexivity]]]].
  - apply (headed_low ContextSpecific true); [cbn; lia|lia|reflexivity|reflexivity|].
    exists Universal, 2. apply (headed_low _ false); [lia|lia|reflexivity|reflexivity|]. split; [reflexivity|exact I].
  - exists Universal, 2. apply (headed_low _ false); [lia|lia|reflexivity|reflexivity|]. split; [reflexivity|exact I].
  - apply (headed_low ContextSpecific false); [cbn; lia|lia|reflexivity|reflexivity|].
    exists Universal, 4. split; [split; [reflexivity|exact I]|]. apply fits_low; [lia|reflexivity].
  - exists Universal, 17. apply (headed_low _ true); [lia|lia|reflexivity|reflexivity|]. split; [reflexivity|]. split; [reflexivity|].
    exists [10; 1; 3], [4; 2; 65; 66]. split; [reflexivity|]. split.
    + exists Universal, 10. apply (headed_low _ false); [lia|lia|reflexivity|reflexivity|]. split; reflexivity.
    + exists [4; 2; 65; 66], []. split; [reflexivity|]. split; [|reflexivity]. exists Universal, 4.
      apply (headed_low _ false); [lia|lia|reflexivity|reflexivity|]. right. left. split; [reflexivity|exact I].
Qed.

(** ** C87 for derived types: a value read is a value of the type *)

(** Types whose readers give values of the type only; a default value has to be one itself. *)
Fixpoint drewritable {A} (t : dty A) : Prop :=
  match t with
  | DTy t => rewritable t
  | DVec t => drewritable t
  | DStruct _ fs => fields_rewritable fs
  | DChoice _ vs => variants_rewritable vs
  | DEnum _ => True
  | DAlias t => drewritable t
  end
with fields_rewritable {A} (fs : dfields A) : Prop :=
  match fs with
  | FNil => True
  | FPlain t fs => drewritable t /\ fields_rewritable fs
  | FOption t fs => drewritable t /\ fields_rewritable fs
  | FDefault d t fs => sx_valid (dsyntax_of false t) d /\ drewritable t /\ fields_rewritable fs
  | FTagged _ t fs => drewritable t /\ fields_rewritable fs
  | FTaggedOption _ t fs => drewritable t /\ fields_rewritable fs
  | FTaggedDefault _ d t fs => sx_valid (dsyntax_of false t) d /\ drewritable t /\ fields_rewritable fs
  end
with variants_rewritable {A} (vs : dvariants A) : Prop :=
  match vs with
  | VNil => True
  | VCons _ t vs => drewritable t /\ variants_rewritable vs
  end.

Definition content_valid {A} (t : dty A) : Prop := forall h d r v,
  bytes_ok d -> PSeg.fits h d -> ps_ber_content (dparser_of t) h d = Ok (r, v) -> sx_valid (dsyntax_of false t) v.

Lemma object_valid {A} (t : dty A) : content_valid t -> forall i rem v, bytes_ok i -> ps_parse_ber (dparser_of t) i = Ok (rem, v) ->
  sx_valid (dsyntax_of false t) v.
Proof.
  intros H i rem v Hi E. rewrite (proj1 (dregular t)) in E.
  apply (default_parse_ber_ok (ps_accept (dparser_of t)) _ (ps_der_content (dparser_of t))) in E as (a & r & E & _ & C).
  destruct (any_ber_fits _ _ _ Hi E) as [Hd Hf]. exact (H _ _ _ _ Hd Hf C).
Qed.

Lemma tagged_valid {A} g (t : dty A) : content_valid t -> forall i rem v, bytes_ok i ->
  ps_parse_ber (tagged_parser g (dparser_of t)) i = Ok (rem, v) -> sx_valid (tagged_syntax false g (dsyntax_of false t)) v.
Proof.
  intros H i rem v Hi. unfold tagged_parser, tagged_syntax. destruct (tg_kind g); intros E;
    apply default_parse_ber_ok in E as (a & r & E & _ & C); destruct (any_ber_fits _ _ _ Hi E) as [Hd Hf].
  - apply explicit_content_ok in C as (_ & _ & _ & C). exact (object_valid t H _ _ _ Hd C).
  - apply implicit_content_ok in C as (_ & C). exact (H _ _ _ _ Hd Hf C).
Qed.

Lemma tagged_valid_eq {A} g (S : syntax A) v : sx_valid (tagged_syntax false g S) v = sx_valid S v.
Proof. unfold tagged_syntax. destruct (tg_kind g); reflexivity. Qed.

Lemma derived_valid :
  (forall A (t : dty A), dwf t -> drewritable t -> content_valid t)
  /\ (forall A (fs : dfields A), fields_wf fs -> fields_rewritable fs -> forall d r v,
        bytes_ok d -> reads_fields false fs v d r -> valid_fields false fs v)
  /\ (forall A (vs : dvariants A), forall k, variants_wf k vs -> variants_rewritable vs -> forall h d r v,
        bytes_ok d -> PSeg.fits h d -> ber_variants k vs h d = Ok (r, v) -> sx_valid (variants_syntax false k vs) v).
Proof.
  apply dty_mutind.
  - intros A t W R h d r v Hd Hf E. exact (typed_valid t W R h d r v Hd Hf E).
  - intros A t IH W R h d r v Hd _ E. cbn [dparser_of] in E. apply vec_ber_ok in E as (_ & _ & E); [|apply dregular|exact Hd].
    change (Forall (sx_valid (dsyntax_of false t)) v).
    induction E as [|i rem x vs Hne E Es IHE]; constructor; [exact (object_valid t (IH W R) _ _ _ Hd E)|].
    apply IHE. exact (parse_rest false _ _ _ _ (dregular t) Hd E).
  - intros A set fs IH W R h d r v Hd Hf E. cbn [dparser_of] in E. unfold struct_parser in E.
    cbn [default_parser codec_parser ps_ber_content ber_content] in E. unfold struct_content in E. apply bind_ok in E as ([] & _ & E).
    apply (fields_reads fs W false v d r Hd) in E. exact (IH W R d r v Hd E).
  - intros A k vs IH [_ W] R h d r v Hd Hf E. cbn [dparser_of] in E. unfold choice_parser in E.
    cbn [default_parser codec_parser ps_ber_content ber_content] in E. unfold choice_content in E.
    apply (IH k W R h d r v Hd Hf). destruct k as [[]|]; [|exact E|exact E]. apply bind_ok in E as ([] & _ & E). exact E.
  - intros ds W _ h d r v Hd Hf E. cbn [dparser_of denum_parser] in E.
    cbn [default_parser codec_parser ps_ber_content ber_content] in E. unfold denum_content in E.
    apply bind_ok in E as ([] & _ & E). apply bind_ok in E as ([r' z] & _ & E).
    destruct (existsb (N.eqb (Z.to_N z)) ds) eqn:X; [|discriminate]. injection E as _ <-.
    apply existsb_exists in X as (y & Hy & X). apply N.eqb_eq in X. subst y. exact Hy.
  - intros A t IH W R h d r v Hd Hf E. exact (IH W R h d r v Hd Hf E).
  - intros _ _ d r v _ _. exact I.
  - intros A B t IHt fs IHf [W1 W2] [R1 R2] d r v Hd (m & E & F). split; [exact (object_valid t (IHt W1 R1) _ _ _ Hd E)|].
    apply (IHf W2 R2 m r (snd v)); [exact (parse_rest false _ _ _ _ (dregular t) Hd E)|exact F].
  - intros A B t IHt fs IHf [W1 W2] [R1 R2] d r [o y] Hd (m & E & F). cbn [fst snd optional_read] in E, F. cbn [valid_fields fst snd].
    destruct o as [x|].
    + destruct E as [_ E]. split; [exact (object_valid t (IHt W1 R1) _ _ _ Hd E)|].
      apply (IHf W2 R2 m r y); [exact (parse_rest false _ _ _ _ (dregular t) Hd E)|exact F].
    + destruct E as [_ ->]. split; [exact I|]. exact (IHf W2 R2 d r y Hd F).
  - intros A B d0 t IHt fs IHf [W1 W2] (R0 & R1 & R2) d r [x y] Hd (m & E & F). cbn [fst snd] in E, F. cbn [valid_fields fst snd].
    destruct E as [[_ E]|(_ & -> & ->)].
    + split; [exact (object_valid t (IHt W1 R1) _ _ _ Hd E)|].
      apply (IHf W2 R2 m r y); [exact (parse_rest false _ _ _ _ (dregular t) Hd E)|exact F].
    + split; [exact R0|]. exact (IHf W2 R2 d r y Hd F).
  - intros A B g t IHt fs IHf (_ & W1 & W2) [R1 R2] d r v Hd (m & E & F). split; [exact (tagged_valid g t (IHt W1 R1) _ _ _ Hd E)|].
    apply (IHf W2 R2 m r (snd v)); [exact (parse_rest false _ _ _ _ (tagged_regular g _) Hd E)|exact F].
  - intros A B g t IHt fs IHf (_ & W1 & W2) [R1 R2] d r [o y] Hd (m & E & F). cbn [fst snd optional_read] in E, F. cbn [valid_fields fst snd].
    destruct o as [x|].
    + destruct E as [_ E]. split; [exact (tagged_valid g t (IHt W1 R1) _ _ _ Hd E)|].
      apply (IHf W2 R2 m r y); [exact (parse_rest false _ _ _ _ (tagged_regular g _) Hd E)|exact F].
    + destruct E as [_ ->]. split; [exact I|]. exact (IHf W2 R2 d r y Hd F).
  - intros A B g d0 t IHt fs IHf (_ & W1 & W2) (R0 & R1 & R2) d r [x y] Hd (m & E & F). cbn [fst snd] in E, F. cbn [valid_fields fst snd].
    destruct E as [[_ E]|(_ & -> & ->)].
    + split; [exact (tagged_valid g t (IHt W1 R1) _ _ _ Hd E)|].
      apply (IHf W2 R2 m r y); [exact (parse_rest false _ _ _ _ (tagged_regular g _) Hd E)|exact F].
    + split; [rewrite tagged_valid_eq; exact R0|]. exact (IHf W2 R2 d r y Hd F).
  - intros k _ _ h d r [].
  - intros A B u t IHt vs IHv k (_ & _ & W1 & W2) [R1 R2] h d r v Hd Hf E. pose proof (IHt W1 R1) as CV.
    assert (Q : (exists x m, v = inl x /\ (ps_parse_ber (dparser_of t) d = Ok (m, x) \/ ps_ber_content (dparser_of t) h d = Ok (m, x)))
                \/ exists y m, v = inr y /\ ber_variants k vs h d = Ok (m, y)).
    { destruct k as [[]|]; cbn [ber_variants] in E; unfold tagged_variant, untagged_variant in E;
        match type of E with (if ?b then _ else _) = _ => destruct b end;
        apply bind_ok in E as ([m x] & E & X); injection X as <- <-; eauto 8. }
    destruct Q as [(x & m & -> & Q)|(y & m & -> & Q)].
    + assert (V : sx_valid (dsyntax_of false t) x) by (destruct Q as [Q|Q]; [exact (object_valid t CV _ _ _ Hd Q)|exact (CV _ _ _ _ Hd Hf Q)]).
      cbn [variants_syntax sum_syntax sx_valid]. destruct k as [[]|]; exact V.
    + exact (IHv k W2 R2 h d m y Hd Hf Q).
Qed.

Theorem C87_derived_valid {A} (t : dty A) (i rem : bytes) (v : A) :
  dwf t -> drewritable t -> bytes_ok i ->
  ps_parse_ber (dparser_of t) i = Ok (rem, v) \/ ps_parse_der (dparser_of t) i = Ok (rem, v) -> sx_valid (dsyntax_of false t) v.
Proof.
  intros W R Hi E. apply (object_valid t (proj1 derived_valid A t W R) i rem v Hi).
  destruct E as [E|E]; [exact E|]. apply C81_derived; assumption.
Qed.
Print Assumptions C87_derived_valid.

(** Types without implicitly tagged components (whose length may be computed wrongly: [C65_implicit_refuted]). *)
Fixpoint no_implicit {A} (t : dty A) : Prop :=
  match t with
  | DTy _ | DEnum _ => True
  | DVec t => no_implicit t
  | DStruct _ fs => fields_no_implicit fs
  | DChoice _ vs => variants_no_implicit vs
  | DAlias t => no_implicit t
  end
with fields_no_implicit {A} (fs : dfields A) : Prop :=
  match fs with
  | FNil => True
  | FPlain t fs => no_implicit t /\ fields_no_implicit fs
  | FOption t fs => no_implicit t /\ fields_no_implicit fs
  | FDefault _ t fs => no_implicit t /\ fields_no_implicit fs
  | FTagged g t fs => tg_kind g = KExplicit /\ no_implicit t /\ fields_no_implicit fs
  | FTaggedOption g t fs => tg_kind g = KExplicit /\ no_implicit t /\ fields_no_implicit fs
  | FTaggedDefault g _ t fs => tg_kind g = KExplicit /\ no_implicit t /\ fields_no_implicit fs
  end
with variants_no_implicit {A} (vs : dvariants A) : Prop :=
  match vs with
  | VNil => True
  | VCons _ t vs => no_implicit t /\ variants_no_implicit vs
  end.

Lemma valid_written :
  (forall A (t : dty A), no_implicit t -> forall v, sx_valid (dsyntax_of false t) v -> sx_valid (dsyntax_of true t) v)
  /\ (forall A (fs : dfields A), fields_no_implicit fs -> forall v, valid_fields false fs v -> valid_fields true fs v)
  /\ (forall A (vs : dvariants A), variants_no_implicit vs -> forall k v, sx_valid (variants_syntax false k vs) v -> sx_valid (variants_syntax true k vs) v).
Proof.
  assert (T : forall A g (t : dty A) v, tg_kind g = KExplicit -> (sx_valid (dsyntax_of false t) v -> sx_valid (dsyntax_of true t) v) ->
    sx_valid (tagged_syntax false g (dsyntax_of false t)) v -> sx_valid (tagged_syntax true g (dsyntax_of true t)) v).
  { intros A g t v E H. unfold tagged_syntax. rewrite E. exact H. }
  apply dty_mutind.
  - intros A t _ v H. exact H.
  - intros A t IH N v H. cbn in H |- *. eapply Forall_impl; [|exact H]. exact (IH N).
  - intros A set fs IH N v H. exact (IH N v H).
  - intros A k vs IH N v H. exact (IH N k v H).
  - intros ds _ v H. exact H.
  - intros A t IH N v H. exact (IH N v H).
  - intros _ v _. exact I.
  - intros A B t IHt fs IHf [N1 N2] v [H1 H2]. split; [exact (IHt N1 _ H1)|exact (IHf N2 _ H2)].
  - intros A B t IHt fs IHf [N1 N2] [[x|] y] [H1 H2]; (split; [|exact (IHf N2 _ H2)]); [exact (IHt N1 _ H1)|exact I].
  - intros A B d t IHt fs IHf [N1 N2] v [H1 H2]. split; [exact (IHt N1 _ H1)|exact (IHf N2 _ H2)].
  - intros A B g t IHt fs IHf (G & N1 & N2) v [H1 H2]. split; [exact (T _ g t _ G (IHt N1 _) H1)|exact (IHf N2 _ H2)].
  - intros A B g t IHt fs IHf (G & N1 & N2) [[x|] y] [H1 H2]; (split; [|exact (IHf N2 _ H2)]); [exact (T _ g t _ G (IHt N1 _) H1)|exact I].
  - intros A B g d t IHt fs IHf (G & N1 & N2) v [H1 H2]. split; [exact (T _ g t _ G (IHt N1 _) H1)|exact (IHf N2 _ H2)].
  - intros _ k [].
  - intros A B u t IHt vs IHv [N1 N2] k [x|y]; cbn [variants_syntax sum_syntax sx_valid].
    + destruct k as [[]|]; exact (IHt N1 x).
    + exact (IHv N2 k y).
Qed.

Theorem C87_derived_partial {A} (t : dty A) (i rem : bytes) (v : A) (n : N) :
  dwf t -> drewritable t -> writable t -> no_implicit t -> bytes_ok i ->
  ps_parse_ber (dparser_of t) i = Ok (rem, v) \/ ps_parse_der (dparser_of t) i = Ok (rem, v) ->
  total_len (wr_der (dwriter_of t) v) = Definite n -> n < 2 ^ 24 ->
  exists enc, encodes (dsyntax_of true t) v enc /\ blen enc = n /\ to_vec (wr_der (dwriter_of t) v) = Ok enc /\ dreads t enc v.
Proof.
  intros W R Wr N Hi E L Hn. pose proof (C87_derived_valid t i rem v W R Hi E) as V.
  exact (C65_derived_total_partial t v n W Wr (proj1 valid_written A t N v V) L Hn).
Qed.
Print Assumptions C87_derived_partial.

(** Missing: an optional component that is present cannot be written; a component under an implicit tag, with
    126 octets of content, is written with a length that cannot be read. *)
Theorem C87_derived_refuted :
  (exists v, ps_parse_ber (dparser_of optional_bool) [0x30; 3; 1; 1; 0xff] = Ok ([], v) /\ encode (wr_der (dwriter_of optional_bool) v) = Panic)
  /\ (exists i i' v, ps_parse_ber (dparser_of implicit_octets) i = Ok ([], v) /\ to_vec (wr_der (dwriter_of implicit_octets) v) = Ok i'
       /\ forall x, ps_parse_der (dparser_of implicit_octets) i' <> Ok x).
Proof.
  split; [exists (Some true, tt); split; vm_compute; reflexivity|].
  exists (0x30 :: 0x81 :: 128 :: 0x81 :: 126 :: repeat 7 126), (0x30 :: 0x81 :: 129 :: 0x81 :: 126 :: repeat 7 126), (repeat 7 126, tt).
  split; [vm_compute; reflexivity|]. split; [vm_compute; reflexivity|]. intros x. vm_compute. discriminate.
Qed.
Print Assumptions C87_derived_refuted.

(** Indefinite lengths, long lengths, a segmented OCTET STRING, redundant octets, a default left out. *)
Example C87_derived_case :
  let t := DStruct false (FTaggedDefault (explicit_ctx 0) 4%Z (DTy (TBase (BUint 1))) (FPlain choice_type FNil)) in
  let i := [0x30; 0x80; 0x24; 0x80; 4; 1; 65; 4; 0x81; 1; 66; 0; 0; 0; 0] in
  dwf t /\ drewritable t /\ writable t /\ no_implicit t
  /\ ps_parse_ber (dparser_of t) i = Ok ([], (4%Z, (inr (inl [65; 66]), tt)))
  /\ total_len (wr_der (dwriter_of t) (4%Z, (inr (inl [65; 66]), tt))) = Definite 11
  /\ to_vec (wr_der (dwriter_of t) (4%Z, (inr (inl [65; 66]), tt))) = Ok [0x30; 9; 0xa0; 3; 2; 1; 4; 4; 2; 65; 66].
Proof.
  cbv zeta. split.
  { cbn. unfold tagging_ok. cbn. repeat split; try lia; repeat constructor; cbn; try lia; intuition (try lia; try discriminate). }
  split; [cbn; repeat split; unfold in_unsigned; cbn; lia|]. split; [cbn; tauto|]. split; [cbn; tauto|].
  split; [vm_compute; reflexivity|]. split; vm_compute; reflexivity.
Qed.
