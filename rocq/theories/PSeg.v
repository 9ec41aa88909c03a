(** Proofs about segmented strings, OCTET STRING and BIT STRING. *)
From Verif Require Import Base MHeader MEncode SHeader PArith PHeader PEncode MBer SBer PBer PIter
  MInt PCodec PInt MSeg SSeg.

(** A header announcing the content it comes with. *)
Definition fits (h : header) (d : bytes) : Prop :=
  match h_length h with Definite n => blen d = n | Indefinite => h_constructed h = true end.

Lemma blen0 {A} (l : list A) : (blen l =? 0) = true <-> l = [].
Proof. unfold blen. destruct l; cbn [length]; split; intros; try discriminate; try reflexivity; lia. Qed.

Lemma get_content_exact h d n :
  h_length h = Definite n -> blen d = n -> ber_get_content h d = Ok ([], d).
Proof.
  intros Hl Hn. unfold ber_get_content, ber_object_content, MAX_RECURSION. cbn [skip_content]. rewrite Hl. cbn [is_definite].
  destruct ((n =? 0) && (h_tag h =? TagEndOfContent)) eqn:E.
  - cbn [bind]. assert (d = []) as -> by (destruct d; [reflexivity|unfold blen in Hn; cbn in Hn; lia]). reflexivity.
  - rewrite <- Hn, take_all. cbn [bind length]. rewrite Nat.sub_0_r, skipn_all, firstn_all. reflexivity.
Qed.

Lemma any_parse_ber_ok i r a :
  bytes_ok i ->
  (any_parse_ber i = Ok (r, a) <->
   exists c k t l idb lenb bs,
     readable_header c k t l idb lenb /\ i = idb ++ lenb ++ bs ++ r /\ impl_contents 50 l bs
     /\ a = mk_any (hdr c k t l idb lenb) (content_of l bs)).
Proof. intros Hi. rewrite any_parse_ber_eq by exact Hi. apply parse_ber_any_ok. exact Hi. Qed.

Lemma close_ok {A} (r : res A) a : close r = Ok a <-> r = Ok a.
Proof. destruct r; cbn; split; intros; try discriminate; assumption. Qed.

Lemma content_fits c k t l idb lenb bs :
  readable_header c k t l idb lenb -> impl_contents 50 l bs -> fits (hdr c k t l idb lenb) (content_of l bs).
Proof.
  intros [(_ & _ & H) _] Hc. unfold fits, hdr. cbn [h_length h_constructed]. destruct l as [n|].
  - eapply contents_definite_len. exact Hc.
  - apply H. reflexivity.
Qed.

Lemma readable_nonempty c k t l idb lenb : readable_header c k t l idb lenb -> (2 <= length (idb ++ lenb))%nat.
Proof.
  intros [(H1 & H2 & _) _]. apply ident_octets_len in H1. apply length_octets_len in H2.
  rewrite app_length. unfold blen in *. lia.
Qed.

Section Segmented.
  Context {T X : Type} (tag : N) (accept : N -> bool) (dflt : T) (append : T -> T -> T).
  Context (prim : header -> bytes -> res (bytes * T)) (P : bytes -> list X -> Prop).
  Context (val_of : T -> list X) (good : T -> Prop).
  Hypothesis Htag : forall x, accept x = is_tag tag x.
  Hypothesis Htag0 : tag <> 0.
  Hypothesis Hdflt : good dflt /\ val_of dflt = [].
  Hypothesis Happ : forall a b, good a -> good (append a b) /\ val_of (append a b) = val_of a ++ val_of b.
  Hypothesis Hprim_sound : forall h d r t, bytes_ok d -> d <> [] -> h_constructed h = false ->
    h_length h = Definite (blen d) -> prim h d = Ok (r, t) -> P d (val_of t).
  Hypothesis Hprim_complete : forall h d v, bytes_ok d -> d <> [] -> h_constructed h = false ->
    h_length h = Definite (blen d) -> P d v -> exists r t, prim h d = Ok (r, t) /\ val_of t = v.

  Notation segmented := (parse_ber_segmented accept dflt append prim).

  Lemma seg_loop_sound s d :
    (forall h i r t, bytes_ok i -> fits h i -> s h i = Ok (r, t) -> seg tag P d (h_constructed h) i (val_of t)) ->
    forall fuel data v t, bytes_ok data -> good v -> seg_loop accept append s fuel data v = Ok t ->
    exists vs, segs tag P d data vs /\ val_of t = val_of v ++ vs.
  Proof using Happ Htag.
    intros Hs. induction fuel as [|fuel IH]; intros data v t Hok Hg E; [discriminate|]. cbn [seg_loop] in E.
    destruct (blen data =? 0) eqn:E0.
    { apply blen0 in E0. subst data. injection E as <-. exists []. split; [constructor|]. rewrite app_nil_r. reflexivity. }
    apply bind_ok in E as ([rem obj] & E1 & E). apply (proj1 (close_ok _ _)) in E1.
    apply any_parse_ber_ok in E1 as (c & k & u & l & idb & lenb & bs & HR & -> & Hc & ->); [|exact Hok].
    cbn [any_header any_data] in E. unfold hdr in E at 1. cbn [h_tag] in E.
    destruct (N.eqb_spec (u mod 2 ^ 32) TagEndOfContent) as [E2|E2].
    { injection E as <-. exists []. split; [eapply segs_stop; eassumption|]. rewrite app_nil_r. reflexivity. }
    unfold hdr in E at 1. cbn [h_tag] in E. rewrite Htag in E. destruct (is_tag tag (u mod 2 ^ 32)) eqn:E3; [|discriminate].
    apply is_tag_iff in E3. cbn [negb] in E. rewrite !bytes_ok_app in Hok. destruct Hok as (_ & _ & Hb & Hr).
    destruct (blen (content_of l bs) =? 0) eqn:E4.
    - apply blen0 in E4. destruct (IH _ _ _ Hr Hg E) as (vs & V1 & V2). exists vs.
      split; [eapply segs_skip; eassumption|exact V2].
    - apply bind_ok in E as ([r' part] & E5 & E).
      pose proof (Hs _ _ _ _ (content_of_ok l bs Hb) (content_fits _ _ _ _ _ _ _ HR Hc) E5) as HS.
      destruct (Happ v part Hg) as [Hg' Hv].
      destruct (IH _ _ _ Hr Hg' E) as (vs & V1 & V2). exists (val_of part ++ vs).
      split; [eapply segs_cons; eassumption|]. rewrite V2, Hv, app_assoc. reflexivity.
  Qed.

  Lemma segmented_sound d : forall h i r t, bytes_ok i -> fits h i -> segmented d h i = Ok (r, t) ->
    seg tag P d (h_constructed h) i (val_of t) /\ r = [].
  Proof using Happ Hdflt Hprim_sound Htag.
    induction d as [|d IH]; intros h i r t Hi Hf E; [discriminate|]. cbn [parse_ber_segmented] in E.
    destruct (blen i =? 0) eqn:E0; [discriminate|].
    assert (Hne : i <> []) by (intros ->; discriminate).
    destruct (h_constructed h) eqn:Hk.
    - assert (E1 : (if is_definite (h_length h) then ber_get_content h i else Ok ([], i)) = Ok ([], i)).
      { unfold fits in Hf. destruct (h_length h) as [n|] eqn:Hl; cbn [is_definite]; [|reflexivity].
        eapply get_content_exact; eassumption. }
      rewrite E1 in E. cbn [bind] in E. apply bind_ok in E as (v & E & E2). injection E2 as <- <-.
      destruct (seg_loop_sound (segmented d) d) with (fuel := S (length i)) (data := i) (v := dflt) (t := v)
        as (vs & V1 & V2); try assumption; try apply Hdflt.
      { intros h' i' r' t' H1 H2 H3. apply (IH h' i' r' t' H1 H2 H3). }
      split; [|reflexivity]. destruct Hdflt as [_ Hd]. rewrite V2, Hd. cbn [app]. apply seg_constructed; assumption.
    - unfold fits in Hf. destruct (h_length h) as [n|] eqn:Hl; [|congruence].
      rewrite (get_content_exact h i n Hl Hf) in E. cbn [bind] in E. apply bind_ok in E as ([r' t'] & E & E2).
      injection E2 as <- <-. split; [|reflexivity]. apply seg_primitive; [assumption|].
      eapply Hprim_sound; try eassumption. rewrite Hl, Hf. reflexivity.
  Qed.

  Lemma seg_loop_fuel s f f' data v :
    bytes_ok data -> (length data < f)%nat -> (length data < f')%nat ->
    seg_loop accept append s f data v = seg_loop accept append s f' data v.
  Proof using Happ Hprim_complete Hprim_sound Htag Htag0.
    revert f' data v. induction f as [|f IH]; intros f' data v Hok Hf Hf'; [lia|].
    destruct f' as [|f']; [lia|]. cbn [seg_loop].
    destruct (blen data =? 0); [reflexivity|].
    destruct (any_parse_ber data) as [[rem obj]|e|n|] eqn:E; cbn [close bind]; try reflexivity.
    apply any_parse_ber_ok in E as (c & k & u & l & idb & lenb & bs & HR & -> & Hc & ->); [|exact Hok].
    pose proof (readable_nonempty _ _ _ _ _ _ HR) as HL. rewrite !app_length in *.
    rewrite !bytes_ok_app in Hok. destruct Hok as (_ & _ & _ & Hr).
    destruct (_ =? TagEndOfContent); [reflexivity|]. destruct (negb _); [reflexivity|].
    destruct (blen _ =? 0); [apply IH; try assumption; lia|].
    destruct (s _ _) as [[r' part]|e|n|]; cbn [bind]; try reflexivity. apply IH; try assumption; lia.
  Qed.

  Lemma segmented_complete :
    (forall d k i v, seg tag P d k i v -> forall h, bytes_ok i -> fits h i -> h_constructed h = k ->
       exists t, segmented d h i = Ok ([], t) /\ val_of t = v)
    /\ (forall d data vs, segs tag P d data vs -> forall v, bytes_ok data -> good v ->
       exists t, seg_loop accept append (segmented d) (S (length data)) data v = Ok t
                 /\ val_of t = val_of v ++ vs).
  Proof using All.
    apply (seg_segs_ind X tag P
      (fun d k i v _ => forall h, bytes_ok i -> fits h i -> h_constructed h = k ->
         exists t, segmented d h i = Ok ([], t) /\ val_of t = v)
      (fun d data vs _ => forall v, bytes_ok data -> good v ->
         exists t, seg_loop accept append (segmented d) (S (length data)) data v = Ok t
                   /\ val_of t = val_of v ++ vs)).
    - intros d i v Hne HP h Hi Hf Hk. cbn [parse_ber_segmented].
      destruct (blen i =? 0) eqn:E0; [apply blen0 in E0; congruence|]. rewrite Hk.
      unfold fits in Hf. destruct (h_length h) as [n|] eqn:Hl; [|congruence].
      rewrite (get_content_exact h i n Hl Hf). cbn [bind].
      destruct (Hprim_complete h i v) as (r & t & E & V); try assumption; [rewrite Hl, Hf; reflexivity|].
      rewrite E. cbn [bind]. eauto.
    - intros d i v Hne _ IH h Hi Hf Hk. cbn [parse_ber_segmented].
      destruct (blen i =? 0) eqn:E0; [apply blen0 in E0; congruence|]. rewrite Hk.
      assert (E1 : (if is_definite (h_length h) then ber_get_content h i else Ok ([], i)) = Ok ([], i)).
      { unfold fits in Hf. destruct (h_length h) as [n|] eqn:Hl; cbn [is_definite]; [|reflexivity].
        eapply get_content_exact; eassumption. }
      rewrite E1. cbn [bind]. destruct (IH dflt Hi (proj1 Hdflt)) as (t & E & V). rewrite E. cbn [bind].
      exists t. split; [reflexivity|]. rewrite V, (proj2 Hdflt). reflexivity.
    - intros d v _ _. exists v. split; [reflexivity|]. rewrite app_nil_r. reflexivity.
    - intros d c k u l idb lenb bs rest HR Hc Hu v Hok Hg.
      assert (E : any_parse_ber (idb ++ lenb ++ bs ++ rest) = Ok (rest, mk_any (hdr c k u l idb lenb) (content_of l bs))).
      { apply any_parse_ber_ok; [exact Hok|]. exists c, k, u, l, idb, lenb, bs. auto. }
      exists v. rewrite app_nil_r. split; [|reflexivity]. cbn [seg_loop].
      destruct (blen (idb ++ lenb ++ bs ++ rest) =? 0) eqn:E0; [reflexivity|].
      rewrite E. cbn [close bind any_header]. unfold hdr. cbn [h_tag]. rewrite Hu. reflexivity.
    - intros d c k u l idb lenb bs rest vs HR Hc Hu Hd _ IH v Hok Hg.
      assert (E : any_parse_ber (idb ++ lenb ++ bs ++ rest) = Ok (rest, mk_any (hdr c k u l idb lenb) (content_of l bs))).
      { apply any_parse_ber_ok; [exact Hok|]. exists c, k, u, l, idb, lenb, bs. auto. }
      pose proof (readable_nonempty _ _ _ _ _ _ HR) as HL.
      cbn [seg_loop]. destruct (blen (idb ++ lenb ++ bs ++ rest) =? 0) eqn:E0.
      { apply blen0 in E0. rewrite app_assoc in E0. apply app_eq_nil in E0 as [E0 _]. rewrite E0 in HL. cbn in HL. lia. }
      rewrite E. cbn [close bind any_header any_data]. unfold hdr. cbn [h_tag]. rewrite Hu.
      destruct (N.eqb_spec tag TagEndOfContent) as [E2|_]; [contradiction|].
      rewrite Htag. rewrite (proj2 (is_tag_iff tag tag) eq_refl). cbn [negb].
      rewrite (proj2 (blen0 (content_of l bs)) Hd).
      rewrite !bytes_ok_app in Hok. destruct Hok as (_ & _ & _ & Hr).
      rewrite !app_length in *. rewrite (seg_loop_fuel _ _ (S (length rest))); [|assumption|lia|lia]. apply IH; assumption.
    - intros d c k u l idb lenb bs rest v1 vs HR Hc Hu _ IH1 _ IH v Hok Hg.
      assert (E : any_parse_ber (idb ++ lenb ++ bs ++ rest) = Ok (rest, mk_any (hdr c k u l idb lenb) (content_of l bs))).
      { apply any_parse_ber_ok; [exact Hok|]. exists c, k, u, l, idb, lenb, bs. auto. }
      pose proof (readable_nonempty _ _ _ _ _ _ HR) as HL.
      cbn [seg_loop]. destruct (blen (idb ++ lenb ++ bs ++ rest) =? 0) eqn:E0.
      { apply blen0 in E0. rewrite app_assoc in E0. apply app_eq_nil in E0 as [E0 _]. rewrite E0 in HL. cbn in HL. lia. }
      rewrite E. cbn [close bind any_header any_data].
      change (h_tag (hdr c k u l idb lenb)) with (u mod 2 ^ 32). rewrite Hu.
      destruct (N.eqb_spec tag TagEndOfContent) as [E2|_]; [contradiction|].
      rewrite Htag. rewrite (proj2 (is_tag_iff tag tag) eq_refl). cbn [negb].
      rewrite !bytes_ok_app in Hok. destruct Hok as (_ & _ & Hb & Hr).
      destruct (IH1 (hdr c k u l idb lenb)) as (t1 & E1 & V1);
        [apply content_of_ok; exact Hb|eapply content_fits; eassumption|reflexivity|].
      destruct (blen (content_of l bs) =? 0) eqn:E4.
      { exfalso. destruct d; [discriminate|]. cbn [parse_ber_segmented] in E1. rewrite E4 in E1. discriminate. }
      rewrite E1. cbn [bind]. destruct (Happ v t1 Hg) as [Hg' Hv].
      rewrite !app_length in *. rewrite (seg_loop_fuel _ _ (S (length rest))); [|assumption|lia|lia].
      destruct (IH _ Hr Hg') as (t & E2 & V2). exists t. split; [exact E2|]. rewrite V2, Hv, V1, app_assoc. reflexivity.
  Qed.

  Theorem segmented_iff d h i v :
    bytes_ok i -> fits h i ->
    (seg tag P d (h_constructed h) i v <-> exists t, segmented d h i = Ok ([], t) /\ val_of t = v).
  Proof using All.
    intros Hi Hf. split.
    - intros H. apply (proj1 segmented_complete _ _ _ _ H); auto.
    - intros (t & E & <-). apply segmented_sound in E; tauto.
  Qed.
End Segmented.

(** Standard segmented strings are read as such. *)

Lemma contents_mono :
  (forall (m ex : bytes -> Prop) d l bs, contents m ex d l bs -> forall d', (d <= d')%nat -> contents m ex d' l bs)
  /\ (forall (m ex : bytes -> Prop) d es, elements m ex d es -> forall d', (d <= d')%nat -> elements m ex d' es).
Proof.
  assert (G : forall (m ex : bytes -> Prop),
    (forall d l bs, contents m ex d l bs -> forall d', (d <= d')%nat -> contents m ex d' l bs)
    /\ (forall d es, elements m ex d es -> forall d', (d <= d')%nat -> elements m ex d' es)).
  { intros m ex. apply (contents_elements_ind m ex
      (fun d l bs _ => forall d', (d <= d')%nat -> contents m ex d' l bs)
      (fun d es _ => forall d', (d <= d')%nat -> elements m ex d' es)).
    - intros d n bs H d' Hd. destruct d' as [|d']; [lia|]. constructor. exact H.
    - intros d es mk _ IH Hm d' Hd. destruct d' as [|[|d']]; [lia|lia|].
      constructor; [apply IH; lia|exact Hm].
    - intros d d' _. constructor.
    - intros d c k t l idb lenb bs rest HR Hx _ IH1 _ IH2 d' Hd.
      econstructor; [exact HR|exact Hx|apply IH1; lia|apply IH2; lia]. }
  split; intros m ex; apply (G m ex).
Qed.

Lemma marker_standard_like : marker_like [0; 0].
Proof.
  exists Universal, false, 0, [0], [0]. split; [|split; reflexivity].
  split; [split; [apply (id_low Universal false 0); reflexivity|split; [apply (lo_short 0); reflexivity|discriminate]]|].
  split; [vm_compute; discriminate|intros n E; injection E as <-; reflexivity].
Qed.

(** A string object is an object. *)
Lemma string_object_shape {X} tag (P : bytes -> list X -> Prop) d e v :
  string_object tag P d e v -> exists d' k c l idb lenb bs,
    d = S d' /\ readable_header c k tag l idb lenb /\ e = idb ++ lenb ++ bs
    /\ (k = false -> P (content_of l bs) v) /\ (k = true -> string_objects tag P d' (content_of l bs) v)
    /\ ((exists n, l = Definite n /\ n = blen bs)
        \/ (l = Indefinite /\ bs = content_of l bs ++ [0; 0] /\ string_objects tag P d' (content_of l bs) v)).
Proof.
  intros H. destruct H as [d c content v idb lenb HR HP|d c es v idb lenb HR HS|d c es v idb lenb HR HS].
  - exists d, false, c, (Definite (blen content)), idb, lenb, content.
    split; [reflexivity|]. split; [exact HR|]. split; [reflexivity|]. split; [auto|]. split; [discriminate|]. left. eauto.
  - exists d, true, c, (Definite (blen es)), idb, lenb, es.
    split; [reflexivity|]. split; [exact HR|]. split; [reflexivity|]. split; [discriminate|]. split; [auto|]. left. eauto.
  - exists d, true, c, Indefinite, idb, lenb, (es ++ [0; 0]).
    assert (E : content_of Indefinite (es ++ [0; 0]) = es).
    { cbn [content_of]. rewrite app_length. cbn [length]. replace (length es + 2 - 2)%nat with (length es + 0)%nat by lia.
      rewrite firstn_app_2. cbn. apply app_nil_r. }
    rewrite E. split; [reflexivity|]. split; [exact HR|]. split; [reflexivity|]. split; [discriminate|]. split; [auto|].
    right. auto.
Qed.

Lemma string_elements {X} tag (P : bytes -> list X -> Prop) :
  0 < tag < 2 ^ 32 -> forall d es v, string_objects tag P d es v -> elements marker_like marker_like (S d) es.
Proof.
  intros Ht.
  assert (NM : forall c k l idb lenb, readable_header c k tag l idb lenb -> ~ marker_like (idb ++ lenb)).
  { intros c k l idb lenb HR Hm. apply (marker_like_iff _ _ _ _ _ _ HR) in Hm as [_ Hm].
    rewrite N.mod_small in Hm by lia. lia. }
  assert (G : (forall d e v, string_object tag P d e v -> exists c k l idb lenb bs,
       e = idb ++ lenb ++ bs /\ readable_header c k tag l idb lenb /\ contents marker_like marker_like (S d) l bs)
     /\ (forall d es v, string_objects tag P d es v -> elements marker_like marker_like (S d) es)).
  { apply (string_object_objects_ind X tag P
      (fun d e v _ => exists c k l idb lenb bs,
         e = idb ++ lenb ++ bs /\ readable_header c k tag l idb lenb /\ contents marker_like marker_like (S d) l bs)
      (fun d es v _ => elements marker_like marker_like (S d) es)).
    - intros d c content v idb lenb HR _. do 6 eexists. split; [reflexivity|]. split; [exact HR|]. constructor. reflexivity.
    - intros d c es v idb lenb HR _ _. do 6 eexists. split; [reflexivity|]. split; [exact HR|]. constructor. reflexivity.
    - intros d c es v idb lenb HR _ IH. do 6 eexists. split; [reflexivity|]. split; [exact HR|].
      constructor; [exact IH|exact marker_standard_like].
    - intros d. constructor.
    - intros d e v es vs _ (c & k & l & idb & lenb & bs & -> & HR & Hc) _ IH.
      rewrite <- !app_assoc. econstructor; [exact HR|eapply NM; exact HR|exact Hc|exact IH]. }
  apply G.
Qed.

Lemma string_objects_segs {X} tag (P : bytes -> list X -> Prop) :
  0 < tag < 2 ^ 32 -> (forall v, P [] v -> v = []) ->
  (forall d e v, string_object tag P d e v -> (d <= 48)%nat -> exists d' c k l idb lenb bs,
     d = S d' /\ e = idb ++ lenb ++ bs /\ readable_header c k tag l idb lenb /\ impl_contents 50 l bs
     /\ (content_of l bs = [] /\ v = [] \/ seg tag P d k (content_of l bs) v))
  /\ (forall d es v, string_objects tag P d es v -> (d <= 48)%nat -> segs tag P d es v).
Proof.
  intros Ht HP0.
  assert (Nil : forall d v, string_objects tag P d [] v -> v = []).
  { intros d v H. inversion H as [|d0 e v0 es vs H1 H2 E1 E2 E3]; [reflexivity|].
    apply app_eq_nil in E2 as [-> ->]. exfalso.
    apply string_object_shape in H1 as (d' & k & c & l & idb & lenb & bs & _ & HR & E & _).
    apply readable_nonempty in HR. symmetry in E. rewrite app_assoc in E. apply app_eq_nil in E as [E _]. rewrite E in HR. cbn in HR. lia. }
  apply (string_object_objects_ind X tag P
    (fun d e v _ => (d <= 48)%nat -> exists d' c k l idb lenb bs,
     d = S d' /\ e = idb ++ lenb ++ bs /\ readable_header c k tag l idb lenb /\ impl_contents 50 l bs
     /\ (content_of l bs = [] /\ v = [] \/ seg tag P d k (content_of l bs) v))
    (fun d es v _ => (d <= 48)%nat -> segs tag P d es v)).
  - intros d c content v idb lenb HR HP Hd. exists d, c, false, (Definite (blen content)), idb, lenb, content.
    split; [reflexivity|]. split; [reflexivity|]. split; [exact HR|]. split; [constructor; reflexivity|]. cbn [content_of].
    destruct content as [|x content]; [left; split; [reflexivity|apply HP0; exact HP]|]. right. constructor; [discriminate|exact HP].
  - intros d c es v idb lenb HR HS IH Hd. exists d, c, true, (Definite (blen es)), idb, lenb, es.
    split; [reflexivity|]. split; [reflexivity|]. split; [exact HR|]. split; [constructor; reflexivity|]. cbn [content_of].
    destruct es as [|x es]; [left; split; [reflexivity|eapply Nil; exact HS]|]. right. constructor; [discriminate|]. apply IH. lia.
  - intros d c es v idb lenb HR HS IH Hd. exists d, c, true, Indefinite, idb, lenb, (es ++ [0; 0]).
    assert (E : content_of Indefinite (es ++ [0; 0]) = es).
    { cbn [content_of]. rewrite app_length. cbn [length]. replace (length es + 2 - 2)%nat with (length es + 0)%nat by lia.
      rewrite firstn_app_2. cbn. apply app_nil_r. }
    rewrite E. split; [reflexivity|]. split; [reflexivity|]. split; [exact HR|]. split.
    + constructor; [|exact marker_standard_like].
      eapply (proj2 contents_mono); [eapply string_elements; eassumption|lia].
    + destruct es as [|x es]; [left; split; [reflexivity|eapply Nil; exact HS]|]. right. constructor; [discriminate|]. apply IH. lia.
  - intros d _. constructor.
  - intros d e v es vs H1 IH1 H2 IH2 Hd. destruct (IH1 Hd) as (d' & c & k & l & idb & lenb & bs & -> & -> & HR & Hc & HS).
    rewrite <- !app_assoc. assert (Hm : tag mod 2 ^ 32 = tag) by (apply N.mod_small; lia).
    destruct HS as [[E ->]|HS].
    + cbn [app]. eapply segs_skip; [exact HR|exact Hc|exact Hm|exact E|]. apply IH2. exact Hd.
    + eapply segs_cons; [exact HR|exact Hc|exact Hm|exact HS|]. apply IH2. exact Hd.
Qed.
