(** The parsers with spans do what the parsers without spans do, and keep the spans right. *)
From Verif Require Import Base MHeader MEncode MBer MInt MCont MSpan SSpan.

(** ** Simulation *)

Definition sim (whole : bytes) {A B} (f : A -> B) (P : A -> Prop) (r : sres A) (r' : res B) : Prop :=
  match r, r' with
  | SOk a, Ok b => b = f a /\ P a
  | SErr i e, Err e' => e = e' /\ located whole i
  | SIncomplete n, Incomplete m => n = m
  | SPanic, Panic => True
  | _, _ => False
  end.

Lemma sim_bind whole {A B A' B'} (f : A -> A') (g : B -> B') (P : A -> Prop) (Q : B -> Prop) r r' k k' :
  sim whole f P r r' -> (forall a, P a -> sim whole g Q (k a) (k' (f a))) -> sim whole g Q (sbind r k) (bind r' k').
Proof. unfold sim at 1. destruct r, r'; cbn; intros H K; try contradiction; auto. destruct H as [-> H]. apply K. exact H. Qed.

Lemma sim_at whole {A B} (i : input) (r : res A) (g : B -> B) (P : B -> Prop) (k : A -> sres B) (k' : A -> res B) :
  located whole i -> (forall a, r = Ok a -> sim whole g P (k a) (k' a)) -> sim whole g P (sbind (at_input i r) k) (bind r k').
Proof. intros L K. destruct r; cbn; auto. Qed.

Lemma sim_at' whole {A B C} (i : input) (r : res A) (g : B -> C) (P : B -> Prop) (k : A -> sres B) (k' : A -> res C) :
  located whole i -> (forall a, r = Ok a -> sim whole g P (k a) (k' a)) -> sim whole g P (sbind (at_input i r) k) (bind r k').
Proof. intros L K. destruct r; cbn; auto. Qed.

Lemma sim_weaken whole {A B} (f : A -> B) (P Q : A -> Prop) r r' :
  (forall a, P a -> Q a) -> sim whole f P r r' -> sim whole f Q r r'.
Proof. unfold sim. destruct r, r'; intuition. Qed.

Lemma sim_ok whole {A B} (f : A -> B) (P : A -> Prop) r r' a : sim whole f P r r' -> r = SOk a -> r' = Ok (f a) /\ P a.
Proof. intros H ->. cbn in H. destruct r'; intuition congruence. Qed.

(** ** Inputs *)

Definition small (whole : bytes) : Prop := blen whole < 2 ^ 64.

Lemma located_whole d : located d (from_slice d).
Proof. exists [], []. cbn. rewrite app_nil_r. auto. Qed.

Lemma located_end whole i : located whole i -> in_end i = in_start i + blen (in_data i) /\ in_end i <= blen whole.
Proof. intros (pre & post & -> & S & E). unfold blen in *. rewrite !app_length. lia. Qed.

Lemma located_take whole i n : small whole -> located whole i -> n <= blen (in_data i) ->
  exists x, in_take i n = SOk x /\ in_data x = firstn (N.to_nat n) (in_data i) /\ in_start x = in_start i
            /\ in_end x = in_start i + n /\ located whole x.
Proof.
  intros W L H. pose proof (located_end whole i L) as [E1 E2]. unfold in_take, small in *.
  destruct (N.ltb_spec (blen (in_data i)) n); [lia|]. unfold usize_add. destruct (N.ltb_spec (in_start i + n) (2 ^ 64)); [|lia].
  eexists. split; [reflexivity|]. cbn [in_data in_start in_end]. repeat split.
  destruct L as (pre & post & -> & S & E). exists pre, (skipn (N.to_nat n) (in_data i) ++ post). cbn [in_data in_start in_end].
  rewrite (app_assoc (firstn _ _)), firstn_skipn. repeat split; auto. unfold blen in *. rewrite firstn_length. lia.
Qed.

(** What is left of [i] after reading from it. *)
Definition suffix (whole : bytes) (i rem : input) : Prop :=
  located whole rem /\ in_end rem = in_end i /\ in_start i <= in_start rem.

Lemma suffix_refl whole i : located whole i -> suffix whole i i.
Proof. intros L. split; [exact L|]. lia. Qed.
Lemma suffix_trans whole i j k : suffix whole i j -> suffix whole j k -> suffix whole i k.
Proof. intros (A & B & C) (D & E & F). split; [exact D|]. lia. Qed.
Lemma suffix_len whole i rem : located whole i -> suffix whole i rem ->
  in_start rem - in_start i = blen (in_data i) - blen (in_data rem) /\ blen (in_data rem) <= blen (in_data i).
Proof. intros L (R & E & S). pose proof (located_end _ _ L). pose proof (located_end _ _ R). lia. Qed.

Lemma located_take_from whole i n : small whole -> located whole i -> n <= blen (in_data i) ->
  exists x, in_take_from i n = SOk x /\ in_data x = skipn (N.to_nat n) (in_data i) /\ in_start x = in_start i + n
            /\ in_end x = in_end i /\ located whole x.
Proof.
  intros W L H. pose proof (located_end whole i L) as [E1 E2]. unfold in_take_from, small in *.
  destruct (N.ltb_spec (blen (in_data i)) n); [lia|]. unfold usize_add. destruct (N.ltb_spec (in_start i + n) (2 ^ 64)); [|lia].
  eexists. split; [reflexivity|]. cbn [in_data in_start in_end]. repeat split.
  destruct L as (pre & post & -> & S & E). exists (pre ++ firstn (N.to_nat n) (in_data i)), post. cbn [in_data in_start in_end].
  rewrite <- app_assoc, (app_assoc (firstn _ _)), firstn_skipn. unfold blen in *. rewrite app_length, firstn_length, skipn_length. repeat split; auto; lia.
Qed.

(** Results of a split: the remainder and the part taken. *)
Definition split_at (whole : bytes) (i : input) (p : input * input) : Prop :=
  suffix whole i (fst p) /\ located whole (snd p) /\ in_start (snd p) = in_start i /\ in_end (snd p) = in_start (fst p).
Definition data2 (p : input * input) : bytes * bytes := (in_data (fst p), in_data (snd p)).

Lemma take_split_sim whole i n : small whole -> located whole i -> n <= blen (in_data i) ->
  sim whole data2 (fun p => split_at whole i p /\ in_start (fst p) = in_start i + n) (in_take_split i n)
      (Ok (skipn (N.to_nat n) (in_data i), firstn (N.to_nat n) (in_data i))).
Proof.
  intros W L H. destruct (located_take whole i n W L H) as (x & E & D & S & F & G).
  destruct (located_take_from whole i n W L H) as (r & E' & D' & S' & F' & G').
  unfold in_take_split. rewrite E', E. cbn. unfold data2, split_at, suffix. cbn [fst snd]. rewrite D, D'. repeat split; auto; lia.
Qed.

Lemma take_sim whole i n : small whole -> located whole i ->
  sim whole data2 (fun p => split_at whole i p) (s_take n i) (take n (in_data i)).
Proof.
  intros W L. unfold s_take, take. destruct (N.leb_spec n (blen (in_data i))); [|cbn; reflexivity].
  eapply sim_weaken; [|apply take_split_sim; assumption]. intros p [H1 _]. exact H1.
Qed.

Definition dataN {X} (p : input * X) : bytes * X := (in_data (fst p), snd p).

Lemma be_u8_sim whole i : small whole -> located whole i ->
  sim whole dataN (fun p => suffix whole i (fst p) /\ in_start (fst p) = in_start i + 1) (s_be_u8 i) (be_u8 (in_data i)).
Proof.
  intros W L. unfold s_be_u8, be_u8. destruct (in_data i) as [|b r] eqn:E; [cbn; reflexivity|].
  destruct (located_take_from whole i 1 W L) as (x & E1 & D & S & F & G). { rewrite E. unfold blen. cbn [length]. lia. }
  rewrite E1. cbn. unfold dataN, suffix. cbn [fst snd]. rewrite D, E. repeat split; auto; lia.
Qed.

(** ** Headers *)

Definition data3 (p : input * N * N) : bytes * N * N := (in_data (fst (fst p)), snd (fst p), snd p).

Lemma tag_loop_sim whole i0 : small whole -> located whole i0 -> forall fuel i c count,
  N.of_nat fuel + count = 8 -> count <= 6 -> suffix whole i0 i -> count <= blen (in_data i0) - blen (in_data i) ->
  sim whole data3 (fun p => suffix whole i0 (fst (fst p)) /\ snd p <= blen (in_data i0)) (s_tag_loop fuel i0 i c count) (tag_loop (in_data i) c count).
Proof.
  intros W L0. induction fuel as [|fuel IH]; intros i c count Hf Hc S Hl; [lia|]. cbn [s_tag_loop].
  pose proof (proj2 (suffix_len _ _ _ L0 S)) as Hle. destruct S as (L & SE & SS). pose proof (be_u8_sim whole i W L) as B. unfold be_u8 in B.
  destruct (in_data i) as [|b r] eqn:E.
  { destruct (s_be_u8 i) as [[? ?]| | |]; cbn in B; try contradiction. cbn. auto. }
  destruct (s_be_u8 i) as [[r' b']| | |]; cbn in B; try contradiction. destruct B as [B [(B1 & B2 & B3) B4]].
  unfold dataN in B. cbn [fst snd] in *. injection B as -> ->. cbn [tag_loop].
  assert (S': suffix whole i0 r') by (split; [exact B1|]; lia).
  assert (Hl': count + 1 <= blen (in_data i0) - blen (in_data r')).
  { rewrite ?E in Hl; rewrite ?E in Hle; unfold blen in *. cbn [length] in *. lia. }
  destruct (5 <? count) eqn:H5; [cbn; auto|]. apply N.ltb_ge in H5. cbv zeta.
  destruct (N.land b' 128 =? 0); [cbn; split; [reflexivity|]; split; [exact S' | cbn [snd]; lia]|].
  apply IH; auto; lia.
Qed.

Lemma parse_length_sim whole i0 i k : small whole -> located whole i0 -> located whole i ->
  sim whole dataN (fun p => suffix whole i (fst p)) (s_parse_length i0 k i) (parse_length k (in_data i)).
Proof.
  intros W L0 L. unfold s_parse_length, parse_length. eapply sim_bind; [apply be_u8_sim; assumption|].
  intros [r b] [S _]. cbn [dataN fst snd].
  destruct (b =? 128). { destruct k; cbn; auto. }
  destruct (N.land b 128 =? 0); [cbn; auto|]. destruct (b =? 255); [cbn; auto|].
  eapply sim_bind; [apply take_sim; [assumption | apply S]|]. intros [r2 x] (S2 & _). cbn [data2 fst snd] in *.
  destruct (bytes_to_u64 (in_data x)); cbn; [|auto]. split; [reflexivity|]. eapply suffix_trans; eassumption.
Qed.

Definition dataH (p : input * sheader) : bytes * header := (in_data (fst p), sh_fields (snd p)).

Lemma parse_header_sim whole i : small whole -> located whole i ->
  sim whole dataH (fun p => header_layout whole i (snd p) (fst p) /\ suffix whole i (fst p)) (s_parse_header i) (parse_header (in_data i)).
Proof.
  intros W L. unfold s_parse_header, parse_header. eapply sim_bind; [apply be_u8_sim; assumption|].
  intros [r b] [S S1]. cbn [dataN fst snd] in *. destruct (class_try_from (N.shiftr b 6)) as [c|]; [|cbn; exact I]. cbv zeta.
  eapply (sim_bind whole data3 dataH (fun p => suffix whole i (fst (fst p)) /\ snd p <= blen (in_data i))).
  { pose proof (suffix_len _ _ _ L S). destruct S as (La & Se & Ss). pose proof (located_end _ _ L). pose proof (located_end _ _ La).
    destruct (N.land b 31 =? 31).
    - apply tag_loop_sim; [exact W | exact L | reflexivity | lia | split; auto | lia].
    - cbn. split; [reflexivity|]. split; [split; auto | cbn [snd]; lia]. }
  intros [[r2 t] n] [S2 Hn]. cbn [data3 fst snd] in *. destruct (N.ltb_spec (blen (in_data i)) n); [lia|].
  eapply sim_bind; [apply parse_length_sim; [assumption | assumption | apply S2]|].
  intros [r3 l] S3. cbn [dataN fst snd] in *. pose proof (suffix_trans _ _ _ _ S2 S3) as S4.
  pose proof (suffix_len _ _ _ L S4) as [N1 N2]. unfold usize_sub. destruct S4 as (L4 & E4 & H4).
  destruct (N.leb_spec (in_start i) (in_start r3)); [|lia]. cbn [sbind].
  destruct (located_take whole i (in_start r3 - in_start i) W L) as (x & E & D & Sx & Fx & Gx); [lia|]. rewrite E. cbn [sbind sim].
  split.
  - unfold dataH. cbn [fst snd sh_fields]. do 4 f_equal. rewrite D. f_equal. unfold blen in *. lia.
  - cbn [fst snd]. split; [|split; auto]. exists x. cbn [sh_raw sh_fields h_raw_header]. unfold adjacent. repeat split; auto; lia.
Qed.

Lemma parse_header_der_sim whole i : small whole -> located whole i ->
  sim whole dataH (fun p => header_layout whole i (snd p) (fst p) /\ suffix whole i (fst p)) (s_parse_header_der i) (header_parse_der (in_data i)).
Proof.
  intros W L. unfold s_parse_header_der, header_parse_der. eapply sim_bind; [apply parse_header_sim; assumption|].
  intros [r h] H. cbn [dataH fst snd] in *. destruct (is_definite _); cbn; auto.
Qed.

(** ** Contents *)

Lemma skip_loop_sim whole skip skip' : small whole ->
  (forall h i, located whole i -> sim whole dataN (fun p => suffix whole i (fst p)) (skip h i) (skip' (sh_fields h) (in_data i))) ->
  forall fuel i, located whole i ->
  sim whole dataN (fun p => suffix whole i (fst p)) (s_skip_loop skip fuel i) (skip_loop skip' fuel (in_data i)).
Proof.
  intros W K. induction fuel as [|fuel IH]; intros i L; [cbn; auto|]. cbn [s_skip_loop skip_loop].
  eapply sim_bind; [apply parse_header_sim; assumption|]. intros [i2 h2] [_ S2]. cbn [dataH fst snd] in *.
  eapply sim_bind; [apply K; apply S2|]. intros [i3 eoc] S3. cbn [dataN fst snd] in *.
  pose proof (suffix_trans _ _ _ _ S2 S3) as S4. destruct eoc; [cbn; auto|].
  eapply sim_weaken; [|apply IH; apply S4]. intros a H. eapply suffix_trans; eassumption.
Qed.

Lemma skip_content_sim whole : small whole -> forall d h i, located whole i ->
  sim whole dataN (fun p => suffix whole i (fst p)) (s_skip_content d h i) (skip_content d (sh_fields h) (in_data i)).
Proof.
  intros W. induction d as [|d IH]; intros h i L; [cbn; auto|]. cbn [s_skip_content skip_content].
  destruct (h_length (sh_fields h)) as [l|].
  - destruct ((l =? 0) && _); [cbn; split; [reflexivity | apply suffix_refl; exact L]|].
    eapply sim_bind; [apply take_sim; assumption|]. intros [r x] (S & _). cbn. auto.
  - apply sim_at'; [exact L|]. intros _ _. apply skip_loop_sim; auto.
Qed.

(** Content and remainder, with what lies between them. *)
Definition content_at (whole : bytes) (h : header) (i : input) (p : input * input) : Prop :=
  suffix whole i (fst p) /\ located whole (snd p) /\ in_start (snd p) = in_start i
  /\ in_end (snd p) + (if is_definite (h_length h) then 0 else 2) = in_start (fst p).

Lemma ber_object_content_sim whole h i d : small whole -> located whole i ->
  sim whole data2 (content_at whole (sh_fields h) i) (s_ber_object_content h i d) (ber_object_content (sh_fields h) (in_data i) d).
Proof.
  intros W L. unfold s_ber_object_content, ber_object_content. eapply sim_bind; [apply skip_content_sim; assumption|].
  intros [r e] S. cbn [dataN fst snd] in *. pose proof (suffix_len _ _ _ L S) as [N1 N2].
  unfold usize_sub. destruct S as (La & Ea & Sa). destruct (N.leb_spec (in_start i) (in_start r)); [|lia]. cbn [sbind].
  assert (Len: (length (in_data i) - length (in_data r))%nat = N.to_nat (in_start r - in_start i)) by (unfold blen in *; lia).
  cbv zeta. rewrite Len. unfold content_at. destruct (is_definite (h_length (sh_fields h))).
  - eapply sim_weaken; [|apply take_split_sim; auto; lia]. intros p [(S1 & S2 & S3 & S4) S5]. repeat split; auto; try apply S1; lia.
  - assert (T: (N.to_nat (in_start r - in_start i) <? 2)%nat = (in_start r - in_start i <? 2)).
    { destruct (N.ltb_spec (in_start r - in_start i) 2); [apply Nat.ltb_lt | apply Nat.ltb_ge]; lia. }
    rewrite T. destruct (N.ltb_spec (in_start r - in_start i) 2); [cbn; exact I|].
    destruct (located_take whole i (in_start r - in_start i - 2) W L) as (x & E & D & Sx & Fx & Gx); [lia|]. rewrite E. cbn.
    unfold data2. cbn [fst snd]. rewrite D. split; [do 2 f_equal; lia|]. repeat split; auto; lia.
Qed.

Lemma der_get_content_sim whole h i : small whole -> located whole i ->
  sim whole data2 (content_at whole (sh_fields h) i) (s_der_get_content h i) (der_get_content (sh_fields h) (in_data i)).
Proof.
  intros W L. unfold s_der_get_content, der_get_content, content_at. destruct (h_length (sh_fields h)) as [l|]; [|cbn; auto].
  eapply sim_weaken; [|apply take_sim; assumption]. intros p (S1 & S2 & S3 & S4). cbn [is_definite]. repeat split; auto; try apply S1. lia.
Qed.

Lemma object_layout_intro whole i h r1 r2 data : header_layout whole i h r1 -> content_at whole (sh_fields h) r1 (r2, data) ->
  object_layout whole i h data r2.
Proof.
  intros (raw & A & B & C & D & E & F & G) ((S1 & S2 & S3) & S4 & S5 & S6). cbn [fst snd] in *. unfold adjacent in *.
  exists raw. unfold adjacent. repeat split; auto; congruence.
Qed.

(** ** Objects *)

Definition dataA (a : sany) : any := mk_any (sh_fields (sa_header a)) (in_data (sa_data a)).
Definition dataO (p : input * sany) : bytes * any := (in_data (fst p), dataA (snd p)).
Definition any_at (whole : bytes) (i : input) (p : input * sany) : Prop :=
  object_layout whole i (sa_header (snd p)) (sa_data (snd p)) (fst p) /\ suffix whole i (fst p).

Lemma parse_ber_any_sim whole i : small whole -> located whole i ->
  sim whole dataO (any_at whole i) (s_parse_ber_any i) (parse_ber_any (in_data i)).
Proof.
  intros W L. unfold s_parse_ber_any, parse_ber_any. eapply sim_bind; [apply parse_header_sim; assumption|].
  intros [r h] [H S]. cbn [dataH fst snd] in *. eapply sim_bind; [apply ber_object_content_sim; [assumption | apply S]|].
  intros [r2 d] C. cbn. split; [reflexivity|]. split; cbn [fst snd sa_header sa_data].
  - eapply object_layout_intro; eassumption.
  - eapply suffix_trans; [exact S | apply C].
Qed.

Lemma parse_der_any_sim whole i : small whole -> located whole i ->
  sim whole dataO (any_at whole i) (s_parse_der_any i) (parse_der_any (in_data i)).
Proof.
  intros W L. unfold s_parse_der_any, parse_der_any. eapply sim_bind; [apply parse_header_der_sim; assumption|].
  intros [r h] [H S]. cbn [dataH fst snd] in *. apply sim_at'; [exact L|]. intros _ _.
  eapply sim_bind; [apply der_get_content_sim; [assumption | apply S]|].
  intros [r2 d] C. cbn. split; [reflexivity|]. split; cbn [fst snd sa_header sa_data].
  - eapply object_layout_intro; eassumption.
  - eapply suffix_trans; [exact S | apply C].
Qed.

(** ** Typed parsers

    [f] forgets spans in a value, [good whole] says that the inputs in a value are located.  The rest of the content
    which a content parser returns is dropped by its callers. *)
Definition value {T} (r : sres (input * T)) : sres T := let+ (_, x) := r in SOk x.
Definition value' {T} (r : res (bytes * T)) : res T := let* (_, x) := r in Ok x.
Definition header_located (whole : bytes) (h : sheader) : Prop := forall raw, sh_raw h = Some raw -> located whole raw.
Definition codec_of {T} (p : parser T) : codec T :=
  mk_codec (ps_accept p) (ps_ber_content p) (ps_der_content p) (fun _ => Panic) (fun _ => Panic).
Definition tracks {T U} (f : T -> U) (good : bytes -> T -> Prop) (sp : sparser T) (p : parser U) : Prop :=
  (forall n, sp_accept sp n = ps_accept p n)
  /\ (forall i, ps_parse_ber p i = parse_ber (codec_of p) i) /\ (forall i, ps_parse_der p i = parse_der (codec_of p) i)
  /\ forall whole, small whole -> forall h i, header_located whole h -> located whole i ->
     sim whole f (good whole) (value (sp_ber sp h i)) (value' (ps_ber_content p (sh_fields h) (in_data i)))
     /\ sim whole f (good whole) (value (sp_der sp h i)) (value' (ps_der_content p (sh_fields h) (in_data i))).

Lemma bind_value {T B} (r : sres (input * T)) (k : T -> sres B) : (let+ (_, x) := r in k x) = sbind (value r) k.
Proof. destruct r as [[? ?]| | |]; reflexivity. Qed.
Lemma bind_value' {T B} (r : res (bytes * T)) (k : T -> res B) : (let* (_, x) := r in k x) = bind (value' r) k.
Proof. destruct r as [[? ?]| | |]; reflexivity. Qed.

Lemma layout_header whole i h r : header_layout whole i h r -> header_located whole h.
Proof. intros (raw & A & B & C & _) raw' E. congruence. Qed.

Definition dataV {T U} (f : T -> U) (p : input * T) : bytes * U := (in_data (fst p), f (snd p)).
Definition value_at {T} (good : bytes -> T -> Prop) (whole : bytes) (i : input) (p : input * T) : Prop :=
  suffix whole i (fst p) /\ good whole (snd p).

Section Typed.
  Context {T U : Type} (f : T -> U) (good : bytes -> T -> Prop) (sp : sparser T) (p : parser U).
  Hypothesis K : tracks f good sp p.
  Context (whole : bytes) (W : small whole).

  Lemma parse_ber_sim i : located whole i -> sim whole (dataV f) (value_at good whole i) (s_parse_ber sp i) (ps_parse_ber p (in_data i)).
  Proof.
    intros L. destruct K as (A & PB & PD & C). rewrite PB. unfold s_parse_ber, parse_ber. eapply sim_bind; [apply parse_header_sim; assumption|].
    intros [r h] [H S]. cbn [dataH fst snd codec_of accept_tag ber_content] in *. rewrite A. destruct (ps_accept p _); [|cbn; auto].
    eapply sim_bind; [apply ber_object_content_sim; [assumption | apply S]|]. intros [r2 d] D. cbn [data2 fst snd] in *.
    rewrite bind_value, bind_value'. eapply sim_bind; [apply C; [assumption | eapply layout_header; exact H | apply D]|].
    intros x G. cbn. split; [reflexivity|]. split; [|exact G]. eapply suffix_trans; [exact S | apply D].
  Qed.

  Lemma parse_der_sim i : located whole i -> sim whole (dataV f) (value_at good whole i) (s_parse_der sp i) (ps_parse_der p (in_data i)).
  Proof.
    intros L. destruct K as (A & PB & PD & C). rewrite PD. unfold s_parse_der, parse_der. eapply sim_bind; [apply parse_header_der_sim; assumption|].
    intros [r h] [H S]. cbn [dataH fst snd codec_of accept_tag der_content] in *. destruct (h_length (sh_fields h)); [|cbn; auto].
    rewrite A. destruct (ps_accept p _); [|cbn; auto].
    eapply sim_bind; [apply take_sim; [assumption | apply S]|]. intros [r2 d] D. cbn [data2 fst snd] in *.
    rewrite bind_value, bind_value'. eapply sim_bind; [apply C; [assumption | eapply layout_header; exact H | apply D]|].
    intros x G. cbn. split; [reflexivity|]. split; [|exact G]. eapply suffix_trans; [exact S | apply D].
  Qed.

  Definition good_option (w : bytes) (o : option T) : Prop := match o with Some x => good w x | None => True end.

  Lemma parse_ber_optional_sim i : located whole i ->
    sim whole (dataV (option_map f)) (value_at good_option whole i) (s_parse_ber_optional sp i) (parse_ber_optional (codec_of p) (in_data i)).
  Proof.
    intros L. destruct K as (A & PB & PD & C). unfold s_parse_ber_optional, parse_ber_optional.
    assert (N: value_at good_option whole i (i, None)) by (split; [apply suffix_refl; exact L | exact I]).
    destruct (blen (in_data i) =? 0); [cbn; auto|]. eapply sim_bind; [apply parse_header_sim; assumption|].
    intros [r h] [H S]. cbn [dataH fst snd codec_of accept_tag ber_content] in *. rewrite A. destruct (ps_accept p _); [|cbn; auto].
    eapply sim_bind; [apply ber_object_content_sim; [assumption | apply S]|]. intros [r2 d] D. cbn [data2 fst snd] in *.
    rewrite bind_value, bind_value'. eapply sim_bind; [apply C; [assumption | eapply layout_header; exact H | apply D]|].
    intros x G. cbn. split; [reflexivity|]. split; [|exact G]. eapply suffix_trans; [exact S | apply D].
  Qed.

  Lemma parse_der_optional_sim i : located whole i ->
    sim whole (dataV (option_map f)) (value_at good_option whole i) (s_parse_der_optional sp i) (parse_der_optional (codec_of p) (in_data i)).
  Proof.
    intros L. destruct K as (A & PB & PD & C). unfold s_parse_der_optional, parse_der_optional.
    assert (N: value_at good_option whole i (i, None)) by (split; [apply suffix_refl; exact L | exact I]).
    destruct (blen (in_data i) =? 0); [cbn; auto|]. eapply sim_bind; [apply parse_header_der_sim; assumption|].
    intros [r h] [H S]. cbn [dataH fst snd codec_of accept_tag der_content] in *. rewrite A. destruct (ps_accept p _); [|cbn; auto].
    destruct (h_length (sh_fields h)); [|cbn; auto].
    eapply sim_bind; [apply take_sim; [assumption | apply S]|]. intros [r2 d] D. cbn [data2 fst snd] in *.
    rewrite bind_value, bind_value'. eapply sim_bind; [apply C; [assumption | eapply layout_header; exact H | apply D]|].
    intros x G. cbn. split; [reflexivity|]. split; [|exact G]. eapply suffix_trans; [exact S | apply D].
  Qed.

  Definition dataI (q : input * (sheader * input)) : bytes * (header * bytes) :=
    (in_data (fst q), (sh_fields (fst (snd q)), in_data (snd (snd q)))).
  Definition input_at (i : input) (q : input * (sheader * input)) : Prop :=
    object_layout whole i (fst (snd q)) (snd (snd q)) (fst q) /\ suffix whole i (fst q).

  Lemma parse_ber_as_input_sim i : located whole i ->
    sim whole dataI (input_at i) (s_parse_ber_as_input sp i) (parse_ber_as_input (codec_of p) (in_data i)).
  Proof.
    intros L. destruct K as (A & _). unfold s_parse_ber_as_input, parse_ber_as_input. eapply sim_bind; [apply parse_header_sim; assumption|].
    intros [r h] [H S]. cbn [dataH fst snd codec_of accept_tag] in *. rewrite A. destruct (ps_accept p _); [|cbn; auto].
    eapply sim_bind; [apply ber_object_content_sim; [assumption | apply S]|]. intros [r2 d] D. cbn. split; [reflexivity|].
    split; cbn [fst snd]; [eapply object_layout_intro; eassumption | eapply suffix_trans; [exact S | apply D]].
  Qed.
  Lemma parse_der_as_input_sim i : located whole i ->
    sim whole dataI (input_at i) (s_parse_der_as_input sp i) (parse_der_as_input (codec_of p) (in_data i)).
  Proof.
    intros L. destruct K as (A & _). unfold s_parse_der_as_input, parse_der_as_input. eapply sim_bind; [apply parse_header_der_sim; assumption|].
    intros [r h] [H S]. cbn [dataH fst snd codec_of accept_tag] in *. rewrite A. destruct (ps_accept p _); [|cbn; auto].
    eapply sim_bind; [apply der_get_content_sim; [assumption | apply S]|]. intros [r2 d] D. cbn. split; [reflexivity|].
    split; cbn [fst snd]; [eapply object_layout_intro; eassumption | eapply suffix_trans; [exact S | apply D]].
  Qed.
End Typed.

(** ** Types *)

(** The inputs in an [Any]. *)
Definition good_any (whole : bytes) (a : sany) : Prop := header_located whole (sa_header a) /\ located whole (sa_data a).

Lemma any_tracks : tracks dataA good_any s_any_parser (codec_parser any_codec).
Proof.
  split; [reflexivity|]. split; [reflexivity|]. split; [reflexivity|]. intros whole W h i H L. split.
  - cbn [sp_ber s_any_parser ps_ber_content codec_parser ber_content any_codec]. unfold value, value', s_any_ber_content, any_ber_content.
    assert (X: forall n, sim whole dataA (good_any whole) (value (let+ (rem, data) := s_take n i in SOk (rem, mk_sany h data)))
                 (value' (let* (rem, data) := take n (in_data i) in Ok (rem, mk_any (sh_fields h) data)))).
    { intros n. unfold value, value'. eapply (sim_bind whole dataO dataA (fun q => good_any whole (snd q))); [|intros [? a] Ha; split; [reflexivity | exact Ha]].
      eapply sim_bind. apply take_sim; assumption. intros [r d] (A & B & _). cbn. split; [reflexivity|]. split; assumption. }
    destruct (h_length (sh_fields h)); apply X.
  - cbn [sp_der s_any_parser ps_der_content codec_parser der_content any_codec]. unfold value, value', s_any_der_content, any_der_content.
    eapply (sim_bind whole dataO dataA (fun q => good_any whole (snd q))); [|intros [? a] Ha; split; [reflexivity | exact Ha]].
    eapply sim_bind; [apply der_get_content_sim; assumption|]. intros [r d] (A & B & _). cbn. split; [reflexivity|]. split; assumption.
Qed.

(** Types whose values hold no input. *)
Lemma plain_tracks {T} (c : codec T) : tracks (fun x => x) (fun _ _ => True) (s_plain_parser (codec_parser c)) (codec_parser c).
Proof.
  split; [reflexivity|]. split; [reflexivity|]. split; [reflexivity|]. intros whole W h i H L.
  split; unfold s_plain_parser; cbn [sp_ber sp_der ps_ber_content ps_der_content codec_parser]; unfold s_plain_content, value, value'.
  - destruct (ber_content c (sh_fields h) (in_data i)) as [[? ?]| | |]; cbn; auto.
  - destruct (der_content c (sh_fields h) (in_data i)) as [[? ?]| | |]; cbn; auto.
Qed.

Lemma close_sim whole {A B} (f : A -> B) P i r r' : located whole i -> sim whole f P r r' -> sim whole f P (s_close i r) (close r').
Proof. intros L. unfold sim. destruct r, r'; cbn; intros H; try contradiction; auto. subst. auto. Qed.

Definition any_item (whole : bytes) (i : input) (q : input * sany) : Prop := suffix whole i (fst q) /\ good_any whole (snd q).

Lemma collect_sim whole {T U} (f : T -> U) (good : T -> Prop) p p' g g' : small whole ->
  (forall i, located whole i -> sim whole dataO (any_item whole i) (p i) (p' (in_data i))) ->
  (forall a, good_any whole a -> sim whole f good (g a) (g' (dataA a))) ->
  forall fuel i, located whole i ->
  sim whole (dataV (map f)) (fun q => suffix whole i (fst q) /\ Forall good (snd q)) (s_collect_loop p g fuel i) (collect_loop p' g' fuel (in_data i)).
Proof.
  intros W Hp Hg. induction fuel as [|fuel IH]; intros i L; [cbn; auto|]. cbn [s_collect_loop collect_loop].
  destruct (blen (in_data i) =? 0). { cbn. split; [reflexivity|]. split; [apply suffix_refl; exact L | constructor]. }
  eapply sim_bind; [apply close_sim; [exact L | apply Hp; exact L]|]. intros [r a] [S G]. cbn [dataO fst snd] in *.
  eapply sim_bind; [apply Hg; exact G|]. intros x Gx. eapply sim_bind; [apply IH; apply S|].
  intros [r2 xs] [S2 F]. cbn. split; [reflexivity|]. split; [eapply suffix_trans; eassumption | constructor; assumption].
Qed.

Lemma any_parse_ber_sim whole i : small whole -> located whole i ->
  sim whole dataO (any_item whole i) (s_parse_ber s_any_parser i) (any_parse_ber (in_data i)).
Proof. intros W L. exact (parse_ber_sim _ _ _ _ any_tracks whole W i L). Qed.
Lemma any_parse_der_sim whole i : small whole -> located whole i ->
  sim whole dataO (any_item whole i) (s_parse_der s_any_parser i) (any_parse_der (in_data i)).
Proof. intros W L. exact (parse_der_sim _ _ _ _ any_tracks whole W i L). Qed.

Lemma value_dataV whole {T U} (f : T -> U) (P : input * T -> Prop) (Q : T -> Prop) r r' :
  (forall q, P q -> Q (snd q)) -> sim whole (dataV f) P r r' -> sim whole f Q (value r) (value' r').
Proof. intros H S. unfold value, value'. eapply sim_bind; [exact S|]. intros [r1 x] Hx. cbn. split; [reflexivity | exact (H _ Hx)]. Qed.

Lemma vec_tracks {T U} (f : T -> U) good sp p : tracks f good sp p ->
  tracks (map f) (fun w => Forall (good w)) (s_vec_parser sp) (vec_parser p).
Proof.
  intros (A & PB & PD & C). split; [reflexivity|]. split; [reflexivity|]. split; [reflexivity|]. intros whole W h i H L.
  assert (CV: forall a, good_any whole a ->
     sim whole f (good whole) (s_convert_item (sp_accept sp) (sp_ber sp) a) (convert_item (ps_accept p) (ps_ber_content p) (dataA a))
     /\ sim whole f (good whole) (s_convert_item (sp_accept sp) (sp_der sp) a) (convert_item (ps_accept p) (ps_der_content p) (dataA a))).
  { intros a [Ga Gd]. unfold s_convert_item, convert_item. cbn [dataA any_header any_data]. rewrite A.
    destruct (ps_accept p _); [|cbn; auto]. exact (C whole W _ _ Ga Gd). }
  cbn [sp_ber sp_der s_vec_parser vec_parser default_parser ps_ber_content ps_der_content codec_parser ber_content der_content].
  unfold s_vec_ber, s_vec_der, vec_ber_content, vec_der_content.
  split; eapply value_dataV with (P := fun q => suffix whole i (fst q) /\ Forall (good whole) (snd q)); try (intros q [_ Hq]; exact Hq);
    (apply sim_at'; [exact L|]; intros _ _; destruct (blen (in_data i) =? 0);
     [cbn; split; [reflexivity|]; split; [apply suffix_refl; exact L | constructor]|]); unfold collect_ber, collect_der; apply collect_sim; auto.
  - intros j Lj. apply any_parse_ber_sim; assumption.
  - intros a G. apply CV. exact G.
  - intros j Lj. apply any_parse_der_sim; assumption.
  - intros a G. apply CV. exact G.
Qed.

Lemma explicit_tracks {T U} (f : T -> U) good sp p c t : tracks f good sp p ->
  tracks f good (s_explicit_parser c t sp) (explicit_parser c t p).
Proof.
  intros K. split; [reflexivity|]. split; [reflexivity|]. split; [reflexivity|]. intros whole W h i H L.
  cbn [sp_ber sp_der s_explicit_parser explicit_parser default_parser ps_ber_content ps_der_content codec_parser ber_content der_content].
  unfold s_explicit_content, explicit_content.
  split; eapply value_dataV with (P := value_at good whole i); try (intros q [_ Hq]; exact Hq);
    (apply sim_at'; [exact L|]; intros _ _; apply sim_at'; [exact L|]; intros _ _; apply sim_at'; [exact L|]; intros _ _).
  - apply parse_ber_sim; assumption.
  - apply parse_der_sim; assumption.
Qed.
