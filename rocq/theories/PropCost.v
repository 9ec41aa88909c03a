(** C105: the headers read while reading an object. *)
From Verif Require Import Base MHeader MEncode MBer MInt MSeg MText MCont MColl MDerive MSpan SSpan PSpan PropSpan MTrace PropTrace MKind PKind PropKind PHeader PBer.

(** The number of calls of the header parser that a log shows. *)
Definition headers_read (l : list line) : N :=
  blen (filter (fun x => match x with LEnter AtHeader _ _ => true | _ => false end) l).

(** ** Weights

    How many times the same octets may be read as headers: a collection reads an item as [Any], to find its end, and then its
    content; a field with a tag is looked at before it is read; the segments of a string may lie within each other up to a limit. *)
Fixpoint weight {S U} (t : kty S U) : N :=
  match t with
  | KAny | KPlain _ | KInteger => 0
  | KString _ g _ => N.of_nat (sg_limit g)
  | KVec t | KArray _ t | KSetOf t | KBTreeSet _ t | KHashSet _ t => 1 + weight t
  | KAnySequence => 1
  | KTagged g t => match tg_kind g with KExplicit => 1 + weight t | KImplicit => weight t end
  | KOption t => 1 + weight t
  | KAlias t => weight t
  | KTuple fs | KStruct _ fs => weight_fields fs
  | KChoice k vs => weight_variants vs
  end
with weight_fields {S U} (fs : kfields S U) : N :=
  match fs with
  | KNil => 0
  | KField t fs => 1 + weight t + weight_fields fs
  | KDefault _ t fs => 2 + weight t + weight_fields fs
  | KTaggedOption g t fs | KTaggedDefault g _ t fs =>
      2 + (match tg_kind g with KExplicit => 1 + weight t | KImplicit => weight t end) + weight_fields fs
  end
with weight_variants {S U} (vs : kvariants S U) : N :=
  match vs with
  | KEmpty => 0
  | KVariant _ t vs => N.max (1 + weight t) (weight_variants vs)
  end.

Section Cost.
Context (c : config) (whole : bytes) (W : small whole) (By : bytes_ok whole).

Definition cost {A} (m : lres A) : N := headers_read (fst m).
Lemma headers_app a b : headers_read (a ++ b) = headers_read a + headers_read b.
Proof. unfold headers_read, blen. rewrite filter_app, app_length. lia. Qed.
Lemma cost_bind {A B} (m : lres A) (f : A -> lres B) : cost (lbind m f) = cost m + match snd m with SOk a => cost (f a) | _ => 0 end.
Proof. unfold cost, lbind. destruct (snd m); cbn [fst]; [apply headers_app | lia..]. Qed.
Lemma headers_dump d n : headers_read (hex_dump d n) = 0.
Proof. unfold hex_dump. destruct (n <? blen d); reflexivity. Qed.
Lemma cost_trace {T} s (f : input -> lres (input * T)) i : cost (trace_input c s f i) <= cost (f i) + match s with AtHeader => 1 | _ => 0 end.
Proof.
  unfold cost, trace_input. destruct (debugging c); [|lia]. cbv zeta.
  assert (E: forall l, headers_read ((if tracing c then [LEnter s (in_start i) l] else []) ) <= match s with AtHeader => 1 | _ => 0 end) by (intros l; destruct (tracing c), s; vm_compute; discriminate).
  assert (D: forall x, headers_read (x :: hex_dump (in_data i) 16) = headers_read [x]) by (intros x; change (x :: hex_dump (in_data i) 16) with ([x] ++ hex_dump (in_data i) 16); rewrite headers_app, headers_dump; lia).
  specialize (E (blen (in_data i))). destruct (snd (f i)) as [[rem x]|at_ e|n|].
  - destruct (_ && _); cbn [fst]; rewrite !headers_app; [lia|].
    assert (Z: forall y r, headers_read (if tracing c then [LParsed s (in_start i) y r] else []) = 0) by (intros; destruct (tracing c); reflexivity). rewrite Z. lia.
  - cbn [fst]. rewrite !headers_app, D. change (headers_read [LFailed s (in_start i) e]) with 0. lia.
  - cbn [fst]. rewrite !headers_app, D. change (headers_read [LMissing s (in_start i) n]) with 0. lia.
  - cbn [fst]. rewrite headers_app. lia.
Qed.
Lemma cost_silent {A} (r : sres A) : cost (silent r) = 0.
Proof. reflexivity. Qed.
Lemma at_cases {A B} i (r : res A) (k : A -> lres B) :
  (exists a, lbind (silent (at_input i r)) k = k a) \/ (cost (lbind (silent (at_input i r)) k) = 0 /\ forall x, snd (lbind (silent (at_input i r)) k) <> SOk x).
Proof.
  destruct r as [a| | |]; cbn [at_input].
  - left. exists a. unfold lbind. cbn. symmetry. apply surjective_pairing.
  - right. split; [reflexivity | discriminate].
  - right. split; [reflexivity | discriminate].
  - right. split; [reflexivity | discriminate].
Qed.

Lemma scale k a b : a <= b -> k * a <= k * b.
Proof. intros H. apply N.mul_le_mono_l. exact H. Qed.

Ltac free := cbn [t_skip_content t_skip_loop]; rewrite ?cost_silent; cbn [snd fst silent sbind]; lia.

(** ** Headers and contents *)

Lemma located_bytes i : located whole i -> bytes_ok (in_data i).
Proof. intros (pre & post & E & _). revert By. rewrite E. intros B. apply Forall_app in B as [_ B]. apply Forall_app in B. apply B. Qed.

(** A header function: one header is read, and at least two octets, if it succeeds. *)
Definition reads_header (hd : input -> lres (input * sheader)) : Prop := forall i, located whole i ->
  cost (hd i) <= 1
  /\ forall r h, snd (hd i) = SOk (r, h) -> suffix whole i r /\ header_located whole h /\ blen (in_data r) + 2 <= blen (in_data i).
Lemma one_header f i : cost (trace_input c AtHeader (fun i => silent (f i : sres (input * sheader))) i) <= 1.
Proof. pose proof (cost_trace AtHeader (fun i => silent (f i)) i) as H. unfold cost at 2 in H. cbn in H. exact H. Qed.
Lemma header_reads : reads_header (t_header c).
Proof.
  intros i L. split. { apply one_header. }
  intros r h E. destruct (header_rel c whole W i L) as (_ & S & _). destruct (sim_ok _ _ _ _ _ _ S E) as [P [H Sx]]. cbn [fst snd] in *.
  split; [exact Sx|]. split; [eapply layout_header; exact H|].
  destruct (parse_header_consumes _ _ _ (located_bytes i L) P) as (pre & E2 & N2). rewrite E2. cbn [dataH fst]. unfold blen. rewrite app_length. lia.
Qed.
Lemma header_der_reads : reads_header (t_header_der c).
Proof.
  intros i L. split. { apply one_header. }
  intros r h E. destruct (header_der_rel c whole W i L) as (_ & S & _). destruct (sim_ok _ _ _ _ _ _ S E) as [P [H Sx]]. cbn [fst snd] in *.
  split; [exact Sx|]. split; [eapply layout_header; exact H|].
  unfold header_parse_der in P. apply bind_ok in P as ([r1 h1] & P & Q).
  destruct (parse_header_consumes _ _ _ (located_bytes i L) P) as (pre & E2 & N2).
  assert (Er: r1 = in_data r). { unfold dataH in Q. destruct (is_definite _); [injection Q as Q _; exact Q | discriminate]. }
  rewrite E2, Er. unfold blen. rewrite app_length. lia.
Qed.

(** At most [w] headers for each octet consumed; [w] for each octet, and [w] more, if it fails. *)
Definition used {T} (i : input) (r : sres (input * T)) : N := match r with SOk (rem, _) => blen (in_data i) - blen (in_data rem) | _ => 1 + blen (in_data i) end.
Definition linear {T} (w : N) (i : input) (m : lres (input * T)) : Prop := cost m <= w * used i (snd m).
Definition taken {T} (i : input) (r : sres (input * T)) : N := match r with SOk (rem, _) => blen (in_data i) - blen (in_data rem) | _ => blen (in_data i) end.
Definition bounded {T} (w : N) (i : input) (m : lres (input * T)) : Prop := cost m <= w * (1 + taken i (snd m)).
Lemma used_failed {T} i (r : sres (input * T)) : (forall x, r <> SOk x) -> used i r = 1 + blen (in_data i).
Proof. intros H. destruct r as [[rem x]| | |]; [destruct (H _ eq_refl)|reflexivity..]. Qed.
Lemma used_le {T} i (r : sres (input * T)) : used i r <= 1 + blen (in_data i).
Proof. destruct r as [[rem x]| | |]; cbn; lia. Qed.
Lemma linear_at {A T} w i (r : res A) (k : A -> lres (input * T)) : (forall a, linear w i (k a)) -> linear w i (lbind (silent (at_input i r)) k).
Proof.
  intros H. unfold linear. destruct (at_cases i r k) as [[a ->]|[E _]]; [apply H | rewrite E; lia].
Qed.
Lemma skip_cost : forall d h i, located whole i -> linear 1 i (t_skip_content c d h i).
Proof.
  induction d as [|d IH]; intros h i L; [unfold linear; free|]. cbn [t_skip_content]. destruct (h_length (sh_fields h)) as [l|].
  - unfold linear. destruct (_ && _); [free|]. rewrite cost_bind, cost_silent. destruct (snd (silent (s_take l i))) as [[r x]| | |] eqn:E; free.
  - apply linear_at. intros _. generalize (S (length (in_data i))) as fuel. intros fuel. revert i L.
    induction fuel as [|fuel IHf]; intros i L; [unfold linear; free|].
    cbn [t_skip_loop]. unfold linear. destruct (header_reads i L) as [C1 H1]. rewrite cost_bind, snd_bind. destruct (snd (t_header c i)) as [[i2 h2]| | |]; [|cbn [sbind used]; lia..].
    destruct (H1 _ _ eq_refl) as (S2 & _ & N2). cbn [sbind]. specialize (IH h2 i2 (proj1 S2)). destruct (skip_content_rel c whole W d h2 i2 (proj1 S2)) as (_ & R & _).
    unfold linear in IH. rewrite cost_bind, snd_bind. destruct (snd (t_skip_content c d h2 i2)) as [[i3 eoc]| | |] eqn:E3; [|cbn [sbind used] in *; lia..].
    pose proof (sim_prop _ _ _ _ _ _ R eq_refl) as S3. cbn [fst] in S3. pose proof (suffix_len _ _ _ (proj1 S2) S3). cbn [sbind used] in *.
    destruct eoc; [rewrite cost_silent; cbn [silent snd used]; lia|]. specialize (IHf i3 (proj1 S3)). unfold linear in IHf.
    destruct (skip_loop_rel c whole W _ _ _ (skip_content_rel c whole W d) fuel i3 (proj1 S3)) as (_ & R4 & _).
    destruct (snd (t_skip_loop c (t_skip_content c d) fuel i3)) as [[r b]| | |]; [|cbn [used] in *; lia..].
    pose proof (sim_prop _ _ _ _ _ _ R4 eq_refl) as S4. cbn [fst] in S4. pose proof (suffix_len _ _ _ (proj1 S3) S4). cbn [used] in *. lia.
Qed.
(** The rest and the content of an object, after its header. *)
Definition splits (i : input) (m : lres (input * input)) : Prop := linear 1 i m
  /\ forall r d, snd m = SOk (r, d) -> suffix whole i r /\ located whole d /\ blen (in_data d) + blen (in_data r) <= blen (in_data i).
Lemma content_cost h i : located whole i -> splits i (t_ber_object_content c h i MAX_RECURSION).
Proof.
  intros L. destruct (content_rel c whole W h i MAX_RECURSION L) as (_ & R & _). split.
  - pose proof (skip_cost MAX_RECURSION h i L) as H. unfold linear in *. unfold t_ber_object_content in *. rewrite cost_bind. rewrite snd_bind in *.
    destruct (snd (t_skip_content c MAX_RECURSION h i)) as [[r b]| | |] eqn:E; [|cbn [sbind used] in *; lia..]. rewrite cost_silent. cbn [sbind silent snd] in *.
    destruct (skip_content_rel c whole W MAX_RECURSION h i L) as (_ & R2 & _). pose proof (sim_prop _ _ _ _ _ _ R2 E) as S2. cbn [fst] in S2.
    pose proof (suffix_len _ _ _ L S2).
    unfold usize_sub in *. pose proof S2 as (Lr & Er & Sr). destruct (N.leb_spec (in_start i) (in_start r)); [|lia]. cbn [sbind] in *.
    destruct (is_definite _).
    + pose proof (take_split_sim whole i (in_start r - in_start i) W L ltac:(lia)) as T. destruct (in_take_split i _) as [[r2 d]| | |] eqn:E2; [|cbn [used] in *; lia..].
      destruct (sim_prop _ _ _ _ _ _ T eq_refl) as [(S3 & _) T2]. cbn [fst] in *. pose proof (suffix_len _ _ _ L S3). cbn [used] in *. lia.
    + destruct (_ <? 2); [cbn [used] in *; lia|]. destruct (in_take i _); cbn [sbind used] in *; lia.
  - intros r d E. destruct (sim_prop _ _ _ _ _ _ R E) as (S & D & E1 & E2). cbn [fst snd] in *. split; [exact S|]. split; [exact D|].
    pose proof (suffix_len _ _ _ L S). pose proof (located_end _ _ D). pose proof (located_end _ _ L). pose proof (located_end _ _ (proj1 S)). destruct S as (_ & S2 & S3). lia.
Qed.
Lemma take_cost l i : located whole i -> splits i (silent (s_take l i)).
Proof.
  intros L. split; [unfold linear; rewrite cost_silent; lia|]. intros r d E. cbn [silent snd] in E.
  destruct (sim_prop _ _ _ _ _ _ (take_sim whole i l W L) E) as (S & D & E1 & E2). cbn [fst snd] in *. split; [exact S|]. split; [exact D|].
  pose proof (suffix_len _ _ _ L S). pose proof (located_end _ _ D). pose proof (located_end _ _ L). pose proof (located_end _ _ (proj1 S)). destruct S as (_ & S2 & S3). lia.
Qed.

(** ** Objects *)

Lemma linear_bounded {T} w i (m : lres (input * T)) : linear w i m -> bounded w i m.
Proof. unfold linear, bounded. intros H. eapply N.le_trans; [exact H|]. apply scale. unfold used, taken. destruct (snd m) as [[r x]| | |]; lia. Qed.
Lemma bounded_all {T} w i (m : lres (input * T)) : bounded w i m -> cost m <= w * (1 + blen (in_data i)).
Proof. intros H. eapply N.le_trans; [exact H|]. apply scale. unfold taken. destruct (snd m) as [[r x]| | |]; lia. Qed.
Lemma linear_trace {T} w s (f : input -> lres (input * T)) i : s <> AtHeader -> linear w i (f i) -> linear w i (trace_input c s f i).
Proof.
  intros Hs H. unfold linear in *. pose proof (cost_trace s f i) as Q. rewrite trace_result. eapply N.le_trans; [exact Q|].
  assert (Z: match s with AtHeader => 1 | _ => 0 end = 0) by (destruct s; congruence). rewrite Z, N.add_0_r. eapply N.le_trans; [exact H|]. apply scale.
  unfold checked. destruct (snd (f i)) as [[r x]| | |]; [|cbn [used]; lia..]. destruct (_ && _); cbn [used]; lia.
Qed.
Lemma bounded_trace {T} w s (f : input -> lres (input * T)) i : s <> AtHeader -> bounded w i (f i) -> bounded w i (trace_input c s f i).
Proof.
  intros Hs H. unfold bounded in *. pose proof (cost_trace s f i) as Q. rewrite trace_result. eapply N.le_trans; [exact Q|].
  assert (Z: match s with AtHeader => 1 | _ => 0 end = 0) by (destruct s; congruence). rewrite Z, N.add_0_r. eapply N.le_trans; [exact H|]. apply scale.
  unfold checked. destruct (snd (f i)) as [[r x]| | |]; [|cbn [taken]; lia..]. destruct (_ && _); cbn [taken]; lia.
Qed.

(** A content parser of weight [w]. *)
Definition weighs {T} (w : N) (f : sheader -> input -> lres (input * T)) : Prop := forall h i, header_located whole h -> located whole i ->
  cost (f h i) <= w * (1 + blen (in_data i)).

(** An object: a header, its content, and the value of the content. *)
Lemma object_cost {T V} w (hd : input -> lres (input * sheader)) (ct : sheader -> input -> lres (input * input)) (f : sheader -> input -> lres (input * T))
    (done : input -> T -> V) i :
  reads_header hd -> (forall h i, located whole i -> splits i (ct h i)) -> weighs w f -> located whole i ->
  forall r h, snd (hd i) = SOk (r, h) ->
  let m := (let! (r2, d) := ct h r in let! (_, x) := f h d in silent (SOk (r2, done d x))) in
  cost (hd i) + cost m <= (1 + w) * used i (snd m).
Proof.
  intros H C F L r h E. cbv zeta. destruct (H i L) as [H1 H2]. destruct (H2 r h E) as (S & Hh & N2). destruct (C h r (proj1 S)) as [C1 C2].
  rewrite cost_bind, snd_bind. unfold linear in C1. destruct (snd (ct h r)) as [[r2 d]| | |] eqn:E2; [|cbn [sbind used] in *; nia..].
  destruct (C2 _ _ eq_refl) as (S2 & Ld & N3). cbn [sbind]. rewrite cost_bind, snd_bind. specialize (F h d Hh Ld).
  assert (K: cost (hd i) + cost (ct h r) + cost (f h d) <= (1 + w) * (blen (in_data i) - blen (in_data r2))).
  { pose proof (suffix_len _ _ _ (proj1 S) S2) as [_ N4]. cbn [used] in C1.
    assert (w * (1 + blen (in_data d)) <= w * (blen (in_data i) - blen (in_data r2))) by (apply scale; lia). lia. }
  destruct (snd (f h d)) as [[r3 x]| | |]; cbn [sbind]; rewrite ?cost_silent; cbn [silent snd used]; [lia|..];
    (assert ((1 + w) * (blen (in_data i) - blen (in_data r2)) <= (1 + w) * (1 + blen (in_data i))) by (apply scale; lia); lia).
Qed.
Lemma default_ber_cost {T} w (p : tparser T) i : weighs w (tp_ber p) -> located whole i -> linear (1 + w) i (t_parse_ber c p i).
Proof.
  intros F L. apply linear_trace; [discriminate|]. unfold linear. rewrite cost_bind, snd_bind. pose proof (header_reads i L) as [H1 _].
  destruct (snd (t_header c i)) as [[r h]| | |] eqn:E; [|cbn [sbind used]; nia..]. cbn [sbind]. destruct (tp_accept p _); [|rewrite cost_silent; cbn [silent snd used]; nia].
  assert (G: weighs w (fun h => trace_input c AtBerContent (tp_ber p h))).
  { intros h' i' Hh' L'. pose proof (cost_trace AtBerContent (tp_ber p h') i') as Q. specialize (F h' i' Hh' L'). cbv beta iota in *. lia. }
  exact (object_cost w (t_header c) (fun h i => t_ber_object_content c h i MAX_RECURSION) _ (fun _ x => x) i header_reads content_cost G L r h E).
Qed.
Lemma default_der_cost {T} w (p : tparser T) i : weighs w (tp_der p) -> located whole i -> linear (1 + w) i (t_parse_der c p i).
Proof.
  intros F L. apply linear_trace; [discriminate|]. unfold linear. rewrite cost_bind, snd_bind. pose proof (header_der_reads i L) as [H1 _].
  destruct (snd (t_header_der c i)) as [[r h]| | |] eqn:E; [|cbn [sbind used]; nia..]. cbn [sbind].
  destruct (h_length (sh_fields h)) as [l|] eqn:El; [|rewrite cost_silent; cbn [silent snd used]; nia].
  destruct (tp_accept p _); [|rewrite cost_silent; cbn [silent snd used]; nia].
  assert (G: weighs w (fun h => trace_input c AtDerContent (tp_der p h))).
  { intros h' i' Hh' L'. pose proof (cost_trace AtDerContent (tp_der p h') i') as Q. specialize (F h' i' Hh' L'). cbv beta iota in *. lia. }
  exact (object_cost w (t_header_der c) (fun h i => silent (s_take l i)) _ (fun _ x => x) i header_der_reads (fun h i => take_cost l i) G L r h E).
Qed.

(** A type of weight [w]. *)
Definition costs {T} (w : N) (k : kparser T) : Prop :=
  weighs w (kp_ber k) /\ weighs w (kp_der k) /\ forall i, located whole i -> bounded (1 + w) i (kp_parse_ber k i) /\ bounded (1 + w) i (kp_parse_der k i).
Lemma default_costs {T} w (p : tparser T) : weighs w (tp_ber p) -> weighs w (tp_der p) -> costs w (k_default c p).
Proof.
  intros B D. split; [exact B|]. split; [exact D|]. intros i L. split; apply linear_bounded; [apply default_ber_cost | apply default_der_cost]; assumption.
Qed.

(** ** Collections *)

(** What the loop needs of the items. *)
Definition item_cost (p : input -> lres (input * sany)) : Prop := forall i, located whole i ->
  linear 1 i (p i) /\ forall r a, snd (p i) = SOk (r, a) -> suffix whole i r /\ good_any whole a /\ blen (in_data (sa_data a)) + 1 + blen (in_data r) <= blen (in_data i).
Lemma collect_cost {T} w p (f : sany -> lres T) : item_cost p ->
  (forall a, good_any whole a -> cost (f a) <= w * (1 + blen (in_data (sa_data a)))) ->
  forall fuel i, located whole i -> cost (t_collect_loop p f fuel i) <= (1 + w) * (1 + blen (in_data i)).
Proof.
  intros P F. induction fuel as [|fuel IH]; intros i L; cbn [t_collect_loop]; [rewrite cost_silent; lia|].
  destruct (blen (in_data i) =? 0); [rewrite cost_silent; lia|]. rewrite cost_bind. destruct (P i L) as [P1 P2]. unfold linear in P1.
  change (cost (fst (p i), s_close i (snd (p i)))) with (cost (p i)). cbn [snd].
  destruct (snd (p i)) as [[r a]| | |]; cbn [s_close used] in *; try nia. destruct (P2 _ _ eq_refl) as (S & G & N2). specialize (F a G). specialize (IH r (proj1 S)).
  assert (w * (1 + blen (in_data (sa_data a))) <= w * (blen (in_data i) - blen (in_data r))) by (apply scale; lia).
  assert (E: (1 + w) * (1 + blen (in_data i)) = (blen (in_data i) - blen (in_data r)) + w * (blen (in_data i) - blen (in_data r)) + (1 + w) * (1 + blen (in_data r))) by nia.
  rewrite cost_bind. destruct (snd (f a)) as [x| | |]; [|lia..]. rewrite cost_bind.
  destruct (snd (t_collect_loop p f fuel r)) as [[r2 xs]| | |]; rewrite ?cost_silent; lia.
Qed.
Lemma trace_ok {T} s (f : input -> lres (input * T)) i q : snd (trace_input c s f i) = SOk q -> snd (f i) = SOk q.
Proof. rewrite trace_result. unfold checked. destruct (snd (f i)) as [[r x]| | |]; [destruct (_ && _); [discriminate|]|..]; intros E; exact E. Qed.
Lemma any_weighs : weighs 0 (tp_ber (quiet s_any_parser)) /\ weighs 0 (tp_der (quiet s_any_parser)).
Proof. split; intros h i Hh L; cbn [quiet tp_ber tp_der]; rewrite cost_silent; lia. Qed.
Lemma any_size h d r a : located whole d -> s_any_ber_content h d = SOk (r, a) \/ s_any_der_content h d = SOk (r, a) -> blen (in_data (sa_data a)) <= blen (in_data d).
Proof.
  intros L E. assert (X: exists l, s_take l d = SOk (r, sa_data a)).
  { unfold s_any_ber_content, s_any_der_content, s_der_get_content in E. destruct (h_length (sh_fields h)) as [l|].
    - exists l. destruct (s_take l d) as [[r2 x]| | |]; cbn in E; destruct E as [E|E]; try discriminate; injection E as <- <-; reflexivity.
    - exists (blen (in_data d)). destruct E as [E|E]; [|discriminate]. destruct (s_take _ d) as [[r2 x]| | |]; cbn in E; try discriminate. injection E as <- <-. reflexivity. }
  destruct X as [l X]. destruct (proj2 (take_cost l d L) r (sa_data a) X) as (_ & _ & N). lia.
Qed.
Lemma any_item_ber : item_cost (t_parse_ber c (quiet s_any_parser)).
Proof.
  intros i L. split; [exact (default_ber_cost 0 _ i (proj1 any_weighs) L)|]. intros r a E.
  destruct (parsed_any_ber c whole W i L) as (_ & R & _). destruct (sim_prop _ _ _ _ _ _ R E) as [S G]. cbn [fst snd] in *. split; [exact S|]. split; [exact G|].
  apply trace_ok in E. rewrite snd_bind in E. destruct (header_reads i L) as [_ H]. destruct (snd (t_header c i)) as [[r1 h]| | |]; try discriminate.
  destruct (H _ _ eq_refl) as (S1 & _ & N1). cbn [sbind quiet tp_accept sp_accept s_any_parser] in E. rewrite snd_bind in E.
  destruct (content_cost h r1 (proj1 S1)) as [_ C]. destruct (snd (t_ber_object_content c h r1 MAX_RECURSION)) as [[r2 d]| | |]; try discriminate.
  destruct (C _ _ eq_refl) as (S2 & Ld & N2). cbn [sbind] in E. rewrite snd_bind in E.
  match type of E with context [trace_input c ?s ?f d] => destruct (snd (trace_input c s f d)) as [[r3 x]| | |] eqn:E3 end; try discriminate.
  cbn [sbind silent snd] in E. injection E as <- <-. apply trace_ok in E3. cbn [tp_ber silent snd sp_ber] in E3. pose proof (any_size h d r3 x Ld (or_introl E3)). lia.
Qed.
Lemma any_item_der : item_cost (t_parse_der c (quiet s_any_parser)).
Proof.
  intros i L. split; [exact (default_der_cost 0 _ i (proj2 any_weighs) L)|]. intros r a E.
  destruct (parsed_any_der c whole W i L) as (_ & R & _). destruct (sim_prop _ _ _ _ _ _ R E) as [S G]. cbn [fst snd] in *. split; [exact S|]. split; [exact G|].
  apply trace_ok in E. rewrite snd_bind in E. destruct (header_der_reads i L) as [_ H]. destruct (snd (t_header_der c i)) as [[r1 h]| | |]; try discriminate.
  destruct (H _ _ eq_refl) as (S1 & _ & N1). cbn [sbind quiet tp_accept sp_accept s_any_parser] in E. destruct (h_length (sh_fields h)) as [l|]; [|discriminate]. rewrite snd_bind in E.
  destruct (take_cost l r1 (proj1 S1)) as [_ C]. destruct (snd (silent (s_take l r1))) as [[r2 d]| | |]; try discriminate.
  destruct (C _ _ eq_refl) as (S2 & Ld & N2). cbn [sbind] in E. rewrite snd_bind in E.
  match type of E with context [trace_input c ?s ?f d] => destruct (snd (trace_input c s f d)) as [[r3 x]| | |] eqn:E3 end; try discriminate.
  cbn [sbind silent snd] in E. injection E as <- <-. apply trace_ok in E3. cbn [tp_der silent snd sp_der] in E3. pose proof (any_size h d r3 x Ld (or_intror E3)). lia.
Qed.
Lemma at_cost {A B} i (r : res A) (k : A -> lres B) n : (forall a, cost (k a) <= n) -> cost (lbind (silent (at_input i r)) k) <= n.
Proof. intros H. destruct (at_cases i r k) as [[a ->]|[-> _]]; [apply H | lia]. Qed.
Lemma then_silent {A B} (m : lres A) (f : A -> sres B) : cost (lbind m (fun a => silent (f a))) = cost m.
Proof. rewrite cost_bind. destruct (snd m); rewrite ?cost_silent; lia. Qed.
Lemma convert_cost {T} w (acc : N -> bool) (f : sheader -> input -> lres (input * T)) : weighs w f ->
  forall a, good_any whole a -> cost (t_convert_item acc f a) <= w * (1 + blen (in_data (sa_data a))).
Proof.
  intros F a [Ga Gd]. unfold t_convert_item. destruct (acc _); [|rewrite cost_silent; lia]. rewrite cost_bind. specialize (F _ _ Ga Gd).
  destruct (snd (f _ _)) as [[? ?]| | |]; rewrite ?cost_silent; lia.
Qed.
Section Elements.
  Context {S : Type} (w : N) (k : kparser S) (K : costs w k).
  Lemma items_ber_cost i : located whole i -> cost (k_collect_ber c k i) <= (1 + w) * (1 + blen (in_data i)).
  Proof. apply collect_cost; [exact any_item_ber | apply convert_cost; apply K]. Qed.
  Lemma items_der_cost i : located whole i -> cost (k_collect_der c k i) <= (1 + w) * (1 + blen (in_data i)).
  Proof. apply collect_cost; [exact any_item_der | apply convert_cost; apply K]. Qed.
  Lemma vec_weighs : weighs (1 + w) (kp_ber (k_vec c k)) /\ weighs (1 + w) (kp_der (k_vec c k)).
  Proof.
    split; intros h i Hh L; cbn [k_vec k_default kp_ber kp_der t_vec_parser tp_ber tp_der kp_contents tp_accept]; unfold t_vec_content;
      (apply at_cost; intros _; destruct (blen (in_data i) =? 0); [rewrite cost_silent; lia|]); [apply items_ber_cost | apply items_der_cost]; exact L.
  Qed.
  Lemma vec_costs : costs (1 + w) (k_vec c k).
  Proof. destruct vec_weighs as [B D]. apply default_costs; [exact B | exact D]. Qed.
  Lemma array_costs n : costs (1 + w) (k_array c n k).
  Proof.
    destruct vec_weighs as [B D]. apply default_costs; intros h i Hh L; cbn [tp_ber tp_der]; unfold k_array_content; rewrite cost_bind.
    - specialize (B h i Hh L). destruct (snd (kp_ber _ h i)) as [[? ?]| | |]; rewrite ?cost_silent; lia.
    - specialize (D h i Hh L). destruct (snd (kp_der _ h i)) as [[? ?]| | |]; rewrite ?cost_silent; lia.
  Qed.
  Lemma set_costs g : costs (1 + w) (k_set c g k).
  Proof.
    apply default_costs; intros h i Hh L; cbn [tp_ber tp_der]; unfold k_set_content; apply at_cost; intros _; rewrite cost_bind.
    - pose proof (items_ber_cost i L). destruct (snd (k_collect_ber c k i)) as [[? ?]| | |]; rewrite ?cost_silent; lia.
    - pose proof (items_der_cost i L). destruct (snd (k_collect_der c k i)) as [[? ?]| | |]; rewrite ?cost_silent; lia.
  Qed.
  Lemma explicit_costs cl n : costs (1 + w) (k_explicit c cl n k).
  Proof.
    destruct K as (_ & _ & P). apply default_costs; intros h i Hh L; cbn [tp_ber tp_der]; unfold t_explicit_content; do 3 (apply at_cost; intros _);
      apply bounded_all; apply P; exact L.
  Qed.
  Lemma implicit_costs cl n : costs w (k_implicit c cl n k).
  Proof.
    destruct K as (B & D & _). apply default_costs; intros h i Hh L; cbn [tp_ber tp_der]; unfold k_implicit_content; apply at_cost; intros _; [apply B | apply D]; assumption.
  Qed.
  Lemma tagged_costs g : costs (match tg_kind g with KExplicit => 1 + w | KImplicit => w end) (k_tagged c g k).
  Proof. unfold k_tagged. destruct (tg_kind g); [apply explicit_costs | apply implicit_costs]. Qed.
  Lemma alias_costs : costs w (k_alias c k).
  Proof. destruct K as (B & D & _). apply default_costs; assumption. Qed.

  Lemma option_weighs acc f : weighs w f -> weighs (1 + w) (t_option_content (T := S) c acc f).
  Proof.
    intros F h i Hh L. unfold t_option_content. destruct (acc _); [|rewrite cost_silent; lia]. rewrite cost_bind. destruct (content_cost h i L) as [C1 C2].
    unfold linear in C1. destruct (snd (t_ber_object_content c h i MAX_RECURSION)) as [[r d]| | |]; cbn [used] in *; [|nia..].
    destruct (C2 _ _ eq_refl) as (S2 & Ld & N2). specialize (F h d Hh Ld). rewrite cost_bind.
    assert (w * (1 + blen (in_data d)) <= w * (1 + blen (in_data i))) by (apply scale; lia).
    destruct (snd (f h d)) as [[? ?]| | |]; rewrite ?cost_silent; lia.
  Qed.
  Lemma option_objects_cost s hd acc f i : s <> AtHeader -> reads_header hd -> weighs w f -> located whole i ->
    bounded (2 + w) i (t_option_parse (T := S) c s hd acc f i).
  Proof.
    intros Hs H F L. apply bounded_trace; [exact Hs|]. unfold bounded. destruct (blen (in_data i) =? 0); [rewrite cost_silent; lia|].
    rewrite cost_bind, snd_bind. destruct (snd (hd i)) as [[r h]| | |] eqn:E; [|destruct (H i L) as [H1 _]; cbn [sbind taken]; nia..]. cbn [sbind].
    destruct (acc _) eqn:Ea; [|destruct (H i L) as [H1 _]; rewrite cost_silent; cbn [silent snd taken]; nia].
    pose proof (object_cost (1 + w) hd (fun h i => t_ber_object_content c h i MAX_RECURSION) _ (fun _ x => x) i H content_cost (option_weighs acc f F) L r h E) as Q.
    cbv zeta beta in Q. eapply N.le_trans; [exact Q|]. replace (1 + (1 + w)) with (2 + w) by lia. apply scale. unfold used, taken.
    match goal with |- context [match ?x with SOk _ => _ | SErr _ _ => _ | SIncomplete _ => _ | SPanic => _ end] => destruct x as [[? ?]| | |] end; lia.
  Qed.
  Lemma option_costs : costs (1 + w) (k_option c k).
  Proof.
    destruct K as (B & D & _). split; [apply option_weighs; exact B|]. split; [apply option_weighs; exact D|]. intros i L. replace (1 + (1 + w)) with (2 + w) by lia.
    split; apply option_objects_cost; try assumption; try discriminate; [exact header_reads | exact header_der_reads].
  Qed.
End Elements.

(** ** Strings *)

Lemma definite_cost h i d : is_definite (h_length (sh_fields h)) = true \/ h_constructed (sh_fields h) = false -> cost (t_ber_object_content c h i d) = 0.
Proof.
  intros H. unfold t_ber_object_content. rewrite cost_bind.
  assert (E: cost (t_skip_content c d h i) = 0).
  { destruct d as [|d]; [reflexivity|]. cbn [t_skip_content]. destruct (h_length (sh_fields h)) as [l|].
    - destruct (_ && _); [reflexivity|]. rewrite cost_bind, cost_silent. destruct (snd _) as [[? ?]| | |]; reflexivity.
    - destruct H as [H|H]; [discriminate|]. unfold assert_constructed. rewrite H. reflexivity. }
  rewrite E. destruct (snd _) as [[? ?]| | |]; rewrite ?cost_silent; reflexivity.
Qed.
Section Segments.
  Context {T : Type} (g : segments T).
  Lemma seg_loop_cost w (seg : sheader -> input -> lres (input * T)) : weighs w seg ->
    forall fuel i v, located whole i -> cost (k_seg_loop c g seg fuel i v) <= (1 + w) * (1 + blen (in_data i)).
  Proof.
    intros F. induction fuel as [|fuel IH]; intros i v L; cbn [k_seg_loop]; [rewrite cost_silent; lia|].
    destruct (blen (in_data i) =? 0); [rewrite cost_silent; lia|]. rewrite cost_bind. destruct (any_item_ber i L) as [P1 P2]. unfold linear in P1.
    set (p := t_parse_ber c (quiet s_any_parser) i) in *. change (cost (fst p, s_close i (snd p))) with (cost p). cbn [snd].
    destruct (snd p) as [[r a]| | |]; cbn [s_close used] in *; try nia. destruct (P2 _ _ eq_refl) as (S & G & N2). destruct G as [Ga Gd]. specialize (F _ _ Ga Gd).
    assert (w * (1 + blen (in_data (sa_data a))) <= w * (blen (in_data i) - blen (in_data r))) by (apply scale; lia).
    assert (E: (1 + w) * (1 + blen (in_data i)) = (blen (in_data i) - blen (in_data r)) + w * (blen (in_data i) - blen (in_data r)) + (1 + w) * (1 + blen (in_data r))) by nia.
    cbv zeta. destruct (_ =? TagEndOfContent); [rewrite cost_silent; lia|]. destruct (negb _); [rewrite cost_silent; lia|].
    destruct (blen (in_data (sa_data a)) =? 0); [pose proof (IH r v (proj1 S)); lia|]. rewrite cost_bind.
    destruct (snd (seg _ _)) as [[r2 x]| | |]; [|lia..]. pose proof (IH r (sg_append g v x) (proj1 S)). lia.
  Qed.
  Lemma segmented_cost : forall limit, weighs (N.of_nat limit) (k_segmented c g limit).
  Proof.
    induction limit as [|limit IH]; intros h i Hh L; cbn [k_segmented]; [rewrite cost_silent; lia|].
    destruct (blen (in_data i) =? 0); [rewrite cost_silent; lia|]. destruct (h_constructed (sh_fields h)) eqn:Hc.
    - set (m := if is_definite (h_length (sh_fields h)) then t_ber_object_content c h i MAX_RECURSION else silent (in_take_split i (blen (in_data i)))).
      assert (M: cost m = 0). { unfold m. destruct (is_definite _) eqn:Hd; [apply definite_cost; left; exact Hd | apply cost_silent]. }
      assert (Q: forall r d, snd m = SOk (r, d) -> located whole d /\ blen (in_data d) <= blen (in_data i)).
      { unfold m. destruct (is_definite _); intros r d E.
        - destruct (proj2 (content_cost h i L) r d E) as (_ & Ld & N2). split; [exact Ld | lia].
        - destruct (sim_prop _ _ _ _ _ _ (take_split_sim whole i (blen (in_data i)) W L ltac:(lia)) E) as ((S & D & E1 & E2) & _). cbn [fst snd] in *. split; [exact D|].
          pose proof (suffix_len _ _ _ L S). pose proof (located_end _ _ D). pose proof (located_end _ _ L). pose proof (located_end _ _ (proj1 S)). destruct S as (_ & S2 & S3). lia. }
      rewrite cost_bind, M. destruct (snd m) as [[r d]| | |]; [|lia..]. destruct (Q _ _ eq_refl) as [Ld Nd]. rewrite cost_bind.
      pose proof (seg_loop_cost _ _ IH (Datatypes.S (length (in_data d))) d (sg_default g) Ld) as K.
      assert ((1 + N.of_nat limit) * (1 + blen (in_data d)) <= (1 + N.of_nat limit) * (1 + blen (in_data i))) by (apply scale; lia).
      replace (N.of_nat (S limit)) with (1 + N.of_nat limit) by lia.
      destruct (snd (k_seg_loop c g _ _ d _)); rewrite ?cost_silent; lia.
    - rewrite cost_bind, definite_cost by (right; exact Hc). destruct (snd (t_ber_object_content c h i MAX_RECURSION)) as [[r d]| | |]; [|lia..].
      rewrite cost_bind, cost_silent. destruct (snd (silent _)) as [[? ?]| | |]; rewrite ?cost_silent; lia.
  Qed.
  Lemma string_costs {U} tag (finish : T -> res U) : costs (N.of_nat (sg_limit g)) (k_string c tag g finish).
  Proof.
    assert (B: weighs (N.of_nat (sg_limit g)) (k_string_ber c g finish)).
    { intros h i Hh L. unfold k_string_ber. set (m := if negb _ then _ else _).
      assert (M: cost m <= N.of_nat (sg_limit g) * (1 + blen (in_data i))).
      { unfold m. destruct (negb _); [rewrite cost_silent; lia | apply segmented_cost; assumption]. }
      rewrite cost_bind. destruct (snd m) as [[r d]| | |]; [|lia..].
      rewrite cost_bind, cost_silent. destruct (snd (silent _)) as [?| | |]; rewrite ?cost_silent; lia. }
    apply default_costs; [exact B|]. intros h i Hh L. cbn [tp_der]. unfold k_string_der. apply at_cost. intros _. apply B; assumption.
  Qed.
End Segments.

(** ** Tuples, structs and choices *)

Definition moves {T} (k : kfield T) : Prop := forall i r x, located whole i -> snd (k i) = SOk (r, x) -> suffix whole i r.
Definition field_costs {T} (w : N) (k : kfield T) : Prop := forall i, located whole i -> bounded w i (k i).
Lemma field_moves {S U} (f : S -> U) good k k0 p : field_ok c whole f good k k0 p -> moves k.
Proof. intros H i r x L E. destruct (H i L) as (_ & R & _). destruct (sim_prop _ _ _ _ _ _ R E) as [Sx _]. exact Sx. Qed.
Lemma type_moves {S U} (f : S -> U) good k k0 p : type_ok c whole f good k k0 p -> moves (kp_parse_ber k) /\ moves (kp_parse_der k).
Proof.
  intros (_ & _ & _ & O). split; intros i r x L E; destruct (O i L) as [B D].
  - destruct B as (_ & R & _). destruct (sim_prop _ _ _ _ _ _ R E) as [Sx _]. exact Sx.
  - destruct D as (_ & R & _). destruct (sim_prop _ _ _ _ _ _ R E) as [Sx _]. exact Sx.
Qed.
Lemma no_field_costs : field_costs 0 k_no_field.
Proof. intros i L. unfold bounded, k_no_field. rewrite cost_silent. lia. Qed.
Lemma add_field_costs {A B} w v (k : kfield A) (j : kfield B) : moves k -> moves j -> field_costs w k -> field_costs v j -> field_costs (w + v) (k_field k j).
Proof.
  intros M N K J i L. unfold bounded, k_field. rewrite cost_bind, snd_bind. specialize (K i L). unfold bounded in K.
  destruct (snd (k i)) as [[r x]| | |] eqn:E; cbn [sbind taken] in *; [|nia..]. pose proof (M i r x L E) as S1. pose proof (suffix_len _ _ _ L S1) as [_ N1].
  specialize (J r (proj1 S1)). unfold bounded in J. rewrite cost_bind, snd_bind. destruct (snd (j r)) as [[r2 y]| | |] eqn:E2; cbn [sbind taken] in *.
  - pose proof (N r r2 y (proj1 S1) E2) as S2. pose proof (suffix_len _ _ _ (proj1 S1) S2) as [_ N2]. rewrite cost_silent. cbn [silent snd taken].
    assert (w * (1 + (blen (in_data i) - blen (in_data r))) <= w * (1 + (blen (in_data i) - blen (in_data r2)))) by (apply scale; lia).
    assert (v * (1 + (blen (in_data r) - blen (in_data r2))) <= v * (1 + (blen (in_data i) - blen (in_data r2)))) by (apply scale; lia). lia.
  - assert (w * (1 + (blen (in_data i) - blen (in_data r))) <= w * (1 + blen (in_data i))) by (apply scale; lia).
    assert (v * (1 + blen (in_data r)) <= v * (1 + blen (in_data i))) by (apply scale; lia). lia.
  - assert (w * (1 + (blen (in_data i) - blen (in_data r))) <= w * (1 + blen (in_data i))) by (apply scale; lia).
    assert (v * (1 + blen (in_data r)) <= v * (1 + blen (in_data i))) by (apply scale; lia). lia.
  - assert (w * (1 + (blen (in_data i) - blen (in_data r))) <= w * (1 + blen (in_data i))) by (apply scale; lia).
    assert (v * (1 + blen (in_data r)) <= v * (1 + blen (in_data i))) by (apply scale; lia). lia.
Qed.
Lemma tagged_optional_costs {A} w hd n (k : kfield A) : reads_header hd -> field_costs w k -> field_costs (1 + w) (k_tagged_optional hd n k).
Proof.
  intros H K i L. unfold bounded, k_tagged_optional. destruct (blen (in_data i) =? 0); [rewrite cost_silent; lia|]. destruct (H i L) as [H1 _].
  rewrite cost_bind, snd_bind. destruct (snd (hd i)) as [[r h]| | |]; cbn [sbind taken]; [|nia..].
  destruct (_ =? n); [|rewrite cost_silent; cbn [silent snd taken]; nia]. specialize (K i L). unfold bounded in K. rewrite cost_bind, snd_bind.
  destruct (snd (k i)) as [[r2 x]| | |]; cbn [sbind taken] in *; rewrite ?cost_silent; cbn [silent snd taken]; nia.
Qed.
Lemma tagged_optional_moves {A} hd n (k : kfield A) : moves k -> moves (k_tagged_optional hd n k).
Proof.
  intros M i r x L E. unfold k_tagged_optional in E. destruct (blen (in_data i) =? 0); [injection E as <- _; apply suffix_refl; exact L|]. rewrite snd_bind in E.
  destruct (snd (hd i)) as [[r1 h]| | |]; try discriminate. cbn [sbind] in E. destruct (_ =? n); [|injection E as <- _; apply suffix_refl; exact L].
  rewrite snd_bind in E. destruct (snd (k i)) as [[r2 y]| | |] eqn:E2; try discriminate. injection E as <- _. eapply M; eassumption.
Qed.
Lemma with_default_costs {A} w d (k : kfield (option A)) : field_costs w k -> field_costs w (k_with_default d k).
Proof.
  intros K i L. specialize (K i L). unfold bounded, k_with_default in *. rewrite cost_bind, snd_bind.
  destruct (snd (k i)) as [[r x]| | |]; cbn [sbind taken] in *; rewrite ?cost_silent; cbn [silent snd taken]; lia.
Qed.
Lemma with_default_moves {A} d (k : kfield (option A)) : moves k -> moves (k_with_default d k).
Proof.
  intros M i r x L E. unfold k_with_default in E. rewrite snd_bind in E. destruct (snd (k i)) as [[r2 y]| | |] eqn:E2; try discriminate.
  injection E as <- _. eapply M; eassumption.
Qed.

Lemma weighs_more {T} w v (f : sheader -> input -> lres (input * T)) : w <= v -> weighs w f -> weighs v f.
Proof. intros H F h i Hh L. specialize (F h i Hh L). assert (w * (1 + blen (in_data i)) <= v * (1 + blen (in_data i))) by (apply N.mul_le_mono_r; exact H). lia. Qed.
Lemma tagged_variant_costs {A B} w v kd n p (ct : sheader -> input -> lres (input * A)) (j : kvariant B) :
  field_costs (1 + w) p -> weighs w ct -> weighs v j -> weighs (N.max (1 + w) v) (k_tagged_variant kd n p ct j).
Proof.
  intros P C J h i Hh L. unfold k_tagged_variant. destruct (_ =? n).
  - assert (X: cost (match kd with KExplicit => p i | KImplicit => ct h i end) <= (1 + w) * (1 + blen (in_data i))).
    { destruct kd; [apply bounded_all; apply P; exact L | apply (weighs_more w (1 + w)); [lia | assumption..]]. }
    apply (N.le_trans _ ((1 + w) * (1 + blen (in_data i)))); [|apply N.mul_le_mono_r; lia]. revert X.
    generalize (match kd with KExplicit => p i | KImplicit => ct h i end). intros m X. rewrite cost_bind. destruct (snd m) as [[? ?]| | |]; rewrite ?cost_silent; lia.
  - apply (N.le_trans _ (v * (1 + blen (in_data i)))); [|apply N.mul_le_mono_r; lia]. specialize (J h i Hh L). rewrite cost_bind.
    destruct (snd (j h i)) as [[? ?]| | |]; rewrite ?cost_silent; lia.
Qed.
Lemma untagged_variant_costs {A B} w v acc (ct : sheader -> input -> lres (input * A)) (j : kvariant B) :
  weighs w ct -> weighs v j -> weighs (N.max (1 + w) v) (k_untagged_variant acc ct j).
Proof.
  intros C J h i Hh L. unfold k_untagged_variant. destruct (acc _).
  - apply (N.le_trans _ (w * (1 + blen (in_data i)))); [|apply N.mul_le_mono_r; lia]. specialize (C h i Hh L). rewrite cost_bind.
    destruct (snd (ct h i)) as [[? ?]| | |]; rewrite ?cost_silent; lia.
  - apply (N.le_trans _ (v * (1 + blen (in_data i)))); [|apply N.mul_le_mono_r; lia]. specialize (J h i Hh L). rewrite cost_bind.
    destruct (snd (j h i)) as [[? ?]| | |]; rewrite ?cost_silent; lia.
Qed.

(** ** All types *)

Lemma types_cost :
  (forall S U (t : kty S U), constant_defaults t -> costs (weight t) (kparser_of c t))
  /\ (forall S U (fs : kfields S U), constant_fields fs -> field_costs (weight_fields fs) (kber_of c fs) /\ field_costs (weight_fields fs) (kder_of c fs))
  /\ (forall S U (vs : kvariants S U), constant_variants vs -> forall kd,
      weighs (weight_variants vs) (kber_variants c kd vs) /\ weighs (weight_variants vs) (kder_variants c kd vs)).
Proof.
  destruct (types_ok c whole W) as (TO & FO & _).
  apply kty_mutind.
  - intros _. apply default_costs; apply any_weighs.
  - intros T p _. apply default_costs; intros h i Hh L; cbn [quiet tp_ber tp_der]; rewrite cost_silent; lia.
  - intros _. assert (B: weighs 0 (t_integer_ber c)).
    { intros h i Hh L. pose proof (cost_trace AtInteger (fun i => silent (s_integer_content h i)) i) as Q. cbv beta iota in Q. rewrite cost_silent in Q. unfold t_integer_ber. lia. }
    apply default_costs; [exact B|]. intros h i Hh L. cbn [t_integer_parser tp_der]. unfold t_integer_der. apply at_cost. intros _. apply B; assumption.
  - intros T U tag g finish _. apply string_costs.
  - intros S U t IH D. apply vec_costs. apply IH. exact D.
  - intros S U n t IH D. apply array_costs. apply IH. exact D.
  - intros S U t IH D. apply set_costs. apply IH. exact D.
  - intros S U cmp t IH D. apply set_costs. apply IH. exact D.
  - intros S U same t IH D. apply set_costs. apply IH. exact D.
  - intros _. assert (Z: forall p, item_cost p -> weighs 1 (k_any_items_content p)).
    { intros p P h i Hh L. unfold k_any_items_content. apply at_cost. intros _. apply (collect_cost 0 p _ P); [|exact L]. intros a _. rewrite cost_silent. lia. }
    apply default_costs; apply Z; [exact any_item_ber | exact any_item_der].
  - intros S U g t IH D. apply tagged_costs. apply IH. exact D.
  - intros S U t IH D. apply option_costs. apply IH. exact D.
  - intros S U t IH D. apply alias_costs. apply IH. exact D.
  - intros S U fs IH D. destruct (IH D) as [B E]. apply default_costs; intros h i Hh L; apply bounded_all; [apply B | apply E]; exact L.
  - intros S U n fs IH D. destruct (IH D) as [B E]. apply default_costs; intros h i Hh L; cbn [tp_ber tp_der]; unfold k_struct_content; apply at_cost; intros _;
      apply bounded_all; [apply B | apply E]; exact L.
  - intros S U k vs IH D. destruct (IH D k) as [B E]. apply default_costs; intros h i Hh L; cbn [tp_ber tp_der]; unfold k_choice_content;
      destruct k as [[|]|]; try (apply at_cost; intros _); first [apply B | apply E]; assumption.
  - intros _. split; exact no_field_costs.
  - intros S U S' U' t IH fs IH2 [D D2]. destruct (IH2 D2) as [F G]. destruct (FO _ _ fs D2) as [FB FD]. destruct (type_moves _ _ _ _ _ (TO _ _ t D)) as [MB MD].
    destruct (IH D) as (_ & _ & P).
    change (kber_of c (KField t fs)) with (k_field (kp_parse_ber (kparser_of c t)) (kber_of c fs)).
    change (kder_of c (KField t fs)) with (k_field (kp_parse_der (kparser_of c t)) (kder_of c fs)).
    split; apply add_field_costs.
    + exact MB.
    + exact (field_moves _ _ _ _ _ FB).
    + intros i L. exact (proj1 (P i L)).
    + exact F.
    + exact MD.
    + exact (field_moves _ _ _ _ _ FD).
    + intros i L. exact (proj2 (P i L)).
    + exact G.
  - intros S U S' U' d t IH fs IH2 (E & D & D2). destruct (IH2 D2) as [F G]. destruct (FO _ _ fs D2) as [FB FD].
    destruct (type_moves _ _ _ _ _ (option_ok c whole W _ _ _ _ _ (TO _ _ t D))) as [MB MD]. destruct (option_costs _ _ (IH D)) as (_ & _ & P).
    cbn [weight_fields]. replace (2 + weight t) with (1 + (1 + weight t)) by lia.
    change (kber_of c (KDefault d t fs)) with (k_field (k_with_default d (kp_parse_ber (k_option c (kparser_of c t)))) (kber_of c fs)).
    change (kder_of c (KDefault d t fs)) with (k_field (k_with_default d (kp_parse_der (k_option c (kparser_of c t)))) (kder_of c fs)).
    split; apply add_field_costs.
    + apply with_default_moves. exact MB.
    + exact (field_moves _ _ _ _ _ FB).
    + apply with_default_costs. intros i L. exact (proj1 (P i L)).
    + exact F.
    + apply with_default_moves. exact MD.
    + exact (field_moves _ _ _ _ _ FD).
    + apply with_default_costs. intros i L. exact (proj2 (P i L)).
    + exact G.
  - intros S U S' U' g t IH fs IH2 (D & D2). destruct (IH2 D2) as [F G]. destruct (FO _ _ fs D2) as [FB FD].
    destruct (type_moves _ _ _ _ _ (tagged_ok c whole W _ _ _ _ _ (TO _ _ t D) g)) as [MB MD]. destruct (tagged_costs _ _ (IH D) g) as (_ & _ & P).
    cbn [weight_fields]. set (v := match tg_kind g with KExplicit => _ | KImplicit => _ end) in *. replace (2 + v) with (1 + (1 + v)) by lia.
    change (kber_of c (KTaggedOption g t fs)) with (k_field (k_tagged_optional (t_header c) (tg_num g) (kp_parse_ber (k_tagged c g (kparser_of c t)))) (kber_of c fs)).
    change (kder_of c (KTaggedOption g t fs)) with (k_field (k_tagged_optional (t_header_der c) (tg_num g) (kp_parse_der (k_tagged c g (kparser_of c t)))) (kder_of c fs)).
    split; apply add_field_costs.
    + apply tagged_optional_moves. exact MB.
    + exact (field_moves _ _ _ _ _ FB).
    + apply tagged_optional_costs; [exact header_reads|]. intros i L. exact (proj1 (P i L)).
    + exact F.
    + apply tagged_optional_moves. exact MD.
    + exact (field_moves _ _ _ _ _ FD).
    + apply tagged_optional_costs; [exact header_der_reads|]. intros i L. exact (proj2 (P i L)).
    + exact G.
  - intros S U S' U' g d t IH fs IH2 (E & D & D2). destruct (IH2 D2) as [F G]. destruct (FO _ _ fs D2) as [FB FD].
    destruct (type_moves _ _ _ _ _ (tagged_ok c whole W _ _ _ _ _ (TO _ _ t D) g)) as [MB MD]. destruct (tagged_costs _ _ (IH D) g) as (_ & _ & P).
    cbn [weight_fields]. set (v := match tg_kind g with KExplicit => _ | KImplicit => _ end) in *. replace (2 + v) with (1 + (1 + v)) by lia.
    change (kber_of c (KTaggedDefault g d t fs)) with (k_field (k_with_default d (k_tagged_optional (t_header c) (tg_num g) (kp_parse_ber (k_tagged c g (kparser_of c t))))) (kber_of c fs)).
    change (kder_of c (KTaggedDefault g d t fs)) with (k_field (k_with_default d (k_tagged_optional (t_header_der c) (tg_num g) (kp_parse_der (k_tagged c g (kparser_of c t))))) (kder_of c fs)).
    split; apply add_field_costs.
    + apply with_default_moves, tagged_optional_moves. exact MB.
    + exact (field_moves _ _ _ _ _ FB).
    + apply with_default_costs, tagged_optional_costs; [exact header_reads|]. intros i L. exact (proj1 (P i L)).
    + exact F.
    + apply with_default_moves, tagged_optional_moves. exact MD.
    + exact (field_moves _ _ _ _ _ FD).
    + apply with_default_costs, tagged_optional_costs; [exact header_der_reads|]. intros i L. exact (proj2 (P i L)).
    + exact G.
  - intros _ kd. split; intros h i Hh L; cbn; unfold k_no_variant; rewrite cost_silent; lia.
  - intros S U S' U' n t IH vs IH2 (D & D2) kd. destruct (IH D) as (B & E & P). destruct (IH2 D2 kd) as [F G].
    cbn [weight_variants]. destruct kd as [kd|]; cbn [kber_variants kder_variants]; split.
    + apply tagged_variant_costs; [intros i L; apply P; exact L | exact B | exact F].
    + apply tagged_variant_costs; [intros i L; apply P; exact L | exact E | exact G].
    + apply untagged_variant_costs; [exact B | exact F].
    + apply untagged_variant_costs; [exact E | exact G].
Qed.
End Cost.

(** ** C105 *)

(** With the log on, every call of the header parser writes exactly one such line. *)
Theorem C105_counts c i : tracing c = true -> headers_read (fst (t_header c i)) = 1 /\ headers_read (fst (t_header_der c i)) = 1.
Proof.
  intros T. assert (G: forall f : input -> sres (input * sheader), headers_read (fst (trace_input c AtHeader (fun i => silent (f i)) i)) = 1).
  { intros f. unfold trace_input. replace (debugging c) with true by (unfold tracing, debugging in *; destruct (cf_debug c), (cf_trace c); auto). cbv zeta. rewrite T.
    assert (D: forall x, headers_read (x :: hex_dump (in_data i) 16) = headers_read [x]) by (intros x; change (x :: hex_dump (in_data i) 16) with ([x] ++ hex_dump (in_data i) 16); rewrite headers_app, headers_dump; lia).
    destruct (snd (silent (f i))) as [[r x]|at_ e|n|].
    - destruct (_ && _); cbn [fst silent]; rewrite !headers_app; reflexivity.
    - cbn [fst silent]. rewrite !headers_app, D. reflexivity.
    - cbn [fst silent]. rewrite !headers_app, D. reflexivity.
    - cbn [fst silent]. rewrite headers_app. reflexivity. }
  split; apply G.
Qed.
Print Assumptions C105_counts.

Theorem C105_linear c S U (t : kty S U) whole i :
  bytes_ok whole -> blen whole < 2 ^ 64 -> located whole i -> constant_defaults t ->
  forall m, m = kp_parse_ber (kparser_of c t) i \/ m = kp_parse_der (kparser_of c t) i ->
  headers_read (fst m) <= (1 + weight t) * (1 + blen (in_data i))
  /\ forall r x, snd m = SOk (r, x) -> headers_read (fst m) <= (1 + weight t) * (1 + (blen (in_data i) - blen (in_data r))).
Proof.
  intros By W L D m E. destruct (types_cost c whole W By) as (T & _). destruct (T _ _ t D) as (_ & _ & P).
  assert (B: bounded (1 + weight t) i m) by (destruct (P i L); destruct E as [-> | ->]; assumption).
  split; [exact (bounded_all _ _ _ B)|]. intros r x Q. unfold bounded in B. rewrite Q in B. exact B.
Qed.
Print Assumptions C105_linear.

(** The octets of a content, read as the content of a type. *)
Theorem C105_content c S U (t : kty S U) whole h i :
  bytes_ok whole -> blen whole < 2 ^ 64 -> header_located whole h -> located whole i -> constant_defaults t ->
  headers_read (fst (kp_ber (kparser_of c t) h i)) <= weight t * (1 + blen (in_data i))
  /\ headers_read (fst (kp_der (kparser_of c t) h i)) <= weight t * (1 + blen (in_data i)).
Proof.
  intros By W Hh L D. destruct (types_cost c whole W By) as (T & _). destruct (T _ _ t D) as (B & E & _). split; [apply B | apply E]; assumption.
Qed.
Print Assumptions C105_content.

(** Skipping an object whose length is unknown: one header for each two octets, whatever the nesting. *)
Theorem C105_skip c whole i :
  bytes_ok whole -> blen whole < 2 ^ 64 -> located whole i ->
  headers_read (fst (t_parse_ber_any c i)) <= 1 + blen (in_data i)
  /\ forall r a, snd (t_parse_ber_any c i) = SOk (r, a) -> headers_read (fst (t_parse_ber_any c i)) + blen (in_data r) <= blen (in_data i).
Proof.
  intros By W L. assert (X: linear 1 i (t_parse_ber_any c i) /\ forall r a, snd (t_parse_ber_any c i) = SOk (r, a) -> suffix whole i r).
  { split.
    - apply linear_trace; [discriminate|]. unfold linear. rewrite cost_bind, snd_bind. destruct (header_reads c whole W By i L) as [H1 H2].
      destruct (snd (t_header c i)) as [[r h]| | |]; cbn [sbind used]; [|lia..]. destruct (H2 _ _ eq_refl) as (S1 & _ & N1).
      destruct (content_cost c whole W By h r (proj1 S1)) as [C1 C2]. unfold linear in C1. rewrite cost_bind, snd_bind.
      destruct (snd (t_ber_object_content c h r MAX_RECURSION)) as [[r2 d]| | |]; cbn [sbind used] in *; [|lia..].
      destruct (C2 _ _ eq_refl) as (S2 & _ & N2). pose proof (suffix_len _ _ _ (proj1 S1) S2). rewrite cost_silent. cbn [silent snd used]. lia.
    - intros r a E. apply trace_ok in E. rewrite snd_bind in E. destruct (header_reads c whole W By i L) as [_ H2].
      destruct (snd (t_header c i)) as [[r1 h]| | |]; try discriminate. destruct (H2 _ _ eq_refl) as (S1 & _). cbn [sbind] in E. rewrite snd_bind in E.
      destruct (content_cost c whole W By h r1 (proj1 S1)) as [_ C2]. destruct (snd (t_ber_object_content c h r1 MAX_RECURSION)) as [[r2 d]| | |]; try discriminate.
      destruct (C2 _ _ eq_refl) as (S2 & _). injection E as <- _. eapply suffix_trans; eassumption. }
  destruct X as [X1 X2]. unfold linear, cost in X1. split.
  - pose proof (used_le i (snd (t_parse_ber_any c i))). lia.
  - intros r a E. specialize (X2 r a E). rewrite E in X1. cbn [used] in X1. pose proof (suffix_len _ _ _ L X2). lia.
Qed.
Print Assumptions C105_skip.

(** ** Cases

    SEQUENCE OF SEQUENCE OF INTEGER: the INTEGERs are read when the items of the outer vector are found (lengths unknown: [48; 128])
    and again when those of the inner vectors are; three headers and an end of content inside two more. *)
Definition nested : bytes := [48; 128; 48; 128; 2; 1; 5; 2; 1; 6; 0; 0; 48; 128; 2; 1; 7; 0; 0; 0; 0].
Definition watched : config := mk_config true true true.
Example C105_linear_case :
  bytes_ok nested /\ constant_defaults (KVec (KVec KInteger)) /\ weight (KVec (KVec KInteger)) = 2
  /\ (exists r, snd (kp_parse_ber (kparser_of watched (KVec (KVec KInteger))) (from_slice nested)) = SOk (r, [[[5]; [6]]; [[7]]]))
  /\ headers_read (fst (kp_parse_ber (kparser_of watched (KVec (KVec KInteger))) (from_slice nested))) = 19
  /\ headers_read (fst (t_parse_ber_any watched (from_slice nested))) = 9.
Proof. split; [repeat constructor|]. split; [exact I|]. split; [reflexivity|]. split; [eexists; vm_compute; reflexivity|]. split; vm_compute; reflexivity. Qed.
(** A struct with an optional field and a default, and a choice inside a set (the type of C41). *)
Example C105_struct_case : weight PropKind.example_type = 9
  /\ headers_read (fst (kp_parse_ber (kparser_of watched PropKind.example_type) PropKind.example_input)) = 9.
Proof. split; vm_compute; reflexivity. Qed.
(** An OCTET STRING of constructed segments within each other, up to the limit; all of them are read at every level. *)
Example C105_string_case : weight KOctets = 5
  /\ (exists r, snd (kp_parse_ber (kparser_of watched KOctets) (from_slice [36; 128; 36; 128; 36; 128; 36; 128; 4; 1; 170; 0; 0; 0; 0; 0; 0; 0; 0])) = SOk (r, [170]))
  /\ headers_read (fst (kp_parse_ber (kparser_of watched KOctets) (from_slice [36; 128; 36; 128; 36; 128; 36; 128; 4; 1; 170; 0; 0; 0; 0; 0; 0; 0; 0]))) = 25.
Proof. split; [reflexivity|]. split; [eexists; vm_compute; reflexivity | vm_compute; reflexivity]. Qed.
