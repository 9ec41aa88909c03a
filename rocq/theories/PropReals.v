(** Further properties of REAL: when reading panics (C07), that [Real::new] returns (C73), writers that do not end (C72). *)
From Coq Require Import SpecFloat QArith Qpower Qabs Lqa.
From Verif Require Import Base MHeader MEncode SHeader PArith PHeader PEncode MBer SBer PBer PIter
  MInt SInt PCodec PInt MOid MText MReal PFloat SReal PReal PropTime PropReal PRound PSafe PropSafe.
Local Open Scope Z_scope.

(** ** A panic as a value *)

Definition catch {T} (r : res (bytes * T)) : res (bytes * option T) :=
  match r with Ok (r, v) => Ok (r, Some v) | Err e => Err e | Incomplete n => Incomplete n | Panic => Ok ([], None) end.
Definition catch_codec {T} (p : codec T) : codec (option T) :=
  let f := fun h i => catch (ber_content p h i) in
  mk_codec (accept_tag p) f (fun h i => catch (der_content p h i)) (default_try_from (accept_tag p) f) (check_constraints p).
(** [q] returns what [p] returns, and no value where [p] panics. *)
Definition caught {T} (p : bytes -> res (bytes * T)) (q : bytes -> res (bytes * option T)) : Prop :=
  forall i, bytes_ok i -> match p i with
                          | Ok (r, v) => q i = Ok (r, Some v)
                          | Err e => q i = Err e
                          | Incomplete n => q i = Incomplete n
                          | Panic => exists rem, q i = Ok (rem, None)
                          end.

Lemma codec_caught {T} (p : codec T) : plain p -> (forall a, check_constraints p a <> Panic) ->
  caught (parse_ber p) (parse_ber (catch_codec p)) /\ caught (parse_der p) (parse_der (catch_codec p))
  /\ caught (from_ber p) (from_ber (catch_codec p)) /\ caught (from_der p) (from_der (catch_codec p)).
Proof.
  intros Hp Hc. assert (Ht : forall a, match try_from_any p a with
     | Ok v => try_from_any (catch_codec p) a = Ok (Some v) | Err e => try_from_any (catch_codec p) a = Err e
     | Incomplete n => False | Panic => try_from_any (catch_codec p) a = Ok None end).
  { intros a. rewrite (Hp a). cbn [try_from_any catch_codec]. unfold default_try_from. destruct (accept_tag p _); [|reflexivity].
    destruct (ber_content p (any_header a) (any_data a)) as [[r v]|e|n|]; reflexivity. }
  split; [|split; [|split]]; intros i Hi.
  - unfold parse_ber. pose proof (safe_sane _ i (steady_safe _ header_ber_steady) Hi) as S.
    destruct (header_parse_ber i) as [[rem h]|e|n|] eqn:Eh; cbn [bind]; try reflexivity; [|destruct S].
    cbn [accept_tag catch_codec]. destruct (accept_tag p (h_tag h)); [|reflexivity].
    pose proof (object_content_sane h rem MAX_RECURSION (safe_rest _ _ _ _ (steady_safe _ header_ber_steady) Hi Eh)) as S2.
    destruct (ber_object_content h rem MAX_RECURSION) as [[rem2 d]|e|n|]; cbn [bind]; try reflexivity; [|destruct S2].
    cbn [ber_content catch_codec]. destruct (ber_content p h d) as [[r v]|e|n|]; cbn [catch bind]; try reflexivity. eauto.
  - unfold parse_der. pose proof (safe_sane _ i (steady_safe _ header_der_steady) Hi) as S.
    destruct (header_parse_der i) as [[rem h]|e|n|] eqn:Eh; cbn [bind]; try reflexivity; [|destruct S].
    destruct (h_length h) as [l|]; [|reflexivity]. cbn [accept_tag catch_codec]. destruct (accept_tag p (h_tag h)); [|reflexivity].
    pose proof (take_sane l rem) as S2. destruct (take l rem) as [[rem2 d]|e|n|]; cbn [bind]; try reflexivity; [|destruct S2].
    cbn [der_content catch_codec]. destruct (der_content p h d) as [[r v]|e|n|]; cbn [catch bind]; try reflexivity. eauto.
  - unfold from_ber. pose proof (safe_sane _ i (steady_safe _ ber_any_steady) Hi) as S.
    destruct (parse_ber_any i) as [[rem a]|e|n|]; cbn [bind]; try reflexivity; [|destruct S].
    specialize (Ht a). destruct (try_from_any p a); cbn [bind]; [rewrite Ht; reflexivity|rewrite Ht; reflexivity|destruct Ht|rewrite Ht; cbn [bind]; eauto].
  - unfold from_der. pose proof (safe_sane _ i (steady_safe _ der_any_steady) Hi) as S.
    destruct (parse_der_any i) as [[rem a]|e|n|]; cbn [bind]; try reflexivity; [|destruct S].
    cbn [check_constraints catch_codec]. specialize (Hc a). destruct (check_constraints p a); cbn [bind]; try reflexivity; [|congruence].
    specialize (Ht a). destruct (try_from_any p a); cbn [bind]; [rewrite Ht; reflexivity|rewrite Ht; reflexivity|destruct Ht|rewrite Ht; cbn [bind]; eauto].
Qed.

Lemma caught_facts {T} (p : bytes -> res (bytes * T)) q : caught p q -> steady q ->
  (stable p /\ waits p /\ final_errors p /\ ends p) /\ forall i, bytes_ok i -> (p i = Panic <-> exists rem, q i = Ok (rem, None)).
Proof.
  intros C S.
  assert (R : forall i, bytes_ok i -> (forall r v, q i = Ok (r, Some v) -> p i = Ok (r, v)) /\ (forall e, q i = Err e -> p i = Err e) /\ (forall n, q i = Incomplete n -> p i = Incomplete n)).
  { intros i Hi. specialize (C i Hi). destruct (p i) as [[r v]|e|n|].
    - rewrite C. repeat split; try discriminate. intros ? ? [= <- <-]. reflexivity.
    - rewrite C. repeat split; try discriminate. intros ? [= <-]. reflexivity.
    - rewrite C. repeat split; try discriminate. intros ? [= <-]. reflexivity.
    - destruct C as [rem ->]. repeat split; discriminate. }
  assert (A : forall i x : bytes, bytes_ok i -> bytes_ok x -> bytes_ok (i ++ x)) by (intros; apply bytes_ok_app; auto).
  split; [split; [|split; [|split]]|].
  - intros i r v Hi E. pose proof (C i Hi) as Ci. rewrite E in Ci. destruct (steady_stable _ S i _ _ Hi Ci) as [Sp Sx].
    split; [exact Sp|]. intros x Hx. apply (R (i ++ x) (A _ _ Hi Hx)), Sx, Hx.
  - intros i n Hi E. pose proof (C i Hi) as Ci. rewrite E in Ci. destruct (steady_waits _ S i _ Hi Ci) as [Sn Sx]. split; [exact Sn|].
    intros x Hx Hl. destruct (Sx x Hx Hl) as (m & Hm & Em). exists m. split; [exact Hm|]. apply (R (i ++ x) (A _ _ Hi Hx)), Em.
  - intros i x e Hi Hx He E. pose proof (C i Hi) as Ci. rewrite E in Ci. apply (R (i ++ x) (A _ _ Hi Hx)).
    apply (steady_final _ S i x e Hi Hx He Ci).
  - intros i Hi E. pose proof (C i Hi) as Ci. rewrite E in Ci. exact (steady_ends _ S i Hi Ci).
  - intros i Hi. pose proof (C i Hi) as Ci. destruct (p i) as [[r v]|e|n|]; split; intros H; try discriminate; try reflexivity; try exact Ci;
      destruct H as [rem H]; congruence.
Qed.

(** ** Reading REAL *)

(** Contents octets in binary form that overflow: the exponent of base 8 or 16 in bits does not fit 32 bits, or a negative
    number is 2^63. *)
Definition overflows (content : bytes) : Prop :=
  exists b eo mo, content = b :: eo ++ mo /\ (128 <= b)%N /\ blen eo = (b mod 4 + 1)%N /\ mo <> []
    /\ ((b / 16 mod 4 = 1)%N /\ ~ (- 2 ^ 31 <= 3 * twos eo < 2 ^ 31)
        \/ (b / 16 mod 4 = 2)%N /\ ~ (- 2 ^ 31 <= 4 * twos eo < 2 ^ 31)
        \/ (b / 16 mod 4 <> 3)%N /\ (b / 64 mod 2 = 1)%N /\ (blen mo <= 8)%N /\ value_be 256 mo = (2 ^ 63)%N).

Lemma as_i32_panic z : as_i32 z = Panic <-> ~ (- 2 ^ 31 <= z < 2 ^ 31).
Proof.
  unfold as_i32, i32_min, i32_max. destruct (Z.leb_spec (- 2 ^ 31) z), (Z.leb_spec z (2 ^ 31 - 1)); cbn [andb]; split; intros; try discriminate; try reflexivity; lia.
Qed.
Lemma value_bound mo : bytes_ok mo -> (blen mo <= 8)%N -> 0 <= val mo < 2 ^ 64.
Proof.
  intros Om L. pose proof (val_bound mo Om) as H. split; [lia|]. unfold pw in H.
  assert (256 ^ Z.of_nat (length mo) <= 256 ^ 8) by (apply Z.pow_le_mono_r; unfold blen in L; lia). change (256 ^ 8) with (2 ^ 64) in *. lia.
Qed.
Lemma decode_binary_cases b rest : bytes_ok (b :: rest) -> (128 <= b)%N ->
  match decode_binary b rest with
  | Ok _ => ~ overflows (b :: rest) | Err e => e <> EFuel /\ ~ overflows (b :: rest)
  | Incomplete _ => False | Panic => overflows (b :: rest) end.
Proof.
  intros Hok Hb. apply Forall_cons_iff in Hok as [Hb' Hok]. unfold decode_binary.
  destruct (N.leb_spec (blen rest) (b mod 4 + 1)) as [L|L].
  { split; [discriminate|]. intros (b0 & eo & mo & E & _ & Le & Nm & _). injection E as <- ->. rewrite blen_app in L.
    destruct mo; [congruence|]. rewrite blen_cons in L. lia. }
  set (n := N.to_nat (b mod 4 + 1)) in *. set (eo := firstn n rest) in *. set (mo := skipn n rest) in *.
  assert (Er : rest = eo ++ mo) by (symmetry; apply firstn_skipn).
  assert (Ln : length eo = n) by (unfold eo; rewrite firstn_length; unfold blen in L; lia).
  assert (Le : blen eo = (b mod 4 + 1)%N) by (unfold blen; lia).
  assert (Nm : mo <> []) by (intro X; rewrite Er, blen_app, Le, X in L; change (blen []) with 0%N in L; lia).
  assert (Ou : overflows (b :: rest) <-> ((b / 16 mod 4 = 1)%N /\ ~ (- 2 ^ 31 <= 3 * twos eo < 2 ^ 31)
        \/ (b / 16 mod 4 = 2)%N /\ ~ (- 2 ^ 31 <= 4 * twos eo < 2 ^ 31)
        \/ (b / 16 mod 4 <> 3)%N /\ (b / 64 mod 2 = 1)%N /\ (blen mo <= 8)%N /\ value_be 256 mo = (2 ^ 63)%N)).
  { split; [|intros H; exists b, eo, mo; rewrite Er; repeat split; assumption].
    intros (b0 & eo0 & mo0 & E & _ & Le0 & _ & H). injection E as <- E.
    assert (eo0 = eo /\ mo0 = mo) as [-> ->]; [|exact H]. rewrite Er in E. unfold blen in Le, Le0.
    assert (length eo = length eo0) by lia. split; [|].
    - assert (F : firstn (length eo) (eo ++ mo) = firstn (length eo) (eo0 ++ mo0)) by (rewrite E; reflexivity).
      rewrite H0 in F at 2. rewrite !firstn_app, !Nat.sub_diag, !firstn_all in F. cbn [firstn] in F. rewrite !app_nil_r in F. auto.
    - assert (F : skipn (length eo) (eo ++ mo) = skipn (length eo) (eo0 ++ mo0)) by (rewrite E; reflexivity).
      rewrite H0 in F at 2. rewrite !skipn_app, !Nat.sub_diag, !skipn_all in F. cbn [skipn app] in F. auto. }
  rewrite Er in Hok. apply bytes_ok_app in Hok as [Oe Om].
  assert (Et : read_exponent eo = twos eo) by (apply read_exponent_twos; [exact Oe|unfold blen in Le; lia]). rewrite Et.
  destruct (N.eqb_spec (b / 16 mod 4) 3) as [B3|B3]; [split; [discriminate|]; rewrite Ou; lia|].
  set (c := if (b / 16 mod 4 =? 0)%N then 1 else if (b / 16 mod 4 =? 1)%N then 3 else 4).
  assert (Tr : - 2 ^ 31 <= twos eo < 2 ^ 31).
  { assert (R : in_signed (length eo) (twos eo)) by (apply twos_range; [exact Oe|intros ->; cbn in Ln; lia]).
    unfold in_signed in R. assert (2 ^ (8 * Z.of_nat (length eo) - 1) <= 2 ^ 31) by (apply Z.pow_le_mono_r; lia). lia. }
  destruct (as_i32 (twos eo * c)) as [e|e|e|] eqn:Ei; try (unfold as_i32 in Ei; destruct (_ && _); discriminate).
  2: { cbn [bind]. apply as_i32_panic in Ei. rewrite Ou. unfold c in Ei.
       destruct (N.eqb_spec (b / 16 mod 4) 0); [lia|]. destruct (N.eqb_spec (b / 16 mod 4) 1); lia. }
  cbn [bind]. assert (Ni : - 2 ^ 31 <= twos eo * c < 2 ^ 31).
  { unfold as_i32, i32_min, i32_max in Ei. destruct (Z.leb_spec (- 2 ^ 31) (twos eo * c)), (Z.leb_spec (twos eo * c) (2 ^ 31 - 1)); cbn [andb] in Ei; try discriminate. lia. }
  assert (Ou2 : overflows (b :: rest) <-> (b / 64 mod 2 = 1)%N /\ (blen mo <= 8)%N /\ value_be 256 mo = (2 ^ 63)%N).
  { rewrite Ou. unfold c in Ni. split; [|tauto]. intros [[X1 X2]|[[X1 X2]|X]]; [| |tauto]; exfalso; rewrite X1 in Ni; clear - X2 Ni; cbv [N.eqb Pos.eqb] in Ni; lia. }
  destruct (N.ltb_spec 8 (blen mo)) as [L8|L8]; [split; [discriminate|]; rewrite Ou2; lia|].
  assert (Ev : read_mantissa mo = - 2 ^ 63 <-> value_be 256 mo = (2 ^ 63)%N).
  { rewrite read_mantissa_wrap. pose proof (value_bound mo Om L8) as Vb. unfold wrap_i64, val in *. split; intros X; [|rewrite X; reflexivity].
    assert (E2 : (Z.of_N (value_be 256 mo) + 2 ^ 63) mod 2 ^ 64 = 0) by lia. lia. }
  destruct (N.eqb_spec (b / 64 mod 2) 1) as [N1|N1].
  - destruct (Z.eqb_spec (read_mantissa mo) (- 2 ^ 63)) as [M|M]; cbn [bind]; rewrite Ou2; [split; [exact N1|]; split; [exact L8|]; apply Ev, M|].
    intros (_ & _ & X). apply M, Ev, X.
  - cbn [bind]. rewrite Ou2. tauto.
Qed.

Lemma real_new_fine x : f64_ok x -> exists r, real_new x = Ok r.
Proof.
  destruct x as [s|s| |s k e]; intros H; try (eexists; reflexivity).
  destruct (real_new_total s k e H) as (k' & ek' & y & E & _). eauto.
Qed.
Lemma decode_real_cases h d : bytes_ok d ->
  match decode_real h d with
  | Ok _ => ~ overflows d | Err e => e <> EFuel /\ ~ overflows d | Incomplete _ => False | Panic => overflows d end.
Proof.
  intros Hd. destruct d as [|b rest]; [intros (b & eo & mo & E & _); discriminate|]. unfold decode_real.
  pose proof Hd as Hd'. apply Forall_cons_iff in Hd' as [Hb _].
  destruct (N.eqb_spec (b / 128 mod 2) 1) as [H1|H1]; [apply decode_binary_cases; [exact Hd|lia]|].
  assert (No : ~ overflows (b :: rest)) by (intros (b0 & eo & mo & E & G & _); injection E as <- _; lia).
  assert (X : sane (if (b / 64 mod 2 =? 1)%N then if negb (blength_eqb (h_length h) (Definite 1)) then Err EInvalidLength else if (b =? 64)%N then Ok RInfinity else if (b =? 65)%N then Ok RNegInfinity
     else if (b =? 66)%N then Ok RNaN else Err EInvalidValue else decode_decimal_form b rest)
    /\ forall n, (if (b / 64 mod 2 =? 1)%N then if negb (blength_eqb (h_length h) (Definite 1)) then Err EInvalidLength else if (b =? 64)%N then Ok RInfinity else if (b =? 65)%N then Ok RNegInfinity
     else if (b =? 66)%N then Ok RNaN else Err EInvalidValue else decode_decimal_form b rest) <> Incomplete n).
  { destruct (b / 64 mod 2 =? 1)%N.
    - destruct (negb _); [split; discriminate|]. destruct (b =? 64)%N; [split; [exact I|discriminate]|]. destruct (b =? 65)%N; [split; [exact I|discriminate]|].
      destruct (b =? 66)%N; [split; [exact I|discriminate]|split; discriminate].
    - unfold decode_decimal_form. destruct (from_utf8 rest) as [s|]; [|split; discriminate]. destruct (b mod 4 =? 1)%N.
      + destruct (parse_uint (2 ^ 32) s) as [v|]; [|split; discriminate]. destruct (real_new_fine _ (f64_of_Z_ok (Z.of_N v))) as [r ->]. split; [exact I|discriminate].
      + destruct (b mod 4 =? 0)%N; [split; discriminate|]. destruct (parse_f64 s) as [v|] eqn:E; [|split; discriminate].
        destruct (real_new_fine _ (parse_f64_ok _ _ E)) as [r ->]. split; [exact I|discriminate]. }
  destruct X as [X X2]. destruct (if (b / 64 mod 2 =? 1)%N then _ else _) as [r|e|n|]; cbn [sane] in X; [exact No|split; assumption|exact (X2 n eq_refl)|destruct X].
Qed.

(** The readers of a type whose content is computed from that of REAL. *)
Lemma real_like {T} (f : real -> T) (p : codec T) :
  (forall h i, ber_content p h i = let* (rem, r) := real_content h i in Ok (rem, f r)) ->
  (forall h i, der_content p h i = let* (rem, r) := real_content h i in Ok (rem, f r)) ->
  plain p -> (forall a, check_constraints p a = real_check a) -> (forall n, accept_tag p n = is_tag 9 n) ->
  forall q, In q [parse_ber p; parse_der p; from_ber p; from_der p] ->
    (stable q /\ waits q /\ final_errors q /\ ends q)
    /\ forall i, bytes_ok i -> (q i = Panic <-> exists c content rem, starts_with_object c false 9 content i rem /\ overflows content).
Proof.
  intros Hb Hd Hp Hc Ha.
  destruct (codec_caught p Hp) as (C1 & C2 & C3 & C4).
  { intros a. rewrite Hc. unfold real_check, assert_primitive, length_assert_definite. destruct (h_constructed _); [discriminate|]. cbn [negb bind].
    destruct (h_length (any_header a)); discriminate. }
  assert (Cc : forall h d, bytes_ok d -> sane (catch (let* (rem, r) := real_content h d in Ok (rem, f r)))).
  { intros h d Od. unfold real_content, assert_primitive. destruct (h_constructed h); cbn [negb bind catch]; [discriminate|].
    pose proof (decode_real_cases h d Od) as X. destruct (decode_real h d) as [r|e|n|]; cbn [bind catch sane]; try exact I; [apply X|destruct X]. }
  assert (Sb : sane_content (ber_content (catch_codec p))) by (intros h d Od; cbn [ber_content catch_codec]; rewrite Hb; apply Cc, Od).
  assert (Sd : sane_content (der_content (catch_codec p))) by (intros h d Od; cbn [der_content catch_codec]; rewrite Hd; apply Cc, Od).
  assert (Sc : sane_any (check_constraints (catch_codec p))).
  { intros a _. cbn [check_constraints catch_codec]. rewrite Hc. unfold real_check. sane_tac. }
  assert (St : sane_any (try_from_any (catch_codec p))) by (apply default_try_from_sane, Sb).
  assert (Iff : forall h d v, bytes_ok d -> h_length h = Definite (blen d) ->
     ((exists r, catch (let* (rem, x) := real_content h d in Ok (rem, f x)) = Ok (r, v))
      <-> h_constructed h = false /\ match v with Some y => exists x, read_content d = Ok x /\ y = f x | None => overflows d end)).
  { intros h d v Od El. pose proof (decode_real_cases h d Od) as X. unfold real_content, assert_primitive.
    destruct (h_constructed h); cbn [negb bind catch]; [split; [intros [r E]; discriminate|intros [E _]; discriminate]|].
    rewrite (read_content_eq h d El) in *. destruct (read_content d) as [x|e|n|]; cbn [bind catch].
    - split; [intros [r E]; injection E as <- <-; eauto|]. intros [_ H]. destruct v as [y|]; [|contradiction]. destruct H as (x' & Ex & ->). injection Ex as <-. eauto.
    - split; [intros [r E]; discriminate|]. intros [_ H]. destruct v as [y|]; [destruct H as (x' & Ex & _); discriminate|]. destruct X; contradiction.
    - destruct X.
    - split; [intros [r E]; injection E as <- <-; auto|]. intros [_ H]. destruct v as [y|]; [destruct H as (x' & Ex & _); discriminate|]. eauto. }
  assert (Acc : forall i rem, bytes_ok i -> let ov := exists c content, starts_with_object c false 9 content i rem /\ overflows content in
     (parse_ber (catch_codec p) i = Ok (rem, None) <-> ov) /\ (from_ber (catch_codec p) i = Ok (rem, None) <-> ov)
     /\ (parse_der (catch_codec p) i = Ok (rem, None) <-> ov) /\ (from_der (catch_codec p) i = Ok (rem, None) <-> ov)).
  { intros i rem Hi. set (R := fun d (v : option T) => match v with Some y => exists x, read_content d = Ok x /\ y = f x | None => overflows d end).
    apply (prim_accept (catch_codec p) 9 R R).
    - intros a. reflexivity.
    - intros n. cbn [accept_tag catch_codec]. apply Ha.
    - intros h d v Od El. cbn [ber_content catch_codec]. rewrite Hb. apply Iff; assumption.
    - intros h d v Od El. cbn [der_content catch_codec]. rewrite Hd. apply Iff; assumption.
    - intros h d v Od El. cbn [ber_content catch_codec check_constraints]. rewrite Hb, Hc. pose proof (Iff h d v Od El) as F.
      split; [intros [_ H]; apply F, H|]. intros H. split; [|apply F, H]. destruct H as [H _].
      unfold real_check, assert_primitive. cbn [any_header]. rewrite H, El. reflexivity.
    - intros h d r v E. cbn [ber_content catch_codec] in E. rewrite Hb in E. unfold real_content, assert_primitive in E. destruct (h_constructed h); [discriminate|reflexivity].
    - exact Hi. }
  assert (G : forall (p0 : bytes -> res (bytes * T)) q0, caught p0 q0 -> steady q0 -> (forall i rem, bytes_ok i -> (q0 i = Ok (rem, None) <-> exists c content, starts_with_object c false 9 content i rem /\ overflows content)) ->
     (stable p0 /\ waits p0 /\ final_errors p0 /\ ends p0)
     /\ forall i, bytes_ok i -> (p0 i = Panic <-> exists c content rem, starts_with_object c false 9 content i rem /\ overflows content)).
  { intros p0 q0 C S A. destruct (caught_facts p0 q0 C S) as [F1 F2]. split; [exact F1|]. intros i Hi. rewrite (F2 i Hi). split.
    - intros [rem E]. apply A in E as (c & d & E); [|exact Hi]. eauto.
    - intros (c & d & rem & E). exists rem. apply A; [exact Hi|]. eauto. }
  intros q [<-|[<-|[<-|[<-|[]]]]].
  - apply (G _ _ C1); [apply codec_parse_ber_steady, Sb|]. intros i rem Hi. apply (Acc i rem Hi).
  - apply (G _ _ C2); [apply codec_parse_der_steady, Sd|]. intros i rem Hi. apply (Acc i rem Hi).
  - apply (G _ _ C3); [apply (blanket_steady (try_from_any (catch_codec p))), St|]. intros i rem Hi. apply (Acc i rem Hi).
  - apply (G _ _ C4); [apply from_der_steady; assumption|]. intros i rem Hi. apply (Acc i rem Hi).
Qed.

(** [Real], [f64] and [f32] panic on exactly the objects whose contents overflow; otherwise they behave like the other types. *)
Theorem C07_real_panics :
  (forall q, In q [parse_ber real_codec; parse_der real_codec; from_ber real_codec; from_der real_codec] ->
    (stable q /\ waits q /\ final_errors q /\ ends q)
    /\ forall i, bytes_ok i -> (q i = Panic <-> exists c content rem, starts_with_object c false 9 content i rem /\ overflows content))
  /\ (forall q, In q [parse_ber f64_codec; parse_der f64_codec; from_ber f64_codec; from_der f64_codec;
                      parse_ber f32_codec; parse_der f32_codec; from_ber f32_codec; from_der f32_codec] ->
    (stable q /\ waits q /\ final_errors q /\ ends q)
    /\ forall i, bytes_ok i -> (q i = Panic <-> exists c content rem, starts_with_object c false 9 content i rem /\ overflows content)).
Proof.
  assert (A : forall q, In q [parse_ber real_codec; parse_der real_codec; from_ber real_codec; from_der real_codec] ->
    (stable q /\ waits q /\ final_errors q /\ ends q)
    /\ forall i, bytes_ok i -> (q i = Panic <-> exists c content rem, starts_with_object c false 9 content i rem /\ overflows content)).
  { apply (real_like (fun r => r)); try reflexivity; try (intros h i; cbn [ber_content der_content real_codec]; destruct (real_content h i) as [[? ?]|?|?|]; reflexivity).
    intros a. reflexivity. }
  split; [exact A|]. intros q H.
  assert (B : In q [parse_ber f64_codec; parse_der f64_codec; from_ber f64_codec; from_der f64_codec] \/ In q [parse_ber f32_codec; parse_der f32_codec; from_ber f32_codec; from_der f32_codec]).
  { cbn [In] in *. tauto. }
  destruct B as [B|B]; [revert q H B|revert q H B]; intros q _; revert q.
  - apply (real_like real_f64); try reflexivity. intros a. reflexivity.
  - apply (real_like real_f32); try reflexivity. intros a. reflexivity.
Qed.
Print Assumptions C07_real_panics.

Example C07_real_case :
  overflows [147; 127; 255; 255; 255; 1]%N /\ overflows [192; 0; 128; 0; 0; 0; 0; 0; 0; 0]%N /\ ~ overflows [145; 127; 255; 1]%N
  /\ parse_ber f64_codec [9; 6; 147; 127; 255; 255; 255; 1]%N = Panic /\ parse_der f32_codec [9; 10; 192; 0; 128; 0; 0; 0; 0; 0; 0; 0]%N = Panic
  /\ exists r, parse_ber real_codec [9; 4; 145; 127; 255; 1]%N = Ok ([], r).
Proof.
  assert (O1 : overflows [147; 127; 255; 255; 255; 1]%N).
  { exists 147%N, [127; 255; 255; 255]%N, [1%N]. repeat split; try discriminate. left. split; [reflexivity|]. vm_compute. intros [_ H]. discriminate H. }
  assert (O2 : overflows [192; 0; 128; 0; 0; 0; 0; 0; 0; 0]%N).
  { exists 192%N, [0%N], [128; 0; 0; 0; 0; 0; 0; 0]%N. repeat split; try discriminate. right. right. vm_compute. repeat split; discriminate. }
  split; [exact O1|]. split; [exact O2|]. split.
  { intros H. pose proof (decode_real_cases (mk_header Universal false 9 (Definite 4) None None) [145; 127; 255; 1]%N ltac:(repeat constructor)) as C.
    assert (E : exists r, decode_real (mk_header Universal false 9 (Definite 4) None None) [145; 127; 255; 1]%N = Ok r) by (eexists; vm_compute; reflexivity).
    destruct E as [r E]. rewrite E in C. exact (C H). }
  split; [vm_compute; reflexivity|]. split; [vm_compute; reflexivity|]. eexists. vm_compute. reflexivity.
Qed.

(** ** [Real::new] *)

Lemma int_value k e n : (dy (Z.pos k) e == inject_Z n)%Q -> forall s, has_fract (S754_finite s k e) = false.
Proof.
  intros H s. cbn [has_fract]. destruct e as [|p|p]; try reflexivity.
  assert (E : Z.pos k = n * 2 ^ Z.pos p).
  { apply (dy_inj _ _ (Z.neg p)). rewrite H. rewrite dy_shift by lia. change (Z.neg p + Z.pos p) with (- Z.pos p + Z.pos p).
    rewrite Z.add_opp_diag_l. unfold dy. change (2 ^ 0)%Q with 1%Q. ring. }
  rewrite E, Z.mod_mul; [reflexivity|]. pose proof (Z.pow_pos_nonneg 2 (Z.pos p)). lia.
Qed.
Lemma ten_pos e : (0 < 10 ^ e)%Q.
Proof. apply Qpower_0_lt. reflexivity. Qed.
Lemma near_end (z1 d z' a b t : Q) (j : Q) :
  (0 < a -> a * b == 1 -> 0 <= d -> 0 <= j <= 399 -> Qabs (z1 - a * d) * 2 ^ 52 <= j * (a * d) -> z1 == z' * t ->
   Qabs (z' * (t * b) - d) * 2 ^ 43 <= d)%Q.
Proof.
  intros Ha Hab Hd Hj H E. change (2 ^ 52)%Q with (4503599627370496 # 1)%Q in *. change (2 ^ 43)%Q with (8796093022208 # 1)%Q in *.
  assert (Hb : (0 < b)%Q).
  { apply (Qmult_lt_l 0 b a Ha). rewrite Hab. rewrite Qmult_0_r. reflexivity. }
  assert (G : (Qabs (z' * (t * b) - d) == Qabs (z1 - a * d) * b)%Q).
  { rewrite <- (Qabs_pos b) at 2 by (apply Qlt_le_weak, Hb). rewrite <- Qabs_Qmult. apply Qabs_wd. rewrite E.
    setoid_replace ((z' * t - a * d) * b)%Q with (z' * (t * b) - (a * b) * d)%Q by ring. rewrite Hab. ring. }
  rewrite G. assert (L : (Qabs (z1 - a * d) * (4503599627370496 # 1) * b <= j * (a * d) * b)%Q) by (apply Qmult_le_compat_r; [exact H|apply Qlt_le_weak, Hb]).
  setoid_replace (j * (a * d) * b)%Q with (j * d * (a * b))%Q in L by ring. rewrite Hab in L.
  assert (J : (j * d <= 399 * d)%Q) by (apply Qmult_le_compat_r; tauto).
  set (X := Qabs (z1 - a * d)) in *. clearbody X. set (Y := (X * b)%Q) in *. setoid_replace (X * (4503599627370496 # 1) * b)%Q with (Y * (4503599627370496 # 1))%Q in L by (unfold Y; ring).
  clearbody Y. clear - L J Hd. lra.
Qed.
Lemma real_new_near s k e : bounded 53 1024 k e = true ->
  exists k' ek' x, real_new (S754_finite s k e) = Ok (RBinary (S754_finite s k' ek') 10 x 10)
    /\ (dy (Z.pos k') ek' == inject_Z (int_of k' ek'))%Q /\ 0 < int_of k' ek' /\ int_of k' ek' mod 10 <> 0 /\ -399 <= x <= 399
    /\ (Qabs (dy (Z.pos k') ek' * 10 ^ x - dy (Z.pos k) e) * 2 ^ 43 <= dy (Z.pos k) e)%Q
    /\ (forall n, (dy (Z.pos k) e == inject_Z n)%Q -> 0 <= x /\ (dy (Z.pos k') ek' * 10 ^ x == dy (Z.pos k) e)%Q).
Proof.
  intros B. unfold real_new. pose proof (bounded_digits _ _ B) as [_ M].
  destruct (new_loop_ends 399 s k e 0 B) as (k1 & e1 & x1 & R & B1 & F1 & Hx & Hsame); [change (Z.of_nat 399) with 399; lia..|].
  assert (F1' : forall s, has_fract (S754_finite s k1 e1) = false) by (intros s'; exact F1).
  destruct (new_loop_near 400 s k e 0 k1 e1 x1 B ltac:(lia) R) as (i & Ei & Hi & Near).
  rewrite R. cbn [bind].
  destruct (normalize_loop_ends 399 s k1 e1 x1 B1 F1') as (k' & ek' & j & R' & B' & F' & Hj & I' & N').
  { pose proof (bounded_below _ _ B1 F1') as L. eapply Z.lt_trans; [exact L|]. vm_compute. reflexivity. }
  { change (Z.of_nat 399) with 399 in Hx. lia. } { change (Z.of_nat 399) with 399 in *. lia. }
  rewrite R'. cbn [bind]. exists k', ek', (x1 + j). split; [reflexivity|]. change (Z.of_nat 399) with 399 in *. change (Z.of_nat 400) with 400 in *.
  pose proof (int_of_dy s k' ek' (F' s)) as D'. pose proof (int_of_dy s k1 e1 (F1' s)) as D1.
  split; [exact D'|]. split; [apply (int_of_spec s k' ek' (F' s))|]. split; [exact N'|]. split; [lia|].
  assert (T10 : forall j, 0 <= j -> (inject_Z (10 ^ j) == 10 ^ j)%Q) by (intros; rewrite Zpower_Qpower by assumption; reflexivity).
  assert (I1 : (dy (Z.pos k1) e1 == dy (Z.pos k') ek' * 10 ^ j)%Q).
  { rewrite D1, D', <- I', inject_Z_mult, T10 by lia. reflexivity. }
  assert (Ex : (10 ^ (x1 + j) == 10 ^ j * 10 ^ x1)%Q) by (rewrite Qpower_plus by discriminate; ring).
  split.
  - rewrite Ex. apply (near_end (dy (Z.pos k1) e1) (dy (Z.pos k) e) (dy (Z.pos k') ek') (inject_Z (10 ^ i)) (10 ^ x1) (10 ^ j) (inject_Z i)).
    + rewrite T10 by lia. apply ten_pos.
    + rewrite T10 by lia. rewrite <- Qpower_plus by discriminate. replace (i + x1) with 0 by lia. reflexivity.
    + unfold dy. apply Qmult_le_0_compat; [unfold Qle; cbn; lia|apply Qlt_le_weak, two_pos].
    + change 0%Q with (inject_Z 0). change 399%Q with (inject_Z 399). rewrite <- !Zle_Qle. lia.
    + exact Near.
    + exact I1.
  - intros n Hn. pose proof (int_value k e n Hn) as F. destruct (Hsame (F s)) as (-> & -> & ->). split; [lia|]. rewrite Z.add_0_l. symmetry. exact I1.
Qed.

(** [Real::new] returns for every [f64].  The mantissa is an integer that does not end in 0, and the number held differs
    from the argument by less than one part in 2^43; integers are held exactly. *)
Theorem C73_real_new (x : f64) : valid_binary 53 1024 x = true ->
  (x = S754_nan -> real_new x = Ok RNaN)
  /\ (forall s, x = S754_infinity s -> real_new x = Ok (if s then RNegInfinity else RInfinity))
  /\ (forall q, f64_value x = Some q -> (q == 0)%Q -> real_new x = Ok RZero)
  /\ (forall q, f64_value x = Some q -> ~ (q == 0)%Q ->
       exists m e mv q' z, real_new x = Ok (RBinary m 10 e 10) /\ f64_value m = Some mv /\ (mv == inject_Z z)%Q /\ z mod 10 <> 0 /\ -399 <= e <= 399
         /\ real_value (RBinary m 10 e 10) = Some q' /\ (Qabs (q' - q) * 2 ^ 43 <= Qabs q)%Q
         /\ (forall n, (q == inject_Z n)%Q -> 0 <= e /\ (q' == q)%Q)).
Proof.
  intros V. destruct x as [s|s| |s k e].
  - split; [discriminate|]. split; [discriminate|]. split; [reflexivity|]. intros q [= <-] H. exfalso. apply H. reflexivity.
  - split; [discriminate|]. split; [intros s' [= <-]; reflexivity|]. split; discriminate.
  - split; [reflexivity|]. split; [discriminate|]. split; discriminate.
  - split; [discriminate|]. split; [discriminate|]. cbn [valid_binary] in V. cbn [f64_value].
    destruct (real_new_near s k e V) as (k' & ek' & y & E & D & P & N & Hy & Near & Ex).
    assert (Neg : forall p z, (inject_Z (if s then Z.neg p else Z.pos p) * 2 ^ z == (if s then - (1) else 1) * dy (Z.pos p) z)%Q).
    { intros p z. unfold dy. destruct s; [|ring]. change (Z.neg p) with (- Z.pos p). rewrite inject_Z_opp. ring. }
    assert (DP : (0 < dy (Z.pos k) e)%Q).
    { unfold dy. rewrite <- (Qmult_0_l (2 ^ e)). apply Qmult_lt_r; [apply two_pos|]. reflexivity. }
    set (sg := (if s then - (1) else 1)%Q) in *. assert (S1 : (Qabs sg == 1)%Q) by (unfold sg; destruct s; reflexivity).
    assert (S2 : (sg * sg == 1)%Q) by (unfold sg; destruct s; reflexivity). split.
    + intros q [= <-] H. exfalso. rewrite Neg in H. assert (Z0 : (dy (Z.pos k) e == 0)%Q).
      { setoid_replace (dy (Z.pos k) e) with (sg * (sg * dy (Z.pos k) e))%Q by (rewrite Qmult_assoc, S2; ring). rewrite H. ring. }
      rewrite Z0 in DP. discriminate.
    + intros q [= <-] _. eexists _, y, _, _, (if s then - int_of k' ek' else int_of k' ek').
      split; [exact E|]. split; [reflexivity|]. split.
      { rewrite Neg, D. unfold sg. destruct s; [rewrite inject_Z_opp|]; ring. }
      split. { destruct s; [|exact N]. intros H. apply N. apply Z.mod_opp_l_z in H; [|lia]. rewrite Z.opp_involutive in H. exact H. }
      split; [exact Hy|]. cbn [real_value f64_value]. split; [reflexivity|]. change (inject_Z (Z.of_N 10)) with 10%Q.
      assert (Eq : (inject_Z (if s then Z.neg k' else Z.pos k') * 2 ^ ek' * 10 ^ y - inject_Z (if s then Z.neg k else Z.pos k) * 2 ^ e
        == sg * (dy (Z.pos k') ek' * 10 ^ y - dy (Z.pos k) e))%Q) by (rewrite !Neg; ring).
      split.
      * rewrite Eq, Neg, !Qabs_Qmult, S1, !Qmult_1_l. rewrite (Qabs_pos (dy (Z.pos k) e)) by (apply Qlt_le_weak, DP). exact Near.
      * intros n Hn. destruct (Ex (if s then - n else n)) as [H1 H2].
        { rewrite Neg in Hn. setoid_replace (dy (Z.pos k) e) with (sg * (sg * dy (Z.pos k) e))%Q by (rewrite Qmult_assoc, S2; ring). rewrite Hn.
          unfold sg. destruct s; [rewrite inject_Z_opp|]; ring. }
        split; [exact H1|]. rewrite !Neg. rewrite <- H2. ring.
Qed.
Print Assumptions C73_real_new.

(** 1500 is 15 times 10^2; 0.1 is 1 times 10^-1; 2^-1074. *)
Example C73_case :
  let mill := SFdiv 53 1024 (f64_of_Z 1) (f64_of_Z 10) in
  real_new (f64_of_Z 1500) = Ok (RBinary (f64_of_Z 15) 10 2 10) /\ real_new (f64_of_Z (-7)) = Ok (RBinary (f64_of_Z (-7)) 10 0 10)
  /\ valid_binary 53 1024 mill = true /\ real_new mill = Ok (RBinary (f64_of_Z 1) 10 (-1) 10)
  /\ valid_binary 53 1024 (S754_finite false 1 (-1074)) = true
  /\ exists m, real_new (S754_finite false 1 (-1074)) = Ok (RBinary m 10 (-339) 10).
Proof. split; [vm_compute; reflexivity|]. repeat split; try (vm_compute; reflexivity). eexists. vm_compute. reflexivity. Qed.

(** ** Writing what has been read *)

(** Objects which every parser reads, and whose value cannot be written: the loop of the writer is never left (exponent
    too large for its base 8), the assertion of the writer fails (number 0). *)
Theorem C74_rewrite_refuted :
  (exists i m e b m' e', bytes_ok i /\ all_read real_codec i [] (RBinary m 2 e b)
     /\ change_base b (SFabs m) e = Ok (m', e') /\ forall fuel v, drop_loop fuel b m' e' <> Ok v)
  /\ (exists i r, bytes_ok i /\ all_read real_codec i [] r /\ holds r 0%Q /\ to_vec (tober_real r) = Panic).
Proof.
  split.
  - exists [9; 4; 145; 127; 255; 1]%N, (f64_of_Z 1), 98301, 8%N, (S754_infinity false), 32767. split; [repeat constructor|].
    split; [repeat split; vm_compute; reflexivity|]. split; [vm_compute; reflexivity|].
    intros fuel v. apply drop_endless. lia.
  - exists [9; 3; 128; 0; 0]%N, (RBinary (S754_zero false) 2 0 2). split; [repeat constructor|]. split; [repeat split; vm_compute; reflexivity|].
    split; [|vm_compute; reflexivity]. exists (0 * inject_Z (Z.of_N 2) ^ 0)%Q. split; [reflexivity|]. vm_compute. reflexivity.
Qed.
Print Assumptions C74_rewrite_refuted.

Lemma scaled_ok p sf : (sf <= 3)%N -> 0 < Z.abs p < 2 ^ 53 ->
  valid_binary 53 1024 (scaled p sf) = true.
Proof.
  intros Hs Hp. destruct (f64_of_small p) as (k & j & E & Hk & Hj & Ek); [lia|].
  rewrite (scaled_finite p sf k (- j)); [|assumption | assumption | assumption | lia].
  cbn [valid_binary]. apply bounded_normal; [exact Hk|lia].
Qed.

(** What is read from a base 2 object of at most 53 bits can be written and then holds the same number, if and only if
    the exponent of the odd part of its number is among [exponent_fits]. *)
Theorem C74_base2 (i rem content : bytes) (c : class) (p : binary_parts) (eo mo : bytes) (n t : Z) :
  bytes_ok i -> starts_with_object c false 9 content i rem -> short_form p eo mo content -> (blen mo <= 8)%N ->
  bp_base_code p = 0%N -> (0 < bp_number p < 2 ^ 53)%N ->
  Z.odd n = true -> 0 <= t -> Z.of_N (bp_number p) * 2 ^ Z.of_N (bp_factor p) = n * 2 ^ t ->
  exists r, all_read real_codec i rem r /\ holds r (parts_value p) /\ (survives r <-> exponent_fits (bp_exponent p + t)).
Proof.
  intros Hi HS HF Hm H0 Hn On Ht Ent. pose proof HF as (IP & code & Hcode & Le & _). destruct IP as (Hb & Hf & Eok & Mok & _ & _ & Et & Mv).
  pose proof (short_read _ _ _ _ HF) as R. pose proof (parts_dy p Hb) as PV.
  unfold read_as in R. destruct (N.ltb_spec 8 (blen mo)) as [L|_]; [lia|].
  assert (V: val mo = Z.of_N (bp_number p)) by (unfold val; lia). rewrite V in R.
  set (z := if bp_negative p then - Z.of_N (bp_number p) else Z.of_N (bp_number p)) in *.
  assert (Az : Z.abs z = Z.of_N (bp_number p)) by (unfold z; destruct (bp_negative p); lia).
  assert (R' : read_content content = Ok (RBinary (scaled z (bp_factor p)) 2 (bp_exponent p) 2)).
  { rewrite R. rewrite wrap_i64_small by lia. replace (bp_negative p && (Z.of_N (bp_number p) =? - 2 ^ 63)) with false.
    - rewrite H0. change (log_base 0) with 1. rewrite Z.mul_1_r. reflexivity.
    - symmetry. apply andb_false_iff. right. apply Z.eqb_neq. lia. }
  eexists. split; [apply (real_all_read i rem c content); [assumption|assumption|exact R']|].
  destruct (scaled_exact z (bp_factor p) Hf) as (q & E & Eq); [lia|]. split.
  { unfold holds, real_value. rewrite E. eexists. split; [reflexivity|]. rewrite Eq, PV. rewrite H0. change (log_base 0) with 1.
    change (inject_Z (Z.of_N 2)) with 2%Q. rewrite dy_scale. rewrite Z.mul_1_l. reflexivity. }
  assert (Pn : 0 < n).
  { assert (0 < Z.of_N (bp_number p) * 2 ^ Z.of_N (bp_factor p)) by (apply Z.mul_pos_pos; [lia|apply Z.pow_pos_nonneg; lia]).
    pose proof (Z.pow_pos_nonneg 2 t ltac:(lia) Ht). nia. }
  assert (Qa : (Qabs q == dy n t)%Q).
  { rewrite Eq. rewrite abs_dy, Az. rewrite <- (Z.add_0_l (Z.of_N (bp_factor p))), <- dy_shift by lia.
    rewrite Ent. rewrite dy_shift by exact Ht. rewrite Z.add_0_l. reflexivity. }
  assert (Bd : n * 2 ^ t < 2 ^ 56).
  { rewrite <- Ent. assert (2 ^ Z.of_N (bp_factor p) <= 2 ^ 3) by (apply Z.pow_le_mono_r; lia).
    assert (0 < 2 ^ Z.of_N (bp_factor p)) by (apply Z.pow_pos_nonneg; lia). change (2 ^ 56) with (2 ^ 53 * 2 ^ 3). nia. }
  assert (T56 : t < 56).
  { destruct (Z_lt_le_dec t 56) as [T|T]; [exact T|]. assert (2 ^ 56 <= 2 ^ t) by (apply Z.pow_le_mono_r; lia). nia. }
  pose proof (short_exponent eo (code + 1)%N Eok Le ltac:(lia)) as Er. rewrite Et in Er.
  rewrite (C40_base2 _ (bp_exponent p) q n t (scaled_ok z (bp_factor p) Hf ltac:(lia)) E On Pn Qa).
  2: { change (2 ^ 23) with 8388608 in Er. change (2 ^ 24) with 16777216. lia. }
  rewrite Qa. split; [tauto|]. intros H. assert (G1 : (dy 1 0 <= dy n t)%Q).
  { rewrite <- (Z.add_0_l t), <- dy_shift by exact Ht. apply dy_le. pose proof (Z.pow_pos_nonneg 2 t ltac:(lia) Ht). nia. }
  assert (G2 : (dy n t < dy (2 ^ 56) 0)%Q).
  { rewrite <- (Z.add_0_l t), <- dy_shift by exact Ht. apply dy_lt. exact Bd. }
  split; [|split; [|exact H]].
  - eapply Qlt_le_trans; [|exact G1]. vm_compute. reflexivity.
  - eapply Qlt_trans; [exact G2|]. vm_compute. reflexivity.
Qed.
Print Assumptions C74_base2.

(** Objects with base 8 or 16 ([c] is 3 or 4): those with exponent 0 survive, and no other: the writer divides the
    exponent and scales the number instead of dividing it. *)
Theorem C74_base8_16 (i rem content : bytes) (cl : class) (p : binary_parts) (eo mo : bytes) (n t c : Z) :
  bytes_ok i -> starts_with_object cl false 9 content i rem -> short_form p eo mo content -> (blen mo <= 8)%N ->
  (bp_base_code p, c) = (1%N, 3) \/ (bp_base_code p, c) = (2%N, 4) -> (0 < bp_number p < 2 ^ 53)%N ->
  Z.odd n = true -> 0 <= t -> Z.of_N (bp_number p) * 2 ^ Z.of_N (bp_factor p) = n * 2 ^ t ->
  let x := bp_exponent p in
  exists r, all_read real_codec i rem r /\ holds r (parts_value p) /\ (survives r <-> x = 0).
Proof.
  intros Hi HS HF Hm HB Hn On Ht Ent x. pose proof HF as (IP & code & Hcode & Le & _). destruct IP as (Hb & Hf & Eok & Mok & _ & _ & Et & Mv).
  pose proof (short_read _ _ _ _ HF) as R. pose proof (parts_dy p Hb) as PV.
  unfold read_as in R. destruct (N.ltb_spec 8 (blen mo)) as [L|_]; [lia|].
  assert (V: val mo = Z.of_N (bp_number p)) by (unfold val; lia). rewrite V in R.
  set (z := if bp_negative p then - Z.of_N (bp_number p) else Z.of_N (bp_number p)) in *.
  assert (Az : Z.abs z = Z.of_N (bp_number p)) by (unfold z; destruct (bp_negative p); lia).
  assert (HB' : exists b, ((c, b) = (3, 8%N) \/ (c, b) = (4, 16%N)) /\ 3 <= c <= 4
            /\ log_base (bp_base_code p) = c /\ base_number (bp_base_code p) = b).
  { destruct HB as [X|X]; injection X as E1 E2; rewrite E1; subst c; [exists 8%N | exists 16%N]; repeat split; try lia; tauto. }
  destruct HB' as (b & HB' & Hc & El & Eb).
  assert (R' : read_content content = Ok (RBinary (scaled z (bp_factor p)) 2 (x * c) b)).
  { rewrite R. rewrite wrap_i64_small by lia. replace (bp_negative p && (Z.of_N (bp_number p) =? - 2 ^ 63)) with false.
    - rewrite El, Eb. reflexivity.
    - symmetry. apply andb_false_iff. right. apply Z.eqb_neq. lia. }
  eexists. split; [apply (real_all_read i rem cl content); [assumption|assumption|exact R']|].
  destruct (scaled_exact z (bp_factor p) Hf) as (q & E & Eq); [lia|]. split.
  { unfold holds, real_value. rewrite E. eexists. split; [reflexivity|]. rewrite Eq, PV. rewrite El.
    change (inject_Z (Z.of_N 2)) with 2%Q. rewrite dy_scale. rewrite (Z.mul_comm x c). reflexivity. }
  assert (Pn : 0 < n).
  { assert (0 < Z.of_N (bp_number p) * 2 ^ Z.of_N (bp_factor p)) by (apply Z.mul_pos_pos; [lia|apply Z.pow_pos_nonneg; lia]).
    pose proof (Z.pow_pos_nonneg 2 t ltac:(lia) Ht). nia. }
  assert (Qa : (Qabs q == dy n t)%Q).
  { rewrite Eq. rewrite abs_dy, Az. rewrite <- (Z.add_0_l (Z.of_N (bp_factor p))), <- dy_shift by lia.
    rewrite Ent. rewrite dy_shift by exact Ht. rewrite Z.add_0_l. reflexivity. }
  assert (Bd : n * 2 ^ t < 2 ^ 56).
  { rewrite <- Ent. assert (2 ^ Z.of_N (bp_factor p) <= 2 ^ 3) by (apply Z.pow_le_mono_r; lia).
    assert (0 < 2 ^ Z.of_N (bp_factor p)) by (apply Z.pow_pos_nonneg; lia). change (2 ^ 56) with (2 ^ 53 * 2 ^ 3). nia. }
  assert (T56 : t < 56).
  { destruct (Z_lt_le_dec t 56) as [T|T]; [exact T|]. assert (2 ^ 56 <= 2 ^ t) by (apply Z.pow_le_mono_r; lia). nia. }
  pose proof (short_exponent eo (code + 1)%N Eok Le ltac:(lia)) as Er. rewrite Et in Er. fold x in Er. change (2 ^ 23) with 8388608 in Er.
  assert (G1 : (dy 1 0 <= dy n t)%Q).
  { rewrite <- (Z.add_0_l t), <- dy_shift by exact Ht. apply dy_le. pose proof (Z.pow_pos_nonneg 2 t ltac:(lia) Ht). nia. }
  assert (G2 : (dy n t < dy (2 ^ 56) 0)%Q).
  { rewrite <- (Z.add_0_l t), <- dy_shift by exact Ht. apply dy_lt. exact Bd. }
  assert (Eqx : Z.quot (x * c) c = x) by (apply Z.quot_mul; lia).
  rewrite (C40_base8_16 (scaled z (bp_factor p)) (x * c) q n t c b HB' (scaled_ok z (bp_factor p) Hf ltac:(lia)) E On Pn Qa).
  2: { change (2 ^ 31) with 2147483648. nia. }
  rewrite Eqx. split; [intros (H & _); lia|]. intros ->. split; [lia|]. change (2 ^ 0)%Q with 1%Q. rewrite Qmult_1_r, Qa. split.
  - eapply Qlt_le_trans; [|exact G1]. vm_compute. reflexivity.
  - eapply Qlt_trans; [exact G2|]. vm_compute. reflexivity.
Qed.
Print Assumptions C74_base8_16.

(** Every binary object with one to three exponent octets that some parser reads, whatever its number: the mantissa is
    nearly the number, and when the value survives. *)
Lemma scaled_form z f : (f <= 3)%N -> z <> 0 -> Z.abs z < 2 ^ 64 ->
  exists k ek, scaled z f = S754_finite (z <? 0) k ek /\ normal k /\ -52 <= ek <= 15.
Proof.
  intros Hf Nz Hz. destruct (Z_lt_le_dec (Z.abs z) (2 ^ 53)) as [L|L].
  - destruct (f64_of_small z) as (k & j & E & Hk & Hj & _); [lia|]. exists k, (- j + Z.of_N f).
    split; [apply scaled_finite; [assumption | assumption | assumption | lia]|]. split; [exact Hk | lia].
  - destruct (f64_of_large z) as (k & e & E & Hk & He & _); [lia|]. exists k, (e + Z.of_N f).
    split; [apply scaled_finite; [assumption | assumption | assumption | lia]|]. split; [exact Hk | lia].
Qed.

Lemma zero_panics c b code e : base_row c b code -> i32_min < e <= i32_max -> real_binary_content (S754_zero false) e b = Panic.
Proof.
  intros HB He. destruct (N.eq_dec b 2) as [->|Nb].
  - apply (tiny_content _ _ _ (S754_zero false) e); [reflexivity | left; reflexivity].
  - eapply tiny_content; [cbn [SFabs]; apply (change_base_8_16 c b code); assumption|].
    set (q := Z.quot e c). clearbody q. destruct (Z_lt_le_dec 1023 q) as [L|L].
    { right. left. rewrite powi_two_large by exact L. reflexivity. }
    left. destruct (Z_lt_le_dec q (-1023)) as [L'|L']; [rewrite powi_two_small by exact L'; reflexivity|].
    destruct (Z.eq_dec q (-1023)) as [->|]; [rewrite powi_two_1023; reflexivity|].
    destruct (Z.eq_dec q (-1022)) as [->|]; [rewrite powi_two_1022; reflexivity|].
    rewrite powi_two by lia. reflexivity.
Qed.

Theorem C74_binary (i rem rem' content : bytes) (cl : class) (p : binary_parts) (eo mo : bytes) (r : real) :
  bytes_ok i -> starts_with_object cl false 9 content i rem -> short_form p eo mo content -> some_read real_codec i rem' r ->
  let x := bp_exponent p in
  rem' = rem /\ all_read real_codec i rem r /\
  exists m e b v, r = RBinary m 2 e b /\ f64_value m = Some v
    /\ ((bp_number p < 2 ^ 63)%N ->
        let w := (inject_Z (if bp_negative p then - Z.of_N (bp_number p) else Z.of_N (bp_number p)) * 2 ^ Z.of_N (bp_factor p))%Q in
        (Qabs (v - w) * 2 ^ 53 <= Qabs w)%Q)
    /\ ((v == 0)%Q -> ~ survives r)
    /\ forall n t, Z.odd n = true -> 0 < n -> (Qabs v == inject_Z n * 2 ^ t)%Q ->
       (survives r <-> (Qabs v < 2 ^ 64)%Q /\ if (bp_base_code p =? 0)%N then exponent_fits (x + t) else x = 0).
Proof.
  intros Hi HS HF SR x. pose proof HF as (IP & code & Hcode & Le & _). destruct IP as (Hb & Hf & Eok & Mok & _ & _ & Et & Mv).
  destruct (real_some_read _ _ _ _ _ _ Hi HS SR) as (-> & RC). split; [reflexivity|].
  split; [exact (real_all_read _ _ _ _ _ Hi HS RC)|].
  rewrite (short_read _ _ _ _ HF) in RC. unfold read_as in RC. destruct (N.ltb_spec 8 (blen mo)) as [L|Lm]; [discriminate|]. cbv zeta in RC.
  set (w := wrap_i64 (val mo)) in *.
  assert (Hw : - 2 ^ 63 <= w < 2 ^ 63).
  { unfold w, wrap_i64. change (2 ^ 63) with 9223372036854775808. change (2 ^ 64) with 18446744073709551616. lia. }
  destruct (bp_negative p && (w =? - 2 ^ 63)) eqn:Ew; [discriminate|]. injection RC as <-.
  set (z := if bp_negative p then - w else w) in *. fold x.
  assert (Hz : Z.abs z < 2 ^ 64) by (unfold z; change (2 ^ 64) with (2 * 2 ^ 63); destruct (bp_negative p); lia).
  destruct (scaled_near z (bp_factor p) Hf Hz) as (v & Ev & Nv).
  eexists _, _, _, v. split; [reflexivity|]. split; [exact Ev|].
  pose proof (short_exponent eo (code + 1)%N Eok Le ltac:(lia)) as Er. rewrite Et in Er. fold x in Er. change (2 ^ 23) with 8388608 in Er.
  assert (Hc : 1 <= log_base (bp_base_code p) <= 4) by (unfold log_base; destruct (_ =? 0)%N; [|destruct (_ =? 1)%N]; lia).
  assert (HR : base_row (log_base (bp_base_code p)) (base_number (bp_base_code p)) (bp_base_code p)).
  { assert (D : bp_base_code p = 0%N \/ bp_base_code p = 1%N \/ bp_base_code p = 2%N) by lia.
    unfold base_row. destruct D as [-> | [-> | ->]]; cbn; tauto. }
  split; [|split].
  - intros HN. cbv zeta. assert (E : w = Z.of_N (bp_number p)).
    { unfold w. rewrite <- Mv. unfold val in *. apply wrap_i64_small. change (2 ^ 63)%N with 9223372036854775808%N in HN. lia. }
    unfold z in Nv. rewrite E in Nv. exact Nv.
  - intros V0. apply unwritten. intros cb.
    destruct (Z.eq_dec z 0) as [Z0|Z0].
    + rewrite Z0, (scaled_zero _ Hf). rewrite (zero_panics _ _ _ _ HR); [discriminate|]. unfold i32_min, i32_max. change (2 ^ 31) with 2147483648. nia.
    + exfalso. destruct (scaled_form z (bp_factor p) Hf Z0 Hz) as (k & ek & Es & _). rewrite Es in Ev. injection Ev as <-.
      assert (A : (dy (if z <? 0 then Z.neg k else Z.pos k) ek == dy 0 ek)%Q) by (unfold dy; rewrite V0; ring).
      apply dy_inj in A. destruct (z <? 0); lia.
  - intros n t On Pn Vn.
    assert (Z0 : z <> 0).
    { intros Z0. rewrite Z0, (scaled_zero _ Hf) in Ev. injection Ev as <-. change (Qabs 0) with 0%Q in Vn.
      assert (A : (dy n t == dy 0 t)%Q) by (unfold dy; rewrite <- Vn; ring). apply dy_inj in A. lia. }
    destruct (scaled_form z (bp_factor p) Hf Z0 Hz) as (k & ek & Es & Nk & Hek). pose proof Ev as Ev'. rewrite Es in Ev'. injection Ev' as Ev'.
    assert (VK : (Qabs v == dy (Z.pos k) ek)%Q).
    { rewrite <- Ev'. change (Qabs (dy (if z <? 0 then Z.neg k else Z.pos k) ek) == dy (Z.pos k) ek)%Q. rewrite abs_dy. destruct (z <? 0); reflexivity. }
    assert (Hv : valid_binary 53 1024 (scaled z (bp_factor p)) = true) by (rewrite Es; cbn [valid_binary]; apply bounded_normal; [exact Nk | lia]).
    assert (Ht : -52 <= t < 68).
    { destruct (odd_part k) as (n' & j & On' & Pn' & J & Ek).
      assert (A : (dy n t == dy n' (ek + j))%Q). { rewrite <- dy_shift by exact J. rewrite <- Ek, <- VK, Vn. reflexivity. }
      apply dy_odd in A as [_ ->]; [|assumption|assumption].
      assert (j < 53); [|lia]. destruct (Z_lt_le_dec j 53); [assumption|]. assert (2 ^ 53 <= 2 ^ j) by (apply Z.pow_le_mono_r; lia). unfold normal in Nk. nia. }
    assert (V1 : (dy 1 0 <= Qabs v)%Q).
    { rewrite VK. assert (E1 : (dy 1 0 == dy (2 ^ 52) (-52))%Q) by reflexivity. rewrite E1.
      replace ek with (-52 + (ek - -52)) by lia. rewrite <- (dy_shift (Z.pos k) (-52)) by lia. apply dy_le.
      assert (0 < 2 ^ (ek - -52)) by (apply Z.pow_pos_nonneg; lia). unfold normal in Nk. nia. }
    assert (V2 : (2 ^ (-52) < Qabs v)%Q) by (eapply Qlt_le_trans; [|exact V1]; vm_compute; reflexivity).
    destruct (N.eqb_spec (bp_base_code p) 0) as [B0|B0].
    + rewrite B0. change (log_base 0) with 1. change (base_number 0) with 2%N. rewrite Z.mul_1_r.
      rewrite (C40_base2 _ x v n t Hv Ev On Pn Vn) by (change (2 ^ 24) with 16777216; lia). tauto.
    + assert (HB' : (log_base (bp_base_code p), base_number (bp_base_code p)) = (3, 8%N) \/ (log_base (bp_base_code p), base_number (bp_base_code p)) = (4, 16%N)).
      { assert (D : bp_base_code p = 1%N \/ bp_base_code p = 2%N) by lia. destruct D as [-> | ->]; [left | right]; reflexivity. }
      assert (Hc3 : 3 <= log_base (bp_base_code p)) by (destruct HB' as [X|X]; injection X as -> _; lia).
      rewrite (C40_base8_16 _ (x * log_base (bp_base_code p)) v n t _ _ HB' Hv Ev On Pn Vn) by (change (2 ^ 31) with 2147483648; nia).
      rewrite Z.quot_mul by lia. split.
      * intros (H & _ & H3). assert (X0 : x = 0) by lia. rewrite X0 in H3. change (2 ^ 0)%Q with 1%Q in H3. rewrite Qmult_1_r in H3. split; [exact H3 | exact X0].
      * intros (H & X0). rewrite X0. split; [lia|]. change (2 ^ 0)%Q with 1%Q. rewrite Qmult_1_r. split; [exact V2 | exact H].
Qed.
Print Assumptions C74_binary.

(** The number 2^60 + 1 is read as 2^60, which survives; the number 0 is read and cannot be written. *)
Example C74_binary_case :
  let p := mk_parts false 0 0 0 (2 ^ 60 + 1) in let mo := [16; 0; 0; 0; 0; 0; 0; 1]%N in
  short_form p [0%N] mo (128%N :: 0%N :: mo) /\ exponent_fits (bp_exponent p + 60)
  /\ parse_der real_codec (9 :: 10 :: 128 :: 0 :: mo)%N = Ok ([], RBinary (f64_of_Z (2 ^ 60)) 2 0 2)
  /\ to_vec (tober_real (RBinary (f64_of_Z (2 ^ 60)) 2 0 2)) = Ok [9; 3; 128; 60; 1]%N
  /\ parse_der real_codec [9; 3; 128; 0; 0]%N = Ok ([], RBinary (f64_of_Z 0) 2 0 2)
  /\ to_vec (tober_real (RBinary (f64_of_Z 0) 2 0 2)) = Panic.
Proof.
  split.
  - split; [|exists 0%N; split; [lia|]; split; reflexivity]. unfold in_parts. cbn [bp_base_code bp_factor bp_exponent bp_number].
    repeat split; try lia; try discriminate; repeat constructor.
  - split; [unfold exponent_fits; cbn [bp_exponent]; lia|]. repeat split; vm_compute; reflexivity.
Qed.

(** 5 times 2^2 times 2^-6; and the exponent -130, which is written in one octet and reads back as 126. *)
Example C74_case :
  let p := mk_parts false 0 2 (-6) 5 in
  short_form p [250%N] [5%N] [136; 250; 5]%N /\ Z.of_N (bp_number p) * 2 ^ Z.of_N (bp_factor p) = 5 * 2 ^ 2 /\ exponent_fits (bp_exponent p + 2)
  /\ ~ exponent_fits (-130 + 0)
  /\ parse_der real_codec [9; 4; 129; 255; 126; 5]%N = Ok ([], RBinary (f64_of_Z 5) 2 (-130) 2)
  /\ to_vec (tober_real (RBinary (f64_of_Z 5) 2 (-130) 2)) = Ok [9; 3; 128; 126; 5]%N.
Proof.
  split; [|split; [reflexivity|]].
  - split; [|exists 0%N; split; [lia|]; split; reflexivity]. unfold in_parts. cbn [bp_base_code bp_factor bp_exponent bp_number].
    repeat split; try lia; try discriminate; repeat constructor.
  - split; [unfold exponent_fits; cbn [bp_exponent]; lia|]. split; [unfold exponent_fits; lia|]. split; vm_compute; reflexivity.
Qed.

(** In base 8: 5 * 8^1 is written as 5 * 2 * 8^1; 5 * 2 * 8^0 comes back. *)
Example C74_base8_case :
  let p := mk_parts false 1 0 1 5 in
  short_form p [1%N] [5%N] [144; 1; 5]%N /\ Z.of_N (bp_number p) * 2 ^ Z.of_N (bp_factor p) = 5 * 2 ^ 0
  /\ parse_der real_codec [9; 3; 144; 1; 5]%N = Ok ([], RBinary (f64_of_Z 5) 2 3 8)
  /\ to_vec (tober_real (RBinary (f64_of_Z 5) 2 3 8)) = Ok [9; 3; 148; 1; 5]%N
  /\ parse_der real_codec [9; 3; 148; 0; 5]%N = Ok ([], RBinary (f64_of_Z 10) 2 0 8)
  /\ to_vec (tober_real (RBinary (f64_of_Z 10) 2 0 8)) = Ok [9; 3; 148; 0; 5]%N.
Proof.
  split.
  - split; [|exists 0%N; split; [lia|]; split; reflexivity]. unfold in_parts. cbn [bp_base_code bp_factor bp_exponent bp_number].
    repeat split; try lia; try discriminate; repeat constructor.
  - repeat split; vm_compute; reflexivity.
Qed.
