(** Further parts of C18 (a Boolean under an IMPLICIT tag), C53 (dates that no content spells) and C55 (the digits
    printed are the closest). *)
From Coq Require Import SpecFloat QArith Qpower Qabs Lqa.
From Verif Require Import Base MHeader MEncode SHeader PArith PHeader PEncode MBer SBer PBer
  MInt SInt PCodec PInt PropInt MOid SOid POid MTime STime PTime MText SText PText MReal PFloat SReal PReal PropTime PropReal PDecimal PropDecimal PRound
  PropReals PropNumber PropNear.
Local Open Scope N_scope.

(** ** C18: [Boolean] under an IMPLICIT tag *)

(** [ber_encode_tagged_implicit] and [der_encode_tagged_implicit]: primitive, with the octet of the value, or 0 or 255. *)
Theorem C18_boolean_tagged (o n : N) (c : class) :
  o < 256 -> n < 31 ->
  let ident := 64 * match c with Universal => 0 | Application => 1 | ContextSpecific => 2 | Private => 3 end + n in
  encode_tagged_implicit c n (tober_boolean o) = Ok ([ident; 1; o], 3)
  /\ encode_tagged_implicit c n (toder_boolean o) = Ok ([ident; 1; if o =? 0 then 0 else 255], 3).
Proof.
  intros Ho Hn ident.
  assert (G : forall k, (k < 31)%nat -> encode_tagged_implicit c (N.of_nat k) (tober_boolean o)
      = Ok ([64 * match c with Universal => 0 | Application => 1 | ContextSpecific => 2 | Private => 3 end + N.of_nat k; 1; o], 3)
    /\ encode_tagged_implicit c (N.of_nat k) (toder_boolean o)
      = Ok ([64 * match c with Universal => 0 | Application => 1 | ContextSpecific => 2 | Private => 3 end + N.of_nat k; 1; if o =? 0 then 0 else 255], 3)).
  { intros k Hk. do 31 (destruct k as [|k]; [destruct c; split; reflexivity|]). lia. }
  specialize (G (N.to_nat n)). rewrite N2Nat.id in G. apply G. lia.
Qed.
Print Assumptions C18_boolean_tagged.
Example C18_boolean_tagged_case :
  encode_tagged_implicit ContextSpecific 3 (toder_boolean 7) = Ok ([131; 1; 255], 3)
  /\ encode_tagged_implicit ContextSpecific 3 (tober_boolean 7) = Ok ([131; 1; 7], 3).
Proof. split; reflexivity. Qed.

(** ** C53: [ASN1DateTime::to_datetime] of any fields *)

(** Seconds east of UTC; the sign of the hours is the one of the minutes. *)
Definition zone_seconds (z : tz) (off : Z) : Prop :=
  match z with
  | TzOffset h m => (Z.abs h <= 25 /\ Z.abs m <= 59 /\ off = 3600 * h + 60 * (if h =? 0 then m else if h <? 0 then - Z.abs m else Z.abs m))%Z
  | _ => off = 0%Z
  end.

(** The [u32] of the year is taken modulo 2^32 as a signed number. *)
Theorem C53_any_datetime (t : datetime) (d : offset_datetime) :
  dt_year t < 2 ^ 32 ->
  to_datetime t = Ok d <->
  exists y off ms, (y mod 2 ^ 32 = Z.of_N (dt_year t) /\ -9999 <= y <= 9999)%Z /\ valid_date y (dt_month t) (dt_day t)
    /\ dt_hour t < 24 /\ dt_minute t < 60 /\ dt_second t < 60
    /\ ms = match dt_millisecond t with Some v => v | None => 0 end /\ ms < 1000
    /\ zone_seconds (dt_tz t) off
    /\ d = mk_odt y (dt_month t) (dt_day t) (dt_hour t) (dt_minute t) (dt_second t) ms off.
Proof.
  intros Hy. change (2 ^ 32) with 4294967296 in Hy. unfold to_datetime. cbv zeta. set (ms := match dt_millisecond t with Some v => v | None => 0 end).
  assert (Y : forall y, (y mod 2 ^ 32 = Z.of_N (dt_year t) /\ -9999 <= y <= 9999)%Z <-> y = MTime.as_i32 (dt_year t) /\ (-9999 <= y <= 9999)%Z).
  { intros y. unfold MTime.as_i32. change (2 ^ 31) with 2147483648. change (2 ^ 32)%Z with 4294967296%Z.
    destruct (N.ltb_spec (dt_year t) 2147483648); split; intros [E B]; (split; [|exact B]); lia. }
  assert (Z1 : forall off, match dt_tz t with TzOffset h m => utc_offset h m | _ => Ok 0%Z end = Ok off <-> zone_seconds (dt_tz t) off).
  { intros off. unfold zone_seconds. destruct (dt_tz t) as [| |h m]; try (split; [intros E; injection E as <-; reflexivity|intros ->; reflexivity]).
    unfold utc_offset. destruct (Z.leb_spec (Z.abs h) 25); [|cbn [andb]; split; [discriminate|lia]].
    destruct (Z.leb_spec (Z.abs m) 59); [|cbn [andb]; split; [discriminate|lia]]. cbn [andb].
    destruct (Z.eqb_spec h 0) as [->|N0].
    - split; [intros E; injection E as <-; lia|intros (_ & _ & ->); f_equal; lia].
    - destruct (Z.ltb_spec h 0).
      + rewrite Z.sgn_neg by lia. split; [intros E; apply (f_equal (fun r => match r with Ok x => x | _ => 0%Z end)) in E; lia|intros (_ & _ & ->); f_equal; lia].
      + rewrite Z.sgn_pos by lia. split; [intros E; apply (f_equal (fun r => match r with Ok x => x | _ => 0%Z end)) in E; lia|intros (_ & _ & ->); f_equal; lia]. }
  split.
  - destruct (calendar_date _ _ _) eqn:C; cbn [negb]; [|discriminate]. apply calendar_date_iff in C as [C1 C2].
    destruct (N.leb_spec (dt_hour t) 23); [|discriminate]. destruct (N.leb_spec (dt_minute t) 59); [|discriminate].
    destruct (N.leb_spec (dt_second t) 59); [|discriminate]. destruct (N.leb_spec ms 999); [|discriminate]. cbn [andb negb].
    intros E. apply bind_ok in E as (off & E1 & E2). injection E2 as <-.
    exists (MTime.as_i32 (dt_year t)), off, ms. split; [apply Y; auto|]. split; [exact C2|]. do 3 (split; [lia|]). split; [reflexivity|]. split; [lia|]. split; [apply Z1, E1|reflexivity].
  - intros (y & off & ms' & HY & V & H1 & H2 & H3 & -> & H4 & HZ & ->). apply Y in HY as [-> B]. fold ms in H4 |- *.
    rewrite (proj2 (calendar_date_iff _ _ _)) by auto. cbn [negb]. replace (_ && _ && _ && _) with true by lia. cbn [negb].
    rewrite (proj2 (Z1 off) HZ). reflexivity.
Qed.
Print Assumptions C53_any_datetime.
Example C53_any_datetime_case :
  to_datetime (mk_datetime 2024 2 29 23 59 58 (Some 7) (TzOffset (-3) 30)) = Ok (mk_odt 2024 2 29 23 59 58 7 (-12600)%Z).
Proof. reflexivity. Qed.

(** A year that is no year of the calendar is not refused: it becomes the year 1 BC + 1. *)
Theorem C53_wrapped_year_refuted :
  exists t d, dt_year t = 4294967295 /\ to_datetime t = Ok d /\ od_year d = (-1)%Z.
Proof. exists (mk_datetime 4294967295 1 1 0 0 0 None TzZ), (mk_odt (-1) 1 1 0 0 0 0 0). repeat split. Qed.
Print Assumptions C53_wrapped_year_refuted.

(** ** C55: the digits written for a large integer *)

Local Open Scope Z_scope.
Lemma shortest_loop_found x m e : forall n y d y', 0 < d -> shortest_loop n x m e y = (d, y') -> shortest_with x m e y' = Some d.
Proof.
  induction n as [|n IH]; intros y d y' Hd; cbn [shortest_loop]; [intros E; injection E; lia|].
  destruct (shortest_with x m e y) as [d0|] eqn:E; [intros X; injection X as <- <-; exact E|apply IH; exact Hd].
Qed.
Lemma closer_candidates N D q r d d' : 0 < D -> N = D * q + r -> 0 <= r < D ->
  (2 * r <= D /\ d = q) \/ (D < 2 * r /\ d = q + 1) \/ (2 * r <= D /\ d = q + 1 /\ d' <> q) \/ (D < 2 * r /\ d = q /\ d' <> q + 1) ->
  Z.abs (d * D - N) <= Z.abs (d' * D - N).
Proof.
  intros HD E Hr H. set (g := d' - q). replace (d' * D - N) with (g * D - r) by (unfold g; nia).
  assert (G : g = 0 \/ g = 1 \/ g <= -1 \/ 2 <= g) by lia.
  assert (F : forall a, 2 <= a -> 2 * D <= a * D) by (intros; nia). assert (F' : forall a, a <= -1 -> a * D <= - D) by (intros; nia).
  destruct H as [[H ->]|[[H ->]|[(H & -> & Hn)|(H & -> & Hn)]]].
  - replace (q * D - N) with (- r) by nia. destruct G as [->|[->|[G|G]]]; [lia|lia|specialize (F' _ G); lia|specialize (F _ G); lia].
  - replace ((q + 1) * D - N) with (D - r) by nia. destruct G as [->|[->|[G|G]]]; [lia|lia|specialize (F' _ G); lia|specialize (F _ G); lia].
  - replace ((q + 1) * D - N) with (D - r) by nia. destruct G as [G|[->|[G|G]]]; [unfold g in G; lia|lia|specialize (F' _ G); lia|specialize (F _ G); lia].
  - replace (q * D - N) with (- r) by nia. destruct G as [->|[G|[G|G]]]; [lia|unfold g in G; lia|specialize (F' _ G); lia|specialize (F _ G); lia].
Qed.

(** An integer of at least 2^53 is printed as an integer with as many zeros at the end as the loop found to be enough; it reads back
    as the number, and no other with these zeros that does is closer. *)
Theorem C55_text_closest (s : bool) (k : positive) (e : Z) :
  2 ^ 52 <= Z.pos k < 2 ^ 53 -> 1 <= e <= 971 ->
  exists d y, 0 < d /\ 0 <= y
    /\ show_f64 (S754_finite s k e) = (if s then [45%N] else []) ++ decimal (Z.to_N d) ++ repeat 48%N (Z.to_nat y)
    /\ round_decimal false d y = S754_finite false k e
    /\ forall d', round_decimal false d' y = S754_finite false k e ->
         Z.abs (d * 10 ^ y - Z.pos k * 2 ^ e) <= Z.abs (d' * 10 ^ y - Z.pos k * 2 ^ e).
Proof.
  intros Nk He. assert (NK : normal k) by exact Nk.
  assert (F : has_fract (S754_finite s k e) = false).
  { destruct (has_fract (S754_finite s k e)) eqn:F; [|reflexivity]. unfold has_fract in F. destruct e; try lia; discriminate. }
  destruct (int_of_spec s k e F) as (P & I1 & _). specialize (I1 ltac:(lia)).
  assert (P2 : 2 ^ 1 <= 2 ^ e) by (apply Z.pow_le_mono_r; lia). change (2 ^ 1) with 2 in P2. change (2 ^ 52) with 4503599627370496 in Nk.
  set (y0 := Z.max ((53 + e) * 4 / 13) ((53 + e) * 3 / 10) + 1). set (ys := (e - 1) * 3 / 10).
  assert (Y0 : 0 <= ys) by (unfold ys; apply Z.div_pos; lia).
  destruct (shortest_loop_ok s k e ys NK ltac:(lia) Y0) with (n := 60%nat) (y := y0) as (d & y & L & Hy & Hd & R).
  { destruct (Z.eq_dec e 1) as [->|]; [right; reflexivity|left; apply pow_ten_two; lia]. }
  { unfold ys, y0. lia. } { unfold ys, y0. change (Z.of_nat 60) with 60. lia. }
  exists d, y. split; [lia|]. split; [lia|]. split; [|split; [exact R|]].
  - unfold show_f64. rewrite F. cbn [negb andb]. rewrite trunc_int.
    replace (Z.abs (if s then - int_of k e else int_of k e)) with (int_of k e) by (destruct s; lia).
    destruct (Z.ltb_spec (int_of k e) (2 ^ 53)) as [L'|_]; [change (2 ^ 53) with 9007199254740992 in L'; nia|].
    rewrite (normal_digits k NK). cbv zeta. fold y0. rewrite L. unfold plain_decimal. destruct (Z.leb_spec 0 y); [reflexivity|lia].
  - intros d' R'. apply shortest_loop_found in L; [|lia]. rewrite (shortest_form _ k e y k e s eq_refl) in L. cbv zeta in L.
    rewrite (Z.max_l e), (Z.max_r (- y)), (Z.max_r (- e)), (Z.max_l y) in L by lia.
    change (10 ^ 0) with 1 in L. change (2 ^ 0) with 1 in L. rewrite Z.mul_1_r, Z.mul_1_l in L. assert (PT : 0 < 10 ^ y) by (apply Z.pow_pos_nonneg; lia).
    assert (NZ : 10 ^ y <> 0) by lia.
    assert (R'' : is_datum (round_decimal false d' y) k e = true) by (rewrite R'; cbn; rewrite Pos.eqb_refl, Z.eqb_refl; reflexivity).
    apply (closer_candidates _ (10 ^ y) (Z.pos k * 2 ^ e / 10 ^ y) (Z.pos k * 2 ^ e mod 10 ^ y) d d' PT (Z.div_mod _ _ NZ) (Z.mod_pos_bound _ _ PT)).
    destruct (Z.leb_spec (2 * (Z.pos k * 2 ^ e mod 10 ^ y)) (10 ^ y)) as [C|C].
    + destruct (is_datum (round_decimal false (Z.pos k * 2 ^ e / 10 ^ y) y) k e) eqn:D1; [injection L as <-; left; auto|].
      destruct (is_datum (round_decimal false (Z.pos k * 2 ^ e / 10 ^ y + 1) y) k e) eqn:D2; [injection L as <-|discriminate].
      right. right. left. split; [exact C|]. split; [reflexivity|]. intros ->. congruence.
    + destruct (is_datum (round_decimal false (Z.pos k * 2 ^ e / 10 ^ y + 1) y) k e) eqn:D1; [injection L as <-; right; left; auto|].
      destruct (is_datum (round_decimal false (Z.pos k * 2 ^ e / 10 ^ y) y) k e) eqn:D2; [injection L as <-|discriminate].
      right. right. right. split; [exact C|]. split; [reflexivity|]. intros ->. congruence.
Qed.
Print Assumptions C55_text_closest.
(** 2^60 - 128 is printed as 1152921504606846800; with two zeros this is the only choice. *)
Example C55_text_closest_case :
  show_f64 (S754_finite false 9007199254740991 7) = decimal 1152921504606846800 /\ Z.pos 9007199254740991 * 2 ^ 7 = 1152921504606846848.
Proof. split; vm_compute; reflexivity. Qed.
