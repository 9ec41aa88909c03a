(** Proofs about character strings. *)
From Verif Require Import Base MHeader MEncode SHeader PArith PHeader PEncode MBer SBer PBer PIter
  MInt SInt PCodec PInt MSeg SSeg PSeg MText SText.

(** ** Generalities on encoded texts *)

Lemma text_units_app R s u s' u' : text_units R s u -> text_units R s' u' -> text_units R (s ++ s') (u ++ u').
Proof. induction 1; intros; [assumption|]. cbn. rewrite <- app_assoc. constructor; auto. Qed.

Lemma text_units_map (R : N -> list N -> Prop) f s : (forall c, In c s -> R c (f c)) -> text_units R s (flat_map f s).
Proof.
  induction s as [|c s IH]; intros H; [constructor|]. cbn. constructor; [apply H; left; reflexivity|].
  apply IH. intros x Hx. apply H. right. exact Hx.
Qed.

Lemma text_units_forall (R : N -> list N -> Prop) (Q : N -> Prop) s u :
  (forall c u, R c u -> Q c) -> text_units R s u -> Forall Q s.
Proof. intros H. induction 1; constructor; eauto. Qed.

(** ** UTF-8 *)

Lemma land_3f x : N.land x 0x3F = x mod 64.
Proof. change 0x3F with (N.ones 6). apply land_ones_mod. Qed.
Lemma land_0f x : N.land x 0x0F = x mod 16.
Proof. change 0x0F with (N.ones 4). apply land_ones_mod. Qed.
Lemma land_07 x : N.land x 0x07 = x mod 8.
Proof. change 0x07 with (N.ones 3). apply land_ones_mod. Qed.
Lemma shr6 x : N.shiftr x 6 = x / 64.
Proof. apply N.shiftr_div_pow2. Qed.
Lemma shr12 x : N.shiftr x 12 = x / 4096.
Proof. apply N.shiftr_div_pow2. Qed.
Lemma shr18 x : N.shiftr x 18 = x / 262144.
Proof. apply N.shiftr_div_pow2. Qed.

Lemma lor_80 x : N.lor (x mod 64) 0x80 = 0x80 + x mod 64.
Proof. rewrite N.lor_comm. change 0x80 with (2 * 2 ^ 6). apply lor_add. change (2 ^ 6) with 64. lia. Qed.
Lemma lor_c0 x : N.lor (x mod 32) 0xC0 = 0xC0 + x mod 32.
Proof. rewrite N.lor_comm. change 0xC0 with (6 * 2 ^ 5). apply lor_add. change (2 ^ 5) with 32. lia. Qed.
Lemma lor_e0 x : N.lor (x mod 16) 0xE0 = 0xE0 + x mod 16.
Proof. rewrite N.lor_comm. change 0xE0 with (14 * 2 ^ 4). apply lor_add. change (2 ^ 4) with 16. lia. Qed.
Lemma lor_f0 x : N.lor (x mod 8) 0xF0 = 0xF0 + x mod 8.
Proof. rewrite N.lor_comm. change 0xF0 with (30 * 2 ^ 3). apply lor_add. change (2 ^ 3) with 8. lia. Qed.

Lemma char_bytes_utf8 c : scalar c -> utf8_char c (char_bytes c).
Proof.
  intros Hc. unfold char_bytes. rewrite land_1f, land_0f, land_07, !land_3f, shr6, shr12, shr18, !lor_80, lor_c0, lor_e0, lor_f0.
  unfold scalar in Hc.
  destruct (N.ltb_spec c 0x80); [constructor; assumption|].
  destruct (N.ltb_spec c 0x800); [constructor; lia|].
  destruct (N.ltb_spec c 0x10000); [constructor; unfold scalar; lia|].
  constructor; lia.
Qed.

Lemma str_bytes_utf8 s : is_text s -> utf8 s (str_bytes s).
Proof. intros H. apply text_units_map. intros c Hc. apply char_bytes_utf8. unfold is_text in H. rewrite Forall_forall in H. auto. Qed.

Lemma utf8_char_scalar c b : utf8_char c b -> scalar c.
Proof. destruct 1; unfold scalar in *; lia. Qed.

Lemma utf8_char_ok c b : utf8_char c b -> bytes_ok b /\ (1 <= length b)%nat.
Proof. unfold bytes_ok. destruct 1; (split; [repeat constructor; lia|cbn; lia]). Qed.

Lemma utf8_ok s b : utf8 s b -> bytes_ok b /\ (length s <= length b)%nat.
Proof.
  induction 1 as [|c s u us H _ [IH1 IH2]]; [split; [constructor|reflexivity]|].
  apply utf8_char_ok in H as [H1 H2]. split; [apply bytes_ok_app; auto|]. rewrite app_length. cbn. lia.
Qed.

Lemma str_bytes_ok s : is_text s -> bytes_ok (str_bytes s).
Proof. intros H. apply str_bytes_utf8 in H. apply utf8_ok in H. tauto. Qed.

Ltac utf8_bool := unfold second_of_3, second_of_4, between, is_cont in *.

Lemma shl_lor a b k : b < 2 ^ k -> N.lor (N.shiftl a k) b = a * 2 ^ k + b.
Proof. apply lor_shiftl_add. Qed.

Lemma utf8_val2 b b2 : N.lor (N.shiftl (N.land b 0x1F) 6) (N.land b2 0x3F) = 64 * (b mod 32) + b2 mod 64.
Proof. rewrite land_1f, land_3f, shl_lor by (change (2 ^ 6) with 64; lia). change (2 ^ 6) with 64. lia. Qed.
Lemma utf8_val3 b b2 b3 :
  N.lor (N.shiftl (N.land b 0x0F) 12) (N.lor (N.shiftl (N.land b2 0x3F) 6) (N.land b3 0x3F))
  = 4096 * (b mod 16) + 64 * (b2 mod 64) + b3 mod 64.
Proof.
  rewrite land_0f, !land_3f, (shl_lor (b2 mod 64)) by (change (2 ^ 6) with 64; lia). change (2 ^ 6) with 64.
  rewrite shl_lor by (change (2 ^ 12) with 4096; lia). change (2 ^ 12) with 4096. lia.
Qed.
Lemma utf8_val4 b b2 b3 b4 :
  N.lor (N.shiftl (N.land b 0x07) 18)
    (N.lor (N.shiftl (N.land b2 0x3F) 12) (N.lor (N.shiftl (N.land b3 0x3F) 6) (N.land b4 0x3F)))
  = 262144 * (b mod 8) + 4096 * (b2 mod 64) + 64 * (b3 mod 64) + b4 mod 64.
Proof.
  rewrite land_07, !land_3f, (shl_lor (b3 mod 64)) by (change (2 ^ 6) with 64; lia). change (2 ^ 6) with 64.
  rewrite (shl_lor (b2 mod 64)) by (change (2 ^ 12) with 4096; lia). change (2 ^ 12) with 4096.
  rewrite shl_lor by (change (2 ^ 18) with 262144; lia). change (2 ^ 18) with 262144. lia.
Qed.

Definition consopt (c : N) (o : option (list N)) : option (list N) :=
  match o with Some s => Some (c :: s) | None => None end.

Lemma from_utf8_step f bs :
  from_utf8_loop (S f) bs =
      match bs with
      | [] => Some []
      | b :: r =>
          if b <? 0x80 then consopt b (from_utf8_loop f r)
          else if between 0xC2 0xDF b then
            match r with
            | b2 :: r2 => if is_cont b2 then consopt (64 * (b mod 32) + b2 mod 64) (from_utf8_loop f r2) else None
            | _ => None
            end
          else if between 0xE0 0xEF b then
            match r with
            | b2 :: b3 :: r3 =>
                if second_of_3 b b2 && is_cont b3 then
                  consopt (4096 * (b mod 16) + 64 * (b2 mod 64) + b3 mod 64) (from_utf8_loop f r3)
                else None
            | _ => None
            end
          else if between 0xF0 0xF4 b then
            match r with
            | b2 :: b3 :: b4 :: r4 =>
                if second_of_4 b b2 && is_cont b3 && is_cont b4 then
                  consopt (262144 * (b mod 8) + 4096 * (b2 mod 64) + 64 * (b3 mod 64) + b4 mod 64) (from_utf8_loop f r4)
                else None
            | _ => None
            end
          else None
      end.
Proof.
  cbn [from_utf8_loop]. destruct bs as [|b r]; [reflexivity|]. destruct (b <? 0x80); [reflexivity|].
  destruct (between 0xC2 0xDF b). { destruct r; [reflexivity|]. rewrite utf8_val2. reflexivity. }
  destruct (between 0xE0 0xEF b). { destruct r as [|? [|? ?]]; [reflexivity|reflexivity|]. rewrite utf8_val3. reflexivity. }
  destruct (between 0xF0 0xF4 b); [|reflexivity].
  destruct r as [|? [|? [|? ?]]]; [reflexivity|reflexivity|reflexivity|]. rewrite utf8_val4. reflexivity.
Qed.

Lemma leb_true a b : a <= b -> (a <=? b) = true. Proof. apply N.leb_le. Qed.
Lemma leb_false a b : b < a -> (a <=? b) = false. Proof. apply N.leb_gt. Qed.

Lemma from_utf8_char c b f r : utf8_char c b -> from_utf8_loop (S f) (b ++ r) = consopt c (from_utf8_loop f r).
Proof.
  intros H. rewrite from_utf8_step. destruct H as [c H|c x y Hx Hy E Hc|c x y z Hx Hy Hz E Hc Hs|c w x y z Hw Hx Hy Hz E Hc Hc2]; cbn [app].
  - destruct (N.ltb_spec c 0x80); [reflexivity|lia].
  - destruct (N.ltb_spec (0xC0 + x) 0x80); [lia|].
    replace (between 0xC2 0xDF (0xC0 + x)) with true by (unfold between; symmetry; apply andb_true_intro; split; apply leb_true; lia).
    replace (is_cont (0x80 + y)) with true by (unfold is_cont; symmetry; apply andb_true_intro; split; apply leb_true; lia).
    f_equal. lia.
  - destruct (N.ltb_spec (0xE0 + x) 0x80); [lia|].
    replace (between 0xC2 0xDF (0xE0 + x)) with false by (unfold between; rewrite (leb_false (0xE0 + x) 0xDF) by lia; rewrite andb_false_r; reflexivity).
    replace (between 0xE0 0xEF (0xE0 + x)) with true by (unfold between; symmetry; apply andb_true_intro; split; apply leb_true; lia).
    replace (second_of_3 (0xE0 + x) (0x80 + y) && is_cont (0x80 + z)) with true.
    + f_equal. lia.
    + symmetry. unfold scalar in Hs. apply andb_true_intro. split; [|unfold is_cont; apply andb_true_intro; split; apply leb_true; lia].
      unfold second_of_3, between, is_cont. lia.
  - destruct (N.ltb_spec (0xF0 + w) 0x80); [lia|].
    replace (between 0xC2 0xDF (0xF0 + w)) with false by (unfold between; rewrite (leb_false (0xF0 + w) 0xDF) by lia; rewrite andb_false_r; reflexivity).
    replace (between 0xE0 0xEF (0xF0 + w)) with false by (unfold between; rewrite (leb_false (0xF0 + w) 0xEF) by lia; rewrite andb_false_r; reflexivity).
    replace (between 0xF0 0xF4 (0xF0 + w)) with true by (unfold between; symmetry; apply andb_true_intro; split; apply leb_true; lia).
    replace (second_of_4 (0xF0 + w) (0x80 + x) && is_cont (0x80 + y) && is_cont (0x80 + z)) with true.
    + f_equal. lia.
    + symmetry. unfold second_of_4, between, is_cont. lia.
Qed.

Lemma consopt_some c o s : consopt c o = Some s <-> exists s', o = Some s' /\ s = c :: s'.
Proof.
  destruct o; cbn; split; try discriminate.
  - intros E. injection E as <-. eauto.
  - intros (s' & E & ->). injection E as ->. reflexivity.
  - intros (s' & E & _). discriminate.
Qed.

Lemma from_utf8_sound f : forall bs s, from_utf8_loop f bs = Some s -> utf8 s bs.
Proof.
  induction f as [|f IH]; intros bs s E; [discriminate|]. rewrite from_utf8_step in E.
  destruct bs as [|b r]; [injection E as <-; constructor|].
  destruct (N.ltb_spec b 0x80).
  { apply consopt_some in E as (s' & E & ->). change (b :: r) with ([b] ++ r). constructor; [constructor; assumption|apply IH; exact E]. }
  destruct (between 0xC2 0xDF b) eqn:B2.
  { destruct r as [|b2 r]; [discriminate|]. destruct (is_cont b2) eqn:C2; [|discriminate].
    apply consopt_some in E as (s' & E & ->). change (b :: b2 :: r) with ([b; b2] ++ r).
    constructor; [|apply IH; exact E]. unfold between, is_cont in *.
    replace b with (0xC0 + b mod 32) at 2 by lia. replace b2 with (0x80 + b2 mod 64) at 2 by lia. constructor; lia. }
  destruct (between 0xE0 0xEF b) eqn:B3.
  { destruct r as [|b2 [|b3 r]]; [discriminate|discriminate|]. destruct (second_of_3 b b2 && is_cont b3) eqn:C; [|discriminate].
    apply consopt_some in E as (s' & E & ->). change (b :: b2 :: b3 :: r) with ([b; b2; b3] ++ r).
    constructor; [|apply IH; exact E]. unfold second_of_3, between, is_cont in *.
    replace b with (0xE0 + b mod 16) at 2 by lia. replace b2 with (0x80 + b2 mod 64) at 2 by lia.
    replace b3 with (0x80 + b3 mod 64) at 2 by lia. constructor; unfold scalar; lia. }
  destruct (between 0xF0 0xF4 b) eqn:B4; [|discriminate].
  destruct r as [|b2 [|b3 [|b4 r]]]; [discriminate|discriminate|discriminate|].
  destruct (second_of_4 b b2 && is_cont b3 && is_cont b4) eqn:C; [|discriminate].
  apply consopt_some in E as (s' & E & ->). change (b :: b2 :: b3 :: b4 :: r) with ([b; b2; b3; b4] ++ r).
  constructor; [|apply IH; exact E]. unfold second_of_4, between, is_cont in *.
  replace b with (0xF0 + b mod 8) at 2 by lia. replace b2 with (0x80 + b2 mod 64) at 2 by lia.
  replace b3 with (0x80 + b3 mod 64) at 2 by lia. replace b4 with (0x80 + b4 mod 64) at 2 by lia. constructor; lia.
Qed.

Lemma from_utf8_complete s bs : utf8 s bs -> forall f, (length s < f)%nat -> from_utf8_loop f bs = Some s.
Proof.
  induction 1 as [|c s u us H _ IH]; intros f Hf; (destruct f as [|f]; [cbn in Hf; lia|]); [reflexivity|].
  rewrite (from_utf8_char c) by exact H. rewrite IH by (cbn in Hf; lia). reflexivity.
Qed.

Theorem from_utf8_iff bs s : from_utf8 bs = Some s <-> utf8 s bs.
Proof.
  split; [apply from_utf8_sound|]. intros H. apply from_utf8_complete; [exact H|]. apply utf8_ok in H. lia.
Qed.

Lemma from_str_bytes s : is_text s -> from_utf8 (str_bytes s) = Some s.
Proof. intros H. apply from_utf8_iff. apply str_bytes_utf8. exact H. Qed.

Lemma utf8_text s b : utf8 s b -> is_text s.
Proof. apply text_units_forall. apply utf8_char_scalar. Qed.

Lemma char_bytes_unique c b : utf8_char c b -> b = char_bytes c.
Proof.
  intros H. pose proof (char_bytes_utf8 c (utf8_char_scalar _ _ H)) as H'.
  destruct H; inversion H'; subst; try lia; repeat (f_equal; try lia).
Qed.

Lemma utf8_str_bytes s b : utf8 s b <-> is_text s /\ b = str_bytes s.
Proof.
  split.
  - intros H. split; [eapply utf8_text; exact H|]. induction H as [|c s u us Hc _ IH]; [reflexivity|].
    cbn. rewrite (char_bytes_unique _ _ Hc), IH. reflexivity.
  - intros [H ->]. apply str_bytes_utf8. exact H.
Qed.

Lemma ascii_utf8 s : Forall (fun b => b < 128) s -> utf8 s s.
Proof. induction 1 as [|b s Hb _ IH]; [constructor|]. change (b :: s) with ([b] ++ s) at 2. constructor; [constructor; exact Hb|exact IH]. Qed.

Lemma ascii_str_bytes s : Forall (fun b => b < 128) s -> str_bytes s = s.
Proof. intros H. apply ascii_utf8 in H. apply utf8_str_bytes in H as [_ H]. symmetry. exact H. Qed.

Lemma ascii_from_utf8 s : Forall (fun b => b < 128) s -> from_utf8 s = Some s.
Proof. intros H. apply from_utf8_iff. apply ascii_utf8. exact H. Qed.

(** ** UTF-16 *)

Lemma surrogate_test u : u < 65536 -> (N.land u 0xF800 =? 0xD800) = (0xD800 <=? u) && (u <? 0xE000).
Proof.
  intros H. assert (E : N.land u 0xF800 = 2048 * (u / 2048)).
  { change 0xF800 with (N.shiftl (N.ones 5) 11).
    apply N.bits_inj. intros n. rewrite N.land_spec, N.mul_comm. change 2048 with (2 ^ 11).
    rewrite <- N.shiftr_div_pow2, <- N.shiftl_mul_pow2.
    destruct (N.lt_ge_cases n 11) as [L|L].
    - rewrite !N.shiftl_spec_low by exact L. apply andb_false_r.
    - rewrite !N.shiftl_spec_high' by exact L. rewrite N.shiftr_spec', N.sub_add by exact L.
      destruct (N.lt_ge_cases (n - 11) 5) as [L'|L'].
      + rewrite N.ones_spec_low by exact L'. apply andb_true_r.
      + rewrite N.ones_spec_high by exact L'. rewrite andb_false_r. symmetry.
        destruct (N.eq_dec u 0) as [->|Hu]; [apply N.bits_0|]. apply N.bits_above_log2.
        apply N.log2_lt_pow2; [lia|]. eapply N.lt_le_trans; [exact H|]. change 65536 with (2 ^ 16). apply N.pow_le_mono_r; lia. }
  rewrite E. destruct (N.eqb_spec (2048 * (u / 2048)) 0xD800), (N.leb_spec 0xD800 u), (N.ltb_spec u 0xE000); cbn; try reflexivity; lia.
Qed.

Lemma bmp_unit a b : b < 256 -> N.lor (N.shiftl a 8) b = 256 * a + b.
Proof. intros H. rewrite shl_lor by exact H. change (2 ^ 8) with 256. lia. Qed.

Lemma land_3ff x : N.land x 0x3FF = x mod 1024.
Proof. change 0x3FF with (N.ones 10). apply land_ones_mod. Qed.

Lemma utf16_val u u2 : N.lor (N.shiftl (N.land u 0x3FF) 10) (N.land u2 0x3FF) + 0x10000 = 0x10000 + 1024 * (u mod 1024) + u2 mod 1024.
Proof. rewrite !land_3ff, shl_lor by (change (2 ^ 10) with 1024; lia). change (2 ^ 10) with 1024. lia. Qed.

Definition appopt (s : list N) (o : option (list N)) : option (list N) :=
  match o with Some r => Some (s ++ r) | None => None end.

Lemma from_utf16_cons u r :
  from_utf16 (u :: r) =
      if negb (N.land u 0xF800 =? 0xD800) then consopt u (from_utf16 r)
      else if 0xDC00 <=? u then None
      else match r with
           | [] => None
           | u2 :: r2 =>
               if (u2 <? 0xDC00) || (0xDFFF <? u2) then None
               else consopt (0x10000 + 1024 * (u mod 1024) + u2 mod 1024) (from_utf16 r2)
           end.
Proof. cbn [from_utf16]. destruct (negb _); [reflexivity|]. destruct (0xDC00 <=? u); [reflexivity|]. destruct r; [reflexivity|]. rewrite utf16_val. reflexivity. Qed.

Lemma utf16_char_ok c b : utf16_char c b -> bytes_ok b /\ scalar c.
Proof. unfold bytes_ok, scalar. destruct 1; (split; [repeat constructor; lia|unfold scalar in *; lia]). Qed.

Lemma from_utf16_complete s d t :
  utf16be s d -> from_utf16 (bmp_units (d ++ t)) = appopt s (from_utf16 (bmp_units t)).
Proof.
  induction 1 as [|c s u us H _ IH].
  - cbn. destruct (from_utf16 (bmp_units t)); reflexivity.
  - rewrite <- app_assoc. destruct H as [c x y Hx Hy E Hs|c hi lo x1 y1 x2 y2 Hhi Hlo E H1 H2 E1 E2]; cbn [app bmp_units].
    + rewrite from_utf16_cons, bmp_unit by exact Hy. rewrite surrogate_test by lia. unfold scalar in Hs.
      destruct ((0xD800 <=? 256 * x + y) && (256 * x + y <? 0xE000)) eqn:B; [lia|]. cbn [negb]. rewrite IH.
      destruct (from_utf16 (bmp_units t)); cbn; [|reflexivity]. rewrite E. reflexivity.
    + rewrite from_utf16_cons, !bmp_unit by assumption. rewrite surrogate_test by lia.
      destruct ((0xD800 <=? 256 * x1 + y1) && (256 * x1 + y1 <? 0xE000)) eqn:B; [|lia]. cbn [negb].
      destruct (N.leb_spec 0xDC00 (256 * x1 + y1)); [lia|].
      destruct ((256 * x2 + y2 <? 0xDC00) || (0xDFFF <? 256 * x2 + y2)) eqn:B2; [lia|].
      rewrite IH. destruct (from_utf16 (bmp_units t)); cbn; [|reflexivity]. f_equal. f_equal. lia.
Qed.

(** What [from_utf16] accepts: UTF-16, then possibly one odd byte taken for a character. *)
Definition bmp_read (d : bytes) (s : list N) : Prop :=
  utf16be s d \/ utf16be_odd s d.

Lemma bmp_read_cons c u d s : utf16_char c u -> bmp_read d s -> bmp_read (u ++ d) (c :: s).
Proof.
  intros H [K|(s' & d' & a & -> & -> & K)].
  - left. constructor; assumption.
  - right. exists (c :: s'), (u ++ d'), a. split; [reflexivity|]. split; [apply app_assoc|]. constructor; assumption.
Qed.

Lemma from_utf16_sound n : forall d s, (length d <= n)%nat -> bytes_ok d -> from_utf16 (bmp_units d) = Some s -> bmp_read d s.
Proof.
  induction n as [|n IH]; intros d s Hn Hd E.
  - destruct d; [|cbn in Hn; lia]. injection E as <-. left. constructor.
  - destruct d as [|a [|b r]].
    + injection E as <-. left. constructor.
    + apply bytes_ok_cons in Hd as [Ha _]. cbn [bmp_units] in E. rewrite from_utf16_cons, surrogate_test in E by lia.
      destruct ((0xD800 <=? a) && (a <? 0xE000)) eqn:B; [lia|]. cbn in E. injection E as <-.
      right. exists [], [], a. split; [reflexivity|]. split; [reflexivity|]. constructor.
    + apply bytes_ok_cons in Hd as [Ha Hd]. apply bytes_ok_cons in Hd as [Hb Hr]. cbn [length] in Hn.
      cbn [bmp_units] in E. rewrite from_utf16_cons, bmp_unit in E by exact Hb. rewrite surrogate_test in E by lia.
      destruct ((0xD800 <=? 256 * a + b) && (256 * a + b <? 0xE000)) eqn:B; cbn [negb] in E.
      * destruct (N.leb_spec 0xDC00 (256 * a + b)); [discriminate|].
        destruct r as [|c [|e r]]; [discriminate| |].
        { cbn [bmp_units] in E. apply bytes_ok_cons in Hr as [Hc _]. destruct (N.ltb_spec c 0xDC00); [discriminate|lia]. }
        cbn [bmp_units] in E. apply bytes_ok_cons in Hr as [Hc Hr]. apply bytes_ok_cons in Hr as [He Hr].
        rewrite bmp_unit in E by exact He.
        destruct ((256 * c + e <? 0xDC00) || (0xDFFF <? 256 * c + e)) eqn:B2; [discriminate|].
        apply consopt_some in E as (s' & E & ->). change (a :: b :: c :: e :: r) with ([a; b; c; e] ++ r).
        apply bmp_read_cons; [|apply IH; [cbn [length] in Hn; lia|exact Hr|exact E]].
        apply (utf16_2 _ ((256 * a + b) mod 1024) ((256 * c + e) mod 1024)); lia.
      * apply consopt_some in E as (s' & E & ->). change (a :: b :: r) with ([a; b] ++ r).
        apply bmp_read_cons; [|apply IH; [lia|exact Hr|exact E]]. constructor; unfold scalar; lia.
Qed.

Theorem from_utf16_iff d s : bytes_ok d -> (from_utf16 (bmp_units d) = Some s <-> bmp_read d s).
Proof.
  intros Hd. split; [apply (from_utf16_sound (length d)); auto|]. intros [H|(s' & d' & a & -> & -> & H)].
  - rewrite <- (app_nil_r d). rewrite (from_utf16_complete s) by exact H. cbn. rewrite app_nil_r. reflexivity.
  - rewrite (from_utf16_complete s') by exact H. apply bytes_ok_app in Hd as [_ Hd]. apply bytes_ok_cons in Hd as [Ha _].
    cbn [bmp_units]. rewrite from_utf16_cons, surrogate_test by lia.
    destruct ((0xD800 <=? a) && (a <? 0xE000)) eqn:B; [lia|]. reflexivity.
Qed.

Lemma bmp_bytes_utf16 s : is_text s -> utf16be s (bmp_bytes s).
Proof.
  intros H. assert (E : bmp_bytes s = flat_map (fun c => flat_map (fun u => [N.shiftr u 8; N.land u 0xff]) (char_utf16 c)) s).
  { unfold bmp_bytes, encode_utf16. clear H. induction s as [|c s IH]; [reflexivity|]. cbn. rewrite flat_map_app, IH. reflexivity. }
  rewrite E. apply text_units_map. intros c Hc. unfold is_text in H. rewrite Forall_forall in H. specialize (H c Hc). unfold char_utf16.
  assert (S8 : forall u, N.shiftr u 8 = u / 256) by (intros; apply N.shiftr_div_pow2).
  assert (L8 : forall u, N.land u 0xff = u mod 256) by (intros; change 0xff with (N.ones 8); apply land_ones_mod).
  unfold scalar in H. destruct (N.ltb_spec c 0x10000).
  - cbn. rewrite S8, L8. constructor; unfold scalar; lia.
  - cbn zeta. cbn [flat_map app]. rewrite !S8, !L8, land_3ff. rewrite N.shiftr_div_pow2. change (2 ^ 10) with 1024.
    assert (A : N.lor 0xD800 ((c - 0x10000) / 1024) = 0xD800 + (c - 0x10000) / 1024).
    { change 0xD800 with (54 * 2 ^ 10). apply lor_add. change (2 ^ 10) with 1024. lia. }
    assert (B : N.lor 0xDC00 ((c - 0x10000) mod 1024) = 0xDC00 + (c - 0x10000) mod 1024).
    { change 0xDC00 with (55 * 2 ^ 10). apply lor_add. change (2 ^ 10) with 1024. lia. }
    rewrite A, B. apply (utf16_2 _ ((c - 0x10000) / 1024) ((c - 0x10000) mod 1024)); lia.
Qed.

Lemma utf16_ok s d : utf16be s d -> bytes_ok d.
Proof.
  induction 1 as [|c s u us H _ IH]; [constructor|]. apply bytes_ok_app. split; [|exact IH]. apply utf16_char_ok in H. tauto.
Qed.

Lemma bmp_bytes_len s : blen (bmp_bytes s) = blen (encode_utf16 s) * 2.
Proof.
  unfold bmp_bytes. induction (encode_utf16 s) as [|u us IH]; [reflexivity|].
  cbn [flat_map app]. rewrite !blen_cons, IH. lia.
Qed.

(** ** UCS-4 *)

Lemma char_from_u32_iff c x : char_from_u32 c = Some x <-> x = c /\ scalar c.
Proof.
  unfold char_from_u32, between, scalar. destruct ((0xD800 <=? c) && (c <=? 0xDFFF) || (0x110000 <=? c)) eqn:E.
  - split; [discriminate|]. intros [_ H]. lia.
  - split; [intros H; injection H as <-; split; [reflexivity|lia]|intros [-> _]; reflexivity].
Qed.

Lemma word_value a b c d : bytes_ok [a; b; c; d] ->
  N.lor (N.lor (N.lor (N.shiftl a 24) (N.shiftl b 16)) (N.shiftl c 8)) d = value_be 256 [a; b; c; d].
Proof.
  intros H. apply bytes_ok_cons in H as [Ha H]. apply bytes_ok_cons in H as [Hb H]. apply bytes_ok_cons in H as [Hc H].
  apply bytes_ok_cons in H as [Hd _]. rewrite !N.shiftl_mul_pow2.
  replace (a * 2 ^ 24) with ((a * 2 ^ 8) * 2 ^ 16) by lia.
  assert (E1 : N.lor (a * 2 ^ 8 * 2 ^ 16) (b * 2 ^ 16) = (a * 2 ^ 8 + b) * 2 ^ 16).
  { rewrite <- !N.shiftl_mul_pow2, <- N.shiftl_lor. f_equal. rewrite N.shiftl_mul_pow2. apply lor_add. exact Hb. }
  rewrite E1. replace ((a * 2 ^ 8 + b) * 2 ^ 16) with (((a * 2 ^ 8 + b) * 2 ^ 8) * 2 ^ 8) by lia.
  assert (E2 : N.lor ((a * 2 ^ 8 + b) * 2 ^ 8 * 2 ^ 8) (c * 2 ^ 8) = ((a * 2 ^ 8 + b) * 2 ^ 8 + c) * 2 ^ 8).
  { rewrite <- (N.shiftl_mul_pow2 _ 8), <- (N.shiftl_mul_pow2 c 8), <- N.shiftl_lor, N.shiftl_mul_pow2. f_equal. apply lor_add. exact Hc. }
  rewrite E2, lor_add by exact Hd. unfold value_be. cbn [fold_left]. change (2 ^ 8) with 256. lia.
Qed.

Theorem universal_chars_iff d s : bytes_ok d -> (universal_chars d = Some s <-> ucs4be s d).
Proof.
  intros Hd. split.
  - assert (G : forall n d s, (length d <= n)%nat -> bytes_ok d -> universal_chars d = Some s -> ucs4be s d).
    { clear. induction n as [|n IH]; intros d s Hn Hd E.
      - destruct d; [|cbn in Hn; lia]. injection E as <-. constructor.
      - destruct d as [|a [|b [|c [|e r]]]]; try discriminate; [injection E as <-; constructor|]. cbn [universal_chars] in E.
        change (a :: b :: c :: e :: r) with ([a; b; c; e] ++ r) in *. apply bytes_ok_app in Hd as [H4 Hr].
        rewrite word_value in E by exact H4. destruct (char_from_u32 _) as [x|] eqn:Ec; [|discriminate].
        destruct (universal_chars r) as [s'|] eqn:Er; [|discriminate]. injection E as <-.
        apply char_from_u32_iff in Ec as [-> Hs]. constructor; [|apply IH; [rewrite app_length in Hn; cbn [length] in Hn; lia|exact Hr|exact Er]].
        split; [reflexivity|]. split; [exact H4|]. split; [reflexivity|exact Hs]. }
    intros E. apply (G (length d)); auto.
  - intros H. induction H as [|c s u us (Hl & Hu & Hv & Hs) _ IH]; [reflexivity|].
    apply bytes_ok_app in Hd as [_ Hd]. specialize (IH Hd).
    destruct u as [|a [|b [|e [|f [|]]]]]; try discriminate. cbn [app universal_chars]. rewrite word_value by exact Hu.
    rewrite Hv. rewrite (proj2 (char_from_u32_iff c c)) by auto. rewrite IH. reflexivity.
Qed.

Lemma ucs4_len s d : ucs4be s d -> blen d = 4 * blen s.
Proof.
  induction 1 as [|c s u us (Hl & _) _ IH]; [reflexivity|]. rewrite blen_app, blen_cons, IH. unfold blen at 1. rewrite Hl. lia.
Qed.

Lemma universal_bytes_ucs4 s : is_text s -> ucs4be s (universal_bytes s).
Proof.
  intros H. apply text_units_map. intros c Hc. unfold is_text in H. rewrite Forall_forall in H. specialize (H c Hc).
  unfold be32. rewrite !N.shiftr_div_pow2. change (2 ^ 24) with 16777216. change (2 ^ 16) with 65536. change (2 ^ 8) with 256.
  split; [reflexivity|]. split; [repeat (apply bytes_ok_cons; split; [lia|]); constructor|]. split; [|exact H].
  unfold value_be. cbn [fold_left]. unfold scalar in H. lia.
Qed.

Lemma ucs4_ok s d : ucs4be s d -> bytes_ok d.
Proof. induction 1 as [|c s u us (_ & H & _) _ IH]; [constructor|]. apply bytes_ok_app. auto. Qed.

Lemma char_bytes_len c : 1 <= blen (char_bytes c) /\ (c < 128 <-> blen (char_bytes c) = 1).
Proof.
  unfold char_bytes. destruct (N.ltb_spec c 0x80); [|destruct (N.ltb_spec c 0x800); [|destruct (N.ltb_spec c 0x10000)]];
    rewrite ?blen_cons, blen_nil; lia.
Qed.

Lemma str_bytes_len s : blen s <= blen (str_bytes s) /\ (Forall (fun c => c < 128) s <-> blen (str_bytes s) = blen s).
Proof.
  induction s as [|c s [IH1 IH2]]; [split; [apply N.le_refl|split; [reflexivity|constructor]]|].
  change (str_bytes (c :: s)) with (char_bytes c ++ str_bytes s). rewrite blen_app, blen_cons. destruct (char_bytes_len c) as [H1 H2]. split; [lia|]. split.
  - intros F. inversion F; subst. apply H2 in H3. apply IH2 in H4. lia.
  - intros E. constructor; [apply H2; lia|apply IH2; lia].
Qed.

(** ** Alphabets *)

Lemma numeric_alphabet_iff b : b < 256 -> (is_numeric b = true <-> In b numeric_alphabet).
Proof.
  intros H. assert (K : Bool.eqb (is_numeric b) (existsb (N.eqb b) numeric_alphabet) = true)
    by (apply (byte_forall (fun b => Bool.eqb (is_numeric b) (existsb (N.eqb b) numeric_alphabet))); [vm_compute; reflexivity|exact H]).
  apply eqb_prop in K. rewrite K, existsb_exists. split.
  - intros (x & Hx & E). apply N.eqb_eq in E. subst. exact Hx.
  - intros Hb. exists b. split; [exact Hb|apply N.eqb_refl].
Qed.

Lemma printable_alphabet_iff b : b < 256 -> (is_printable b = true <-> In b printable_alphabet).
Proof.
  intros H. assert (K : Bool.eqb (is_printable b) (existsb (N.eqb b) printable_alphabet) = true)
    by (apply (byte_forall (fun b => Bool.eqb (is_printable b) (existsb (N.eqb b) printable_alphabet))); [vm_compute; reflexivity|exact H]).
  apply eqb_prop in K. rewrite K, existsb_exists. split.
  - intros (x & Hx & E). apply N.eqb_eq in E. subst. exact Hx.
  - intros Hb. exists b. split; [exact Hb|apply N.eqb_refl].
Qed.
