(** Exact conditions where the properties C44 and C52 hold only in part. *)
From Verif Require Import Base MHeader MEncode SHeader PArith PHeader PEncode MBer SBer PBer PIter
  MInt SInt PCodec PInt PropInt MTime STime PTime PropTime.

(** ** C44: which contents the BER parsers of the fixed-width types accept *)

Theorem C44_exact (w : nat) (c : class) (content i rem : bytes) (p : bytes -> res (bytes * Z)) :
  (1 <= w)%nat -> bytes_ok i -> starts_with_object c false 2 content i rem ->
  (In p [parse_ber (uint_codec w); from_ber (uint_codec w)] ->
     (forall r v, p i = Ok (r, v) -> r = rem /\ v = twos content) /\ ((exists r, p i = Ok r) <-> in_unsigned w (twos content)))
  /\ (In p [parse_ber (int_codec w); from_ber (int_codec w)] ->
     (forall r v, p i = Ok (r, v) -> r = rem /\ v = twos content)
     /\ ((exists r, p i = Ok r) <-> in_signed w (twos content) /\ ((0 <= twos content)%Z \/ (length content <= w)%nat))).
Proof.
  intros Hw Hi S.
  assert (U : forall q (P : bytes -> Z -> Prop), (forall r v, q i = Ok (r, v) <-> exists c' content', starts_with_object c' false 2 content' i r /\ v = twos content' /\ P content' v) ->
     (forall r v, q i = Ok (r, v) -> r = rem /\ v = twos content) /\ ((exists r, q i = Ok r) <-> P content (twos content))).
  { intros q P H. assert (D : forall r v, q i = Ok (r, v) -> r = rem /\ v = twos content /\ P content v).
    { intros r v E. apply H in E as (c' & content' & S' & -> & HP). destruct (object_det _ _ _ _ _ _ _ _ _ _ _ Hi S S') as (_ & _ & _ & <- & <-). auto. }
    split; [intros r v E; apply D in E; tauto|]. split.
    - intros [[r v] E]. apply D in E as (_ & -> & HP). exact HP.
    - intros HP. exists (rem, twos content). apply H. exists c, content. auto. }
  split; intros Hp.
  - apply (U p (fun _ v => in_unsigned w v)). intros r v. destruct (C16_ber_integer w i r v Hw Hi) as (_ & _ & A3 & A4).
    cbn [In] in Hp. destruct Hp as [<-|[<-|[]]]; assumption.
  - destruct (U p (fun content v => in_signed w v /\ ((v < 0)%Z -> (length content <= w)%nat))) as [U1 U2].
    { intros r v. destruct (C16_ber_integer w i r v Hw Hi) as (A1 & A2 & _ & _). cbn [In] in Hp. destruct Hp as [<-|[<-|[]]]; assumption. }
    split; [exact U1|]. rewrite U2. split; intros [H1 H2]; (split; [exact H1|]); lia.
Qed.
Print Assumptions C44_exact.

(** -2 in two octets is an [i16] and not an [i8]. *)
Example C44_exact_case : from_ber (int_codec 2) [2; 2; 0xff; 0xfe] = Ok ([], (-2)%Z) /\ from_ber (int_codec 1) [2; 2; 0xff; 0xfe] = Err EIntegerTooLarge
  /\ from_ber (uint_codec 1) [2; 3; 0; 0; 0xfe] = Ok ([], 254%Z) /\ in_signed 1 (twos [0xff; 0xfe]).
Proof. repeat split; vm_compute; try reflexivity; discriminate. Qed.

(** ** C52: which written GeneralizedTimes are canonical *)

Lemma same_fraction w w' s : gen_text_of w s -> gen_text_of w' s -> w_second w <> None -> w_second w' <> None -> w_zone w = Utc -> w_zone w' = Utc ->
  exists f, frac_text (w_fraction w) f /\ frac_text (w_fraction w') f.
Proof.
  intros (y & mo & d & h & mi & sec & fr & z & Fy & Fmo & Fd & Fh & Fmi & Fs & Ff & Fz & E)
    (y' & mo' & d' & h' & mi' & sec' & fr' & z' & Fy' & Fmo' & Fd' & Fh' & Fmi' & Fs' & Ff' & Fz' & E') Nn Nn' Z Z'.
  rewrite Z in Fz. rewrite Z' in Fz'. cbn in Fz, Fz'. subst z z'.
  assert (L : forall x t, x <> None -> second_text x t -> length t = 2%nat) by (intros [x|] t H Ht; [eapply fixed_length; exact Ht|congruence]).
  apply (L _ _ Nn) in Fs. apply (L _ _ Nn') in Fs'. apply fixed_length in Fy, Fmo, Fd, Fh, Fmi, Fy', Fmo', Fd', Fh', Fmi'.
  exists fr. split; [exact Ff|]. replace fr with fr'; [exact Ff'|]. rewrite E in E'.
  assert (P : forall (a b t : list N), length a = length b -> forall t', a ++ t = b ++ t' -> t = t').
  { intros a. induction a as [|u a IH]; intros [|v b] t Hl t' Ht; try discriminate; [exact Ht|]. injection Hl as Hl. injection Ht as _ Ht. eapply IH; eassumption. }
  do 6 (apply P in E'; [|congruence]). apply app_inj_tail in E' as [E' _]. symmetry. exact E'.
Qed.

(** A time is written canonically exactly when it has no milliseconds or a number of them which is no multiple of 10. *)
Theorem C52_gen_written_exact (t : datetime) :
  dt_year t < 10000 -> value_ranges t -> (forall v, dt_millisecond t = Some v -> v < 2 ^ 32) ->
  exists enc content, to_vec (tober_gen t) = Ok enc /\ starts_with_object Universal false 24 content enc []
    /\ ((exists w, gen_canonical w content) <-> forall v, dt_millisecond t = Some v -> v mod 10 <> 0).
Proof.
  intros Hy Hr Hm. destruct (gen_written_object t Hy Hr Hm) as (enc & frac & E & Hok & T & M & N44 & S).
  specialize (S []). rewrite app_nil_r in S. exists enc, (gen_text t). split; [exact E|]. split; [exact S|]. split.
  - intros (w & T' & N' & Z' & _ & C) v Ev Hv.
    destruct (same_fraction _ _ _ T T') as (f & F1 & F2); [discriminate|exact N'|reflexivity|exact Z'|]. cbn [written_as w_fraction] in F1.
    rewrite Ev in M. destruct frac as [ds|]; [|destruct M]. destruct M as (Fd & V & _). cbn in F1. destruct F1 as (_ & c & _ & ->).
    destruct (w_fraction w) as [es|]; [|discriminate F2]. destruct F2 as (Fe & c' & _ & F2). injection F2 as _ F2.
    apply map48_inj in F2.
    subst es. destruct C as [_ C]. rewrite V, value_last in Hv. apply C.
    assert (last ds 0 < 10); [|rewrite N.mod_small in Hv; assumption]. clear - Fd. induction Fd as [|x l Hx Hl IH]; [reflexivity|].
    destruct l; [exact Hx|exact IH].
  - intros H. destruct (C52_gen_written_partial t Hy Hr) as (enc' & content & w & E' & S' & C); [intros v Ev; auto|].
    rewrite E in E'. injection E' as <-. destruct (object_det _ _ _ _ _ _ _ _ _ _ _ Hok S S') as (_ & _ & _ & <- & _). eauto.
Qed.
Print Assumptions C52_gen_written_exact.

(** 250 ms is written as ".250Z", 251 ms as ".251Z". *)
Example C52_gen_written_exact_case :
  dt_year (mk_datetime 2023 1 2 3 4 5 (Some 251) TzZ) < 10000 /\ value_ranges (mk_datetime 2023 1 2 3 4 5 (Some 251) TzZ)
  /\ to_vec (tober_gen (mk_datetime 2023 1 2 3 4 5 (Some 251) TzZ))
     = Ok ([24; 19] ++ map (fun d => 48 + d) [2; 0; 2; 3; 0; 1; 0; 2; 0; 3; 0; 4; 0; 5] ++ [46; 50; 53; 49; 90]).
Proof. split; [reflexivity|]. split; [|vm_compute; reflexivity]. repeat split; vm_compute; reflexivity || discriminate. Qed.
