(** C97: objects and headers built by hand or changed after reading. *)
From Verif Require Import Base MHeader MEncode SHeader PArith PHeader PEncode MBer SBer PBer
  MInt SInt PCodec PInt MCont PCont PIter PropTime MEdit.

(** ** Changes *)

Inductive change := SetClass (c : class) | SetForm (k : bool) | SetTag (t : N) | SetLength (l : blength).
Definition changed (h : header) (x : change) : header :=
  match x with
  | SetClass c => with_class h c
  | SetForm k => with_constructed h k
  | SetTag t => with_tag h t
  | SetLength l => with_length h l
  end.

(** The last value given to a field, or the value it had. *)
Inductive last_of {A} (pick : change -> option A) (old : A) : list change -> A -> Prop :=
| lo_none : last_of pick old [] old
| lo_set l x v : pick x = Some v -> last_of pick old (l ++ [x]) v
| lo_skip l x v : pick x = None -> last_of pick old l v -> last_of pick old (l ++ [x]) v.
Definition pick_class (x : change) := match x with SetClass c => Some c | _ => None end.
Definition pick_form (x : change) := match x with SetForm k => Some k | _ => None end.
Definition pick_tag (x : change) := match x with SetTag t => Some t | _ => None end.
Definition pick_length (x : change) := match x with SetLength l => Some l | _ => None end.

Lemma last_field {A} (f : header -> A) pick h xs v :
  (forall h x, f (changed h x) = match pick x with Some v => v | None => f h end) ->
  last_of pick (f h) xs v -> f (fold_left changed xs h) = v.
Proof.
  intros C L. induction L as [|l x v P|l x v P L IH]; [reflexivity| |]; rewrite fold_left_app; cbn [fold_left]; rewrite C, P; [reflexivity|exact IH].
Qed.

(** ** C97 *)

(** The form a universal tag gets by default. *)
Definition default_form (t : N) (k : bool) : Prop := k = true <-> t = 16 \/ t = 17.
Lemma default_form_ok t : default_form t ((t =? TagSequence) || (t =? TagSet)).
Proof. unfold default_form. rewrite orb_true_iff, !N.eqb_eq. reflexivity. Qed.
Lemma default_form_eq t k : default_form t k -> k = (t =? TagSequence) || (t =? TagSet).
Proof. intros H. apply eq_true_iff_eq. pose proof (default_form_ok t) as G. unfold default_form in *. tauto. Qed.

(** A header made from a tag and changed any number of times has, in each field, the last value given to it; it is written as
    these values and the header read back compares equal to it. *)
Theorem C97_header (t0 : N) (k0 : bool) (xs : list change) (c : class) (k : bool) (t : N) (l : blength) (rest : bytes) :
  default_form t0 k0 -> last_of pick_class Universal xs c -> last_of pick_form k0 xs k -> last_of pick_tag t0 xs t ->
  last_of pick_length (Definite 0) xs l ->
  let h := fold_left changed xs (header_new_simple t0) in
  h_class h = c /\ h_constructed h = k /\ h_tag h = t /\ h_length h = l
  /\ (t < 2 ^ 32 -> (forall n, l = Definite n -> n < 2 ^ 64) -> (l = Indefinite -> k = true) -> bytes_ok rest ->
      exists w h', to_vec (tober_header h) = Ok w /\ header_parse_ber (w ++ rest) = Ok (rest, h')
        /\ h_class h' = c /\ h_constructed h' = k /\ h_tag h' = t /\ h_length h' = l /\ header_eqb h h' = true).
Proof.
  intros F Lc Lk Lt Ll h. apply default_form_eq in F. subst k0.
  assert (Hc : h_class h = c) by (apply (last_field h_class pick_class); [intros ? []; reflexivity|exact Lc]).
  assert (Hk : h_constructed h = k) by (apply (last_field h_constructed pick_form); [intros ? []; reflexivity|exact Lk]).
  assert (Ht : h_tag h = t) by (apply (last_field h_tag pick_tag); [intros ? []; reflexivity|exact Lt]).
  assert (Hl : h_length h = l) by (apply (last_field h_length pick_length); [intros ? []; reflexivity|exact Ll]).
  do 4 (split; [assumption|]). intros Bt Bl Bk Hr.
  destruct (header_write_ok c k t l (conj Bt Bl)) as (idb & lenb & E & L & S1 & S2).
  pose proof (header_parse_write c k t l idb lenb rest (conj Bt Bl) Bk Hr L S1 S2) as P.
  exists (idb ++ lenb), (mk_header c k t l (Some idb) (Some (idb ++ lenb))).
  split. { unfold to_vec, encode. unfold write_header in *. cbn [tober_header tb_encoder tb_class tb_constructed tb_tag tb_content_len tb_write_content header_new h_class h_constructed h_tag h_length] in *.
    rewrite Hc, Hk, Ht, Hl, E. cbn [wseq bind]. rewrite app_nil_r. reflexivity. }
  split; [rewrite <- app_assoc; unfold header_parse_ber; rewrite P; reflexivity|]. do 4 (split; [reflexivity|]).
  assert (Hr0 : h_raw_tag h = None).
  { unfold h. assert (G : forall xs h0, h_raw_tag h0 = None -> h_raw_tag (fold_left changed xs h0) = None).
    { induction xs0 as [|x xs0 IH]; intros h0 H0; [exact H0|]. cbn [fold_left]. apply IH. destruct x; exact H0. }
    apply G. reflexivity. }
  unfold header_eqb. rewrite Hc, Hk, Ht, Hl, Hr0. cbn [h_class h_constructed h_tag h_length h_raw_tag xor_is_none].
  rewrite N.eqb_refl, Bool.eqb_reflx. destruct c; cbn; destruct l as [n|]; cbn; try reflexivity; destruct (n =? 0); cbn; try reflexivity; rewrite N.eqb_refl; reflexivity.
Qed.
Print Assumptions C97_header.

(** Changes of an object: class and tag. *)
Inductive object_change := ObjClass (c : class) | ObjTag (t : N).
Definition any_changed (a : any) (x : object_change) : any :=
  match x with ObjClass c => any_with_class a c | ObjTag t => any_with_tag a t end.
Definition as_change (x : object_change) : change := match x with ObjClass c => SetClass c | ObjTag t => SetTag t end.

Lemma any_changes xs : forall a, fold_left any_changed xs a = mk_any (fold_left changed (map as_change xs) (any_header a)) (any_data a).
Proof. induction xs as [|x xs IH]; intros [h d]; [reflexivity|]. cbn [fold_left map]. rewrite IH. destruct x; reflexivity. Qed.

Lemma form_kept xs : forall h, h_constructed (fold_left changed (map as_change xs) h) = h_constructed h.
Proof. induction xs as [|y xs IH]; intros h; [reflexivity|]. cbn [map fold_left]. rewrite IH. destruct y; reflexivity. Qed.
Lemma raw_kept xs : forall h, h_raw_tag (fold_left changed (map as_change xs) h) = h_raw_tag h.
Proof. induction xs as [|y xs IH]; intros h; [reflexivity|]. cbn [map fold_left]. rewrite IH. destruct y; reflexivity. Qed.
Lemma length_kept xs : forall h, h_length (fold_left changed (map as_change xs) h) = h_length h.
Proof. induction xs as [|y xs IH]; intros h; [reflexivity|]. cbn [map fold_left]. rewrite IH. destruct y; reflexivity. Qed.

(** An object, wherever it comes from, changed any number of times: it is written as the object with the class and the tag last
    given, its form and its contents, and this object is what every parser reads back. *)
Theorem C97_object (a : any) (xs : list object_change) (c : class) (t : N) (x : bytes) :
  last_of pick_class (h_class (any_header a)) (map as_change xs) c -> last_of pick_tag (h_tag (any_header a)) (map as_change xs) t ->
  t < 2 ^ 32 -> bytes_ok (any_data a) -> blen (any_data a) < 2 ^ 64 -> bytes_ok x ->
  let a' := fold_left any_changed xs a in let k := h_constructed (any_header a) in let d := any_data a in
  exists enc, to_vec (tober_any a') = Ok enc /\ object c k t d enc
    /\ forall p, In p [any_parse_ber; any_parse_der; from_ber any_codec; from_der any_codec] ->
         exists h', p (enc ++ x) = Ok (x, mk_any h' d) /\ h_class h' = c /\ h_constructed h' = k /\ h_tag h' = t
           /\ (h_raw_tag (any_header a) = None -> h_length (any_header a) = Definite (blen d) -> header_eqb (any_header a') h' = true).
Proof.
  intros Lc Lt Bt Hd Hn Hx a' k d. unfold a'. rewrite any_changes. set (h := fold_left changed (map as_change xs) (any_header a)).
  assert (Hc : h_class h = c) by (apply (last_field h_class pick_class); [intros ? []; reflexivity|exact Lc]).
  assert (Ht : h_tag h = t) by (apply (last_field h_tag pick_tag); [intros ? []; reflexivity|exact Lt]).
  assert (Hk : h_constructed h = k) by apply form_kept. fold d.
  assert (W : writes (tober_any (mk_any h d)) c k t d).
  { unfold writes. cbn. rewrite Hc, Hk, Ht. auto. }
  destruct (encode_writes _ c k t d W Bt Hn) as (idb & lenb & E & _ & S1 & S2 & HR). exists (idb ++ lenb ++ d).
  split; [unfold to_vec; rewrite E; reflexivity|].
  assert (O : object c k t d (idb ++ lenb ++ d)) by (exists idb, lenb; auto). split; [exact O|].
  assert (Ok1 : bytes_ok ((idb ++ lenb ++ d) ++ x)) by (apply bytes_ok_app; split; [eapply object_ok; eassumption|exact Hx]).
  destruct (object_parse_ber_any _ _ _ _ _ x O Bt Hd Hx) as (rt & rh & P1). destruct (object_parse_der_any _ _ _ _ _ x O Bt Hd Hx) as (rt' & rh' & P2).
  assert (C : forall rt rh, let h' := mk_header c k t (Definite (blen d)) rt rh in h_class h' = c /\ h_constructed h' = k /\ h_tag h' = t
    /\ (h_raw_tag (any_header a) = None -> h_length (any_header a) = Definite (blen d) -> (rt = None \/ exists b, rt = Some b) -> header_eqb h h' = true)).
  { intros rt0 rh0 h'. do 3 (split; [reflexivity|]). intros R0 L0 Rt. unfold header_eqb.
    assert (R1 : h_raw_tag h = None) by (unfold h; rewrite raw_kept; exact R0). assert (L1 : h_length h = Definite (blen d)) by (unfold h; rewrite length_kept; exact L0).
    rewrite Hc, Hk, Ht, L1, R1. cbn [h' h_class h_constructed h_tag h_length h_raw_tag]. rewrite N.eqb_refl, Bool.eqb_reflx.
    assert (B : blength_eqb (Definite (blen d)) (Definite (blen d)) = true) by (cbn; apply N.eqb_refl). rewrite B.
    replace (class_eqb c c) with true by (destruct c; reflexivity). cbn [andb]. destruct (is_null _); cbn [andb]; destruct Rt as [->|[b ->]]; reflexivity. }
  assert (D : forall rt : option bytes, rt = None \/ exists b, rt = Some b) by (intros [b|]; eauto).
  intros p [<-|[<-|[<-|[<-|[]]]]].
  - eexists. split; [rewrite any_parse_ber_eq by exact Ok1; exact P1|]. destruct (C rt rh) as (C1 & C2 & C3 & C4). auto.
  - eexists. split; [rewrite any_parse_der_eq by exact Ok1; exact P2|]. destruct (C rt' rh') as (C1 & C2 & C3 & C4). auto.
  - eexists. split; [unfold from_ber; rewrite P1; reflexivity|]. destruct (C rt rh) as (C1 & C2 & C3 & C4). auto.
  - eexists. split; [unfold from_der; rewrite P2; reflexivity|]. destruct (C rt' rh') as (C1 & C2 & C3 & C4). auto.
Qed.
Print Assumptions C97_object.

(** An object made from a tag and contents: universal, constructed exactly for SEQUENCE and SET, of definite length.  One made from a
    header and contents has these. *)
Theorem C97_built (t : N) (d : bytes) :
  let a := any_from_tag_and_data t d in
  (forall h, any_header (any_new h d) = h /\ any_data (any_new h d) = d)
  /\ h_class (any_header a) = Universal /\ default_form t (h_constructed (any_header a)) /\ h_tag (any_header a) = t
  /\ h_length (any_header a) = Definite (blen d) /\ h_raw_tag (any_header a) = None /\ any_data a = d.
Proof. cbv zeta. split; [split; reflexivity|]. split; [reflexivity|]. split; [apply default_form_ok|]. repeat split. Qed.
Print Assumptions C97_built.

(** The header of an object that was read and then changed keeps the octets of the tag it was read with, so what it is written as
    reads back as an object that does not compare equal to it. *)
Theorem C97_compare_refuted : exists i a enc a', any_parse_der i = Ok ([], a) /\ to_vec (tober_any (any_with_tag a 2)) = Ok enc
  /\ any_parse_der enc = Ok ([], a') /\ h_class (any_header a') = Universal /\ h_tag (any_header a') = 2 /\ any_data a' = any_data a
  /\ header_eqb (any_header (any_with_tag a 2)) (any_header a') = false.
Proof.
  exists [4; 1; 5], (mk_any (mk_header Universal false 4 (Definite 1) (Some [4]) (Some [4; 1])) [5]), [2; 1; 5],
    (mk_any (mk_header Universal false 2 (Definite 1) (Some [2]) (Some [2; 1])) [5]).
  repeat split; vm_compute; reflexivity.
Qed.
Print Assumptions C97_compare_refuted.

Example C97_case :
  let xs := [ObjClass Private; ObjTag 300; ObjClass ContextSpecific] in
  last_of pick_class Universal (map as_change xs) ContextSpecific /\ last_of pick_tag 16 (map as_change xs) 300
  /\ to_vec (tober_any (fold_left any_changed xs (any_from_tag_and_data 16 [5; 0]))) = Ok [191; 130; 44; 2; 5; 0]
  /\ default_form 16 true
  /\ fold_left changed [SetTag 3; SetLength Indefinite; SetForm true; SetTag 4] (header_new_simple 2) = header_new Universal true 4 Indefinite
  /\ to_vec (tober_header (header_new Universal true 4 Indefinite)) = Ok [36; 128].
Proof.
  cbv zeta. split; [apply (lo_set _ _ [SetClass Private; SetTag 300]); reflexivity|].
  split; [apply (lo_skip _ _ [SetClass Private; SetTag 300]); [reflexivity|]; apply (lo_set _ _ [SetClass Private]); reflexivity|].
  split; [vm_compute; reflexivity|]. split; [split; auto|]. split; vm_compute; reflexivity.
Qed.
