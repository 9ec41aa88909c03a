(** Further facts about printed object identifiers and about REAL values made by their constructors. *)
From Coq Require Import ZArith QArith Qabs SpecFloat.
From Verif Require Import Base MHeader MEncode SHeader MBer MOid SOid POid PropOid MReal SReal PReal PropReal.

(** ** C25: [Display] *)

(** "rel. " *)
Definition relative_mark : list N := [114; 101; 108; 46; 32].

Theorem C25_display (o : oid) (arcs : list N) :
  oid_arcs o = Some arcs -> arcs <> [] ->
  exists s, dotted arcs s /\ (oid_relative o = false -> oid_display o = s)
            /\ (oid_relative o = true -> oid_display o = relative_mark ++ s).
Proof.
  intros E Hn. exists (to_id_string o). split; [exact (C25_text_is_dotted o arcs E Hn)|]. unfold oid_display.
  destruct (oid_relative o); split; intros H; try discriminate; reflexivity.
Qed.
Print Assumptions C25_display.

(** What is printed for a relative object identifier is never read back. *)
Theorem C25_relative_never_read (o : oid) : oid_relative o = true -> oid_from_str (oid_display o) = inr OidParseIntError.
Proof.
  intros R. unfold oid_display. rewrite R.
  unfold oid_from_str. change ([114; 101; 108; 46; 32] ++ to_id_string o)%N with ([114; 101; 108]%N ++ 46%N :: 32%N :: to_id_string o).
  rewrite split_dot_cons by (repeat constructor; discriminate). cbn [map all_some].
  replace (parse_uint (2 ^ 64) [114; 101; 108]%N) with (@None N) by (vm_compute; reflexivity). reflexivity.
Qed.
Print Assumptions C25_relative_never_read.

Example C25_display_case :
  let o := mk_oid [1; 0x82; 0x03]%N true in
  oid_arcs o = Some [1; 259]%N /\ oid_display o = [114; 101; 108; 46; 32; 49; 46; 50; 53; 57]%N.
Proof. split; vm_compute; reflexivity. Qed.

(** ** C40: the constructors *)

(** [Real::binary] with base 2 survives writing exactly as said of base 2; [with_enc_base] chooses the base of the encoding. *)
Theorem C40_binary (m : f64) (e : Z) (v : Q) (n t : Z) :
  valid_binary 53 1024 m = true -> f64_value m = Some v -> Z.odd n = true -> (0 < n)%Z ->
  (Qabs v == inject_Z n * 2 ^ t)%Q -> (Z.abs (e + t) < 2 ^ 24)%Z ->
  (survives (real_binary m 2 e) <-> (2 ^ (-52) < Qabs v)%Q /\ (Qabs v < 2 ^ 64)%Q /\ exponent_fits (e + t)).
Proof. exact (C40_base2 m e v n t). Qed.
Print Assumptions C40_binary.

Theorem C40_enc_base (m : f64) (e : Z) (v : Q) (n t c : Z) (b : N) :
  (c, b) = (3%Z, 8%N) \/ (c, b) = (4%Z, 16%N) ->
  valid_binary 53 1024 m = true -> f64_value m = Some v -> Z.odd n = true -> (0 < n)%Z ->
  (Qabs v == inject_Z n * 2 ^ t)%Q -> (- 2 ^ 31 < e < 2 ^ 31)%Z ->
  let q := Z.quot e c in
  (survives (with_enc_base (real_binary m 2 e) b) <-> e = ((c + 1) * q)%Z /\ (2 ^ (-52) < Qabs v * 2 ^ q)%Q /\ (Qabs v * 2 ^ q < 2 ^ 64)%Q).
Proof. exact (C40_base8_16 m e v n t c b). Qed.
Print Assumptions C40_enc_base.

(** 0.625 = 5 * 2^-3 with exponent -3 in base 2, and 1.25 with exponent 5 written in base 16, which comes back as another number. *)
Example C40_constructors_case :
  let m := S754_finite false 5629499534213120 (-53) in let m' := S754_finite false 5629499534213120 (-52) in
  valid_binary 53 1024 m = true /\ valid_binary 53 1024 m' = true /\ exponent_fits (-3 + -3)
  /\ to_vec (tober_real (real_binary m 2 (-3))) = Ok [9; 3; 128; 250; 5]%N
  /\ parse_der real_codec [9; 3; 128; 250; 5]%N = Ok ([], RBinary (f64_of_Z 5) 2 (-6) 2)
  /\ to_vec (tober_real (with_enc_base (real_binary m' 2 5) 16)) = Ok [9; 3; 172; 0; 5]%N
  /\ parse_der real_codec [9; 3; 172; 0; 5]%N = Ok ([], RBinary (f64_of_Z 40) 2 0 16).
Proof. split; [vm_compute; reflexivity|]. split; [vm_compute; reflexivity|]. split; [unfold exponent_fits; lia|]. vm_compute. repeat split. Qed.
