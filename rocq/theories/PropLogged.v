(** C108 for the reader of INTEGER that logs: its errors are those of the reader without. *)
From Verif Require Import Base MHeader MEncode MBer MInt MSeg MOid MText MTime MReal MCont MSpan SSpan PSpan PropSpan MTrace PropTrace MKind PKind PTypes MWhere PropWhere.

Lemma contents_same h i : s_integer_content h i = w_integer_ber h i.
Proof.
  unfold s_integer_content, w_integer_ber, w_primitive. destruct (at_input i (assert_primitive (sh_fields h))); cbn [sbind]; try reflexivity.
  destruct (s_der_get_content h i) as [[rem x]| | |]; cbn [sbind]; try reflexivity. destruct (in_data x) as [|b d] eqn:E; [reflexivity|].
  replace (blen (b :: d) =? 0) with false; [reflexivity|]. symmetry. apply N.eqb_neq. unfold blen. cbn [length]. lia.
Qed.

(** Whole objects, results and places, in any build; and contents on their own, where an integer of no octets is reported at the
    (empty) content rather than at all that is left. *)
Theorem C108_logged (c : config) (whole : bytes) (i : input) (h : sheader) :
  blen whole < 2 ^ 64 -> located whole i -> header_located whole h ->
  snd (t_parse_ber c (t_integer_parser c) i) = s_parse_ber (simple_parser (SBase BInteger)) i
  /\ snd (t_parse_der c (t_integer_parser c) i) = s_parse_der (simple_parser (SBase BInteger)) i
  /\ snd (t_integer_ber c h i) = simple_ber (SBase BInteger) h i
  /\ snd (t_integer_der c h i) = simple_der (SBase BInteger) h i
  /\ (h_constructed (sh_fields h) = false -> h_length (sh_fields h) = Definite 0 ->
      snd (t_integer_ber c h i) = SErr (mk_input [] (in_start i) (in_start i)) EInvalidLength).
Proof.
  intros W L Hh. pose proof (integer_unchanged c whole W) as U.
  assert (B : snd (t_integer_ber c h i) = simple_ber (SBase BInteger) h i).
  { transitivity (s_integer_content h i); [exact (proj1 (proj1 (proj2 U h i Hh L)))|apply contents_same]. }
  split; [|split; [|split; [exact B|split]]].
  - rewrite (proj1 (parse_ber_agrees c whole W _ _ U i L)). unfold s_parse_ber. cbn [sp_accept sp_ber s_integer_parser simple_parser].
    destruct (s_parse_header i) as [[r h']| | |]; cbn [sbind]; try reflexivity.
    change (accept_tag (simple_codec (SBase BInteger)) (h_tag (sh_fields h'))) with (is_tag TagInteger (h_tag (sh_fields h'))).
    destruct (is_tag TagInteger _); [|reflexivity]. destruct (s_ber_object_content h' r MAX_RECURSION) as [[r2 x]| | |]; cbn [sbind]; try reflexivity.
    rewrite contents_same. reflexivity.
  - rewrite (proj1 (parse_der_agrees c whole W _ _ U i L)). unfold s_parse_der. cbn [sp_accept sp_der s_integer_parser simple_parser].
    destruct (s_parse_header_der i) as [[r h']| | |]; cbn [sbind]; try reflexivity.
    destruct (h_length (sh_fields h')); [|reflexivity].
    change (accept_tag (simple_codec (SBase BInteger)) (h_tag (sh_fields h'))) with (is_tag TagInteger (h_tag (sh_fields h'))).
    destruct (is_tag TagInteger _); [|reflexivity]. destruct (s_take _ r) as [[r2 x]| | |]; cbn [sbind]; try reflexivity.
    cbn [simple_der]. unfold w_integer_der. rewrite contents_same. reflexivity.
  - transitivity (sp_der s_integer_parser h i); [exact (proj1 (proj2 (proj2 U h i Hh L)))|]. cbn [sp_der s_integer_parser simple_der].
    unfold w_integer_der. rewrite contents_same. reflexivity.
  - intros K Z. rewrite B. cbn [simple_ber]. unfold w_integer_ber, w_primitive, assert_primitive. rewrite K. cbn [at_input sbind].
    unfold s_der_get_content. rewrite Z. unfold s_take. replace (0 <=? blen (in_data i)) with true by (symmetry; apply N.leb_le; lia).
    unfold in_take_split, in_take_from, in_take. replace (blen (in_data i) <? 0) with false by (symmetry; apply N.ltb_ge; lia).
    assert (S0 : in_start i < 2 ^ 64).
    { destruct L as (a & b & -> & Ha & _). unfold blen in *. rewrite !app_length in W. lia. }
    unfold usize_add. rewrite N.add_0_r. apply N.ltb_lt in S0. rewrite S0. reflexivity.
Qed.
Print Assumptions C108_logged.

(** INTEGER of no octets before a NULL, its content parser called on all that follows the header. *)
Example C108_logged_case :
  let whole := [2; 0; 5; 0] in
  let h := mk_sheader (mk_header Universal false 2 (Definite 0) (Some [2]) (Some [2; 0])) (Some (mk_input [2; 0] 0 2)) in
  let c := mk_config true true true in
  located whole (mk_input [5; 0] 2 4) /\ header_located whole h
  /\ snd (t_integer_ber c h (mk_input [5; 0] 2 4)) = SErr (mk_input [] 2 2) EInvalidLength
  /\ snd (t_parse_ber c (t_integer_parser c) (from_slice whole)) = SErr (mk_input [] 2 2) EInvalidLength.
Proof.
  split; [exists [2; 0], []; repeat split|]. split; [|split; vm_compute; reflexivity].
  intros raw E. injection E as <-. exists [], [5; 0]. repeat split.
Qed.
