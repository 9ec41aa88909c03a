(** C106: the text of an error says what it is and where it happened. *)
From Coq Require Import String Ascii.
From Verif Require Import Base SHeader SOid SText MHeader MOid POid MErr MSpan MShow.

(** What is printed for a value names no other value. *)
Definition tells_apart {A} (f : A -> list N) : Prop := forall a b, f a = f b -> a = b.

(** ** Numbers in a text *)

Definition digit (c : N) : Prop := 48 <= c <= 57.

Lemma decimal_digit n : Forall digit (decimal n).
Proof.
  destruct (decimal_ok n) as (ds & -> & F & _). apply Forall_forall. intros c Hc. apply in_map_iff in Hc as (d & <- & Hd).
  rewrite Forall_forall in F. specialize (F d Hd). unfold digit. lia.
Qed.

Lemma decimal_inj : tells_apart decimal.
Proof.
  intros a b E. pose proof (parse_uint_ok (a + b + 1) a _ (decimal_ok a) ltac:(lia)) as A.
  pose proof (parse_uint_ok (a + b + 1) b _ (decimal_ok b) ltac:(lia)) as B. rewrite E in A. congruence.
Qed.

Lemma digits_stop (x y : list N) : Forall digit x -> Forall digit y -> forall c r c' r', ~ digit c -> ~ digit c' ->
  x ++ c :: r = y ++ c' :: r' -> x = y /\ c :: r = c' :: r'.
Proof.
  intros Hx. revert y. induction Hx as [|a x Ha _ IH]; intros y Hy c r c' r' Nc Nc' E; destruct Hy as [|b y Hb Hy]; cbn [app] in E.
  - auto.
  - injection E as -> _. contradiction.
  - injection E as <- _. contradiction.
  - injection E as -> E. destruct (IH y Hy c r c' r' Nc Nc' E) as [-> ->]. auto.
Qed.

Lemma decimal_stop a b c r c' r' : ~ digit c -> ~ digit c' -> decimal a ++ c :: r = decimal b ++ c' :: r' -> a = b /\ c :: r = c' :: r'.
Proof.
  intros Nc Nc' E. destruct (digits_stop _ _ (decimal_digit a) (decimal_digit b) _ _ _ _ Nc Nc' E) as [E1 E2]. split; [exact (decimal_inj _ _ E1) | exact E2].
Qed.

Ltac stop E := apply decimal_stop in E as [-> E]; [|unfold digit; lia|unfold digit; lia].

Lemma tag_stop a b r r' : tag_debug a ++ r = tag_debug b ++ r' -> a = b /\ r = r'.
Proof.
  unfold tag_debug. rewrite <- !app_assoc. intros E. apply app_inv_head in E.
  change (text_of ")") with [41] in E. cbn [app] in E. stop E. injection E as E. auto.
Qed.

Lemma option_stop {A} (f : A -> list N) : (forall a b r r', f a ++ r = f b ++ r' -> a = b /\ r = r') ->
  forall a b r r', option_debug f a ++ r = option_debug f b ++ r' -> a = b /\ r = r'.
Proof.
  intros F a b r r'. destruct a as [a|], b as [b|]; unfold option_debug; rewrite <- ?app_assoc; intros E.
  - apply app_inv_head in E. apply F in E as [-> E]. apply app_inv_head in E. auto.
  - discriminate E.
  - discriminate E.
  - apply app_inv_head in E. auto.
Qed.

Lemma class_stop a b r r' : class_debug a ++ r = class_debug b ++ r' -> a = b /\ r = r'.
Proof. destruct a, b; intros E; try discriminate E; apply app_inv_head in E; auto. Qed.

Lemma constraint_inj : tells_apart constraint_debug.
Proof. intros a b. destruct a, b; intros E; try reflexivity; discriminate E. Qed.

Lemma needed_inj : tells_apart needed_debug.
Proof.
  intros [|a] [|b]; unfold needed_debug; intros E; try reflexivity; try discriminate E.
  apply app_inv_head in E. change (text_of ")") with [41] in E. stop E. reflexivity.
Qed.

(** ** Errors *)

(** The inner error without the kind nom gives it. *)
Definition unkinded (e : inner_error) : inner_error := match e with INom _ => INom 0 | _ => e end.

(** The constant start of a template, and what follows the first pair of braces. *)
Lemma fill_const t r args : forallb (fun c => negb (c =? 123)) t = true -> fill (t ++ r) false args = t ++ fill r false args.
Proof.
  induction t as [|c t IH]; intros H; cbn [forallb app fill] in *; [reflexivity|]. apply andb_prop in H as [H1 H2].
  apply negb_true_iff in H1. rewrite H1, (IH H2). reflexivity.
Qed.

Lemma fill_brace t r a args : forallb (fun c => negb (c =? 125)) t = true -> fill (123 :: t ++ 125 :: r) false (a :: args) = a ++ fill r false args.
Proof.
  intros H. cbn [fill]. change (123 =? 123) with true. cbn iota. f_equal.
  induction t as [|c t IH]; cbn [forallb app fill] in *; [reflexivity|]. apply andb_prop in H as [H1 H2].
  rewrite H1. exact (IH H2).
Qed.

Lemma fill_end t : forallb (fun c => negb (c =? 123)) t = true -> fill t false [] = t.
Proof. intros H. rewrite <- (app_nil_r t) at 1. rewrite fill_const by exact H. apply app_nil_r. Qed.

Lemma one_hole kd s pre mid post d :
  s = (pre ++ "{" ++ mid ++ "}" ++ post)%string ->
  forallb (fun c => negb (c =? 123)) (text_of pre) = true -> forallb (fun c => negb (c =? 125)) (text_of mid) = true ->
  forallb (fun c => negb (c =? 123)) (text_of post) = true ->
  render kd (s, [d]) = text_of pre ++ detail_text kd d ++ text_of post.
Proof.
  intros -> A B C. unfold render. cbn [fst snd map].
  assert (T : forall x y, text_of (x ++ y)%string = text_of x ++ text_of y) by (induction x; cbn; intros; [|rewrite IHx]; reflexivity).
  rewrite !T. change (text_of "{") with [123]. change (text_of "}") with [125]. rewrite fill_const by exact A. f_equal.
  cbn [app]. rewrite fill_brace by exact B. f_equal. apply fill_end. exact C.
Qed.

Lemma two_holes kd s pre mid between mid2 post d d2 :
  s = (pre ++ "{" ++ mid ++ "}" ++ between ++ "{" ++ mid2 ++ "}" ++ post)%string ->
  forallb (fun c => negb (c =? 123)) (text_of pre) = true -> forallb (fun c => negb (c =? 125)) (text_of mid) = true ->
  forallb (fun c => negb (c =? 123)) (text_of between) = true -> forallb (fun c => negb (c =? 125)) (text_of mid2) = true ->
  forallb (fun c => negb (c =? 123)) (text_of post) = true ->
  render kd (s, [d; d2]) = text_of pre ++ detail_text kd d ++ text_of between ++ detail_text kd d2 ++ text_of post.
Proof.
  intros -> A B C D E. unfold render. cbn [fst snd map].
  assert (T : forall x y, text_of (x ++ y)%string = text_of x ++ text_of y) by (induction x; cbn; intros; [|rewrite IHx]; reflexivity).
  rewrite !T. change (text_of "{") with [123]. change (text_of "}") with [125]. rewrite fill_const by exact A. f_equal.
  cbn [app]. rewrite fill_brace by exact B. f_equal. rewrite fill_const by exact C. f_equal.
  rewrite fill_brace by exact D. f_equal. apply fill_end. exact E.
Qed.

Section texts.
Variable kd : N -> list N.

(** What the messages say, written out. *)
Definition inner_words (e : inner_error) : list N :=
  match e with
  | IBerTypeError => text_of "BER object does not have the expected type"
  | IBerValueError => text_of "BER object does not have the expected value"
  | IInvalidLength => text_of "Invalid Length"
  | IInvalidValue tag msg => text_of "Invalid Value when parsing object with tag Tag(" ++ decimal tag ++ text_of ") " ++ msg
  | IInvalidTag => text_of "Invalid Tag"
  | IUnknownTag tag => text_of "Unknown tag: " ++ decimal tag
  | IUnexpectedTag a b =>
      text_of "Unexpected Tag (expected: " ++ match a with Some a => text_of "Some(Tag(" ++ decimal a ++ text_of "))" | None => text_of "None" end
      ++ text_of ", actual: Tag(" ++ decimal b ++ text_of "))"
  | IUnexpectedClass a b =>
      text_of "Unexpected Class (expected: " ++ match a with Some a => text_of "Some(" ++ class_debug a ++ text_of ")" | None => text_of "None" end
      ++ text_of ", actual: " ++ class_debug b ++ text_of ")"
  | IIndefiniteLengthUnexpected => text_of "Indefinite length not allowed"
  | IConstructExpected => text_of "DER object was expected to be constructed (and found to be primitive)"
  | IConstructUnexpected => text_of "DER object was expected to be primitive (and found to be constructed)"
  | IIntegerTooLarge => text_of "Integer too large to fit requested type"
  | IIntegerNegative => text_of "BER integer is negative, while an unsigned integer was requested"
  | IBerMaxDepth => text_of "BER recursive parsing reached maximum depth"
  | IStringInvalidCharset => text_of "Invalid encoding or forbidden characters in string"
  | IInvalidDateTime => text_of "Invalid Date or Time"
  | IDerConstraintFailed c => text_of "DER Failed constraint: " ++ constraint_debug c
  | INom _ => text_of "Parse error"
  | ILifetimeError => text_of "Requesting borrowed data from a temporary object"
  | IUnsupported => text_of "Feature is not yet implemented"
  | IIncomplete n => text_of "incomplete data, missing: " ++ match n with NeededUnknown => text_of "Unknown" | NeededSize n => text_of "Size(" ++ decimal n ++ text_of ")" end
  end.

Lemma inner_text_words e : inner_text kd e = inner_words e.
Proof.
  destruct e; try reflexivity; unfold inner_text; cbn [inner_display].
  - rewrite (two_holes kd _ "Invalid Value when parsing object with tag " "tag:?" " " "msg:" "") by reflexivity.
    cbn [detail_text]. unfold tag_debug. rewrite app_nil_r, <- !app_assoc. reflexivity.
  - rewrite (one_hole kd _ "Unknown tag: " "0:?" "") by reflexivity. cbn [detail_text]. rewrite app_nil_r. reflexivity.
  - rewrite (two_holes kd _ "Unexpected Tag (expected: " "expected:?" ", actual: " "actual:?" ")") by reflexivity.
    cbn [detail_text]. unfold tag_debug. destruct expected; unfold option_debug, inner_words; rewrite <- !app_assoc; reflexivity.
  - rewrite (one_hole kd _ "DER Failed constraint: " "0:?" "") by reflexivity. cbn [detail_text]. rewrite app_nil_r. reflexivity.
  - rewrite (one_hole kd _ "incomplete data, missing: " "0:?" "") by reflexivity. cbn [detail_text]. rewrite app_nil_r. reflexivity.
Qed.

Lemma inner_words_inj a b : inner_words a = inner_words b -> unkinded a = unkinded b.
Proof.
  assert (O : forall t, match t with Some t => text_of "Some(Tag(" ++ decimal t ++ text_of "))" | None => text_of "None" end = option_debug tag_debug t).
  { intros [t|]; [|reflexivity]. unfold option_debug, tag_debug. rewrite <- !app_assoc. reflexivity. }
  destruct a, b; intros E; try reflexivity; try discriminate E; unfold inner_words in E; apply app_inv_head in E; cbn [unkinded].
  - change (text_of ") ") with [41; 32] in E. cbn [app] in E. stop E. injection E as E. congruence.
  - apply decimal_inj in E. congruence.
  - rewrite !O in E. apply (option_stop _ tag_stop) in E as [-> E]. apply app_inv_head in E.
    change (text_of "))") with [41; 41] in E. stop E. reflexivity.
  - apply (option_stop _ class_stop) in E as [-> E]. apply app_inv_head in E. apply class_stop in E as [-> _]. reflexivity.
  - apply constraint_inj in E. congruence.
  - apply needed_inj in E. congruence.
Qed.

Lemma nom_or e : (exists k, e = LNomError k) \/ (forall k, e <> LNomError k).
Proof. destruct e; try (right; discriminate). left. eauto. Qed.

Lemma error_text_words e :
  error_text kd e = match e with LNomError k => text_of "nom error: " ++ kd k | e => inner_words (inner_of_error e) end.
Proof.
  destruct (nom_or e) as [[k ->] | N].
  - unfold error_text. cbn [error_display]. rewrite (one_hole kd _ "nom error: " "0:?" "") by reflexivity.
    cbn [detail_text]. rewrite app_nil_r. reflexivity.
  - assert (D : error_display e = inner_display (inner_of_error e)) by (destruct e; try reflexivity; destruct (N kind eq_refl)).
    unfold error_text. rewrite D. pose proof (inner_text_words (inner_of_error e)) as W. unfold inner_text in W. rewrite W.
    clear D W. destruct e; try reflexivity. destruct (N kind eq_refl).
Qed.

Lemma error_text_inj : tells_apart kd -> tells_apart (error_text kd).
Proof.
  intros K a b. rewrite !error_text_words.
  assert (P : forall z, (forall k, z <> LNomError k) -> match z with LNomError k => text_of "nom error: " ++ kd k | e => inner_words (inner_of_error e) end = inner_words (inner_of_error z)).
  { intros z Z. destruct z; try reflexivity. destruct (Z kind eq_refl). }
  assert (D : forall k e, text_of "nom error: " ++ kd k <> inner_words e) by (intros k e Q; destruct e; discriminate Q).
  destruct (nom_or a) as [[k ->] | A], (nom_or b) as [[k' ->] | B]; intros E.
  - apply app_inv_head in E. apply K in E. congruence.
  - rewrite (P b B) in E. destruct (D _ _ E).
  - rewrite (P a A) in E. symmetry in E. destruct (D _ _ E).
  - rewrite (P a A), (P b B) in E. apply inner_words_inj in E.
    assert (R : forall z, (forall k, z <> LNomError k) -> error_of_inner (unkinded (inner_of_error z)) = z).
    { intros [] Z; try reflexivity. destruct (Z kind eq_refl). }
    rewrite <- (R a A), <- (R b B), E. reflexivity.
Qed.
End texts.

(** ** Theorems *)

(** X.680, 31.2: the keywords of the classes ([CONTEXT-SPECIFIC] is written with no keyword there). *)
Definition class_keyword (c : class) (s : list N) : Prop :=
  match c with
  | Universal => s = letters "UNIVERSAL"
  | Application => s = letters "APPLICATION"
  | Private => s = letters "PRIVATE"
  | ContextSpecific => s = letters "CONTEXT-SPECIFIC"
  end.

Theorem C106_class : (forall c, class_keyword c (class_display c)) /\ tells_apart class_display /\ tells_apart class_debug
  /\ tells_apart constraint_debug /\ tells_apart constraint_display.
Proof.
  split; [intros []; reflexivity|].
  repeat split; intros a b; destruct a, b; intros E; try reflexivity; discriminate E.
Qed.
Print Assumptions C106_class.

(** The text of a place: its two ends in decimal. *)
Definition place_text (i : input) (s : list N) : Prop :=
  exists a b, decimal_text (in_start i) a /\ decimal_text (in_end i) b /\ s = letters "Input(start=" ++ a ++ letters " end=" ++ b ++ letters ")".

Lemma input_text_stop i j r r' : input_text i ++ r = input_text j ++ r' -> in_start i = in_start j /\ in_end i = in_end j /\ r = r'.
Proof.
  unfold input_text. rewrite <- !app_assoc. intros E. apply app_inv_head in E.
  change (text_of " end=" ++ ?x) with (32 :: text_of "end=" ++ x) in E.
  apply decimal_stop in E as [E1 E]; [|unfold digit; lia|unfold digit; lia]. apply (app_inv_head (text_of " end=")) in E.
  change (text_of ")") with [41] in E. cbn [app] in E. apply decimal_stop in E as [E2 E]; [|unfold digit; lia|unfold digit; lia].
  injection E as E. auto.
Qed.

Theorem C106_place (i j : input) :
  place_text i (input_text i) /\ (input_text i = input_text j <-> in_start i = in_start j /\ in_end i = in_end j).
Proof.
  split.
  - exists (decimal (in_start i)), (decimal (in_end i)). split; [apply decimal_ok|]. split; [apply decimal_ok|]. reflexivity.
  - split.
    + intros E. assert (E' : input_text i ++ [] = input_text j ++ []) by (rewrite E; reflexivity).
      apply input_text_stop in E' as (A & B & _). auto.
    + unfold input_text. intros [-> ->]. reflexivity.
Qed.
Print Assumptions C106_place.

(** The text of an [Error] tells it from every other; that of an [InnerError] from every other but one
    which nom made too; that of a [BerError] gives the place and the inner error as far. *)
Theorem C106_errors (kind_name : N -> list N) : tells_apart kind_name ->
  tells_apart (error_text kind_name)
  /\ (forall a b, inner_text kind_name a = inner_text kind_name b <-> a = b \/ exists k l, a = INom k /\ b = INom l)
  /\ (forall a b : ber_error input, ber_error_text kind_name a = ber_error_text kind_name b <->
        in_start (be_input a) = in_start (be_input b) /\ in_end (be_input a) = in_end (be_input b)
        /\ inner_text kind_name (be_inner a) = inner_text kind_name (be_inner b)).
Proof.
  intros K. split; [exact (error_text_inj kind_name K)|]. split.
  - intros a b. rewrite !inner_text_words. split.
    + intros E. apply (inner_words_inj kind_name) in E.
      destruct a; try (left; destruct b; try discriminate E; exact E). destruct b; try discriminate E. right. eauto.
    + intros [-> | (k & l & -> & ->)]; reflexivity.
  - intros a b. unfold ber_error_text. split.
    + intros E. apply app_inv_head in E. apply input_text_stop in E as (A & B & E). apply app_inv_head in E. auto.
    + intros (A & B & ->). rewrite (proj2 (proj2 (C106_place (be_input a) (be_input b))) (conj A B)). reflexivity.
Qed.
Print Assumptions C106_errors.

(** The text of an inner error made by nom does not say which of nom's parsers failed. *)
Theorem C106_nom_refuted : exists kind_name, tells_apart kind_name /\ ~ tells_apart (inner_text kind_name).
Proof. exists decimal. split; [exact decimal_inj|]. intros H. discriminate (H (INom 0) (INom 1) eq_refl). Qed.
Print Assumptions C106_nom_refuted.

Example C106_case :
  ber_error_text decimal (mk_ber_error (mk_input [2; 1; 0] 7 10) (IUnexpectedTag (Some 16) 2))
  = letters "BerError: input=Input(start=7 end=10) error=Unexpected Tag (expected: Some(Tag(16)), actual: Tag(2))"
  /\ inner_text decimal (IDerConstraintFailed DCIntegerEmpty) = letters "DER Failed constraint: IntegerEmpty"
  /\ error_text decimal (LInvalidValue 9 (letters "{0} too large")) = letters "Invalid Value when parsing object with tag Tag(9) {0} too large"
  /\ error_text decimal (LUnknownTag 31) = letters "Unknown tag: 31"
  /\ error_text decimal (LIncomplete (NeededSize 12)) = letters "incomplete data, missing: Size(12)"
  /\ class_display ContextSpecific = letters "CONTEXT-SPECIFIC".
Proof. vm_compute. repeat split. Qed.
