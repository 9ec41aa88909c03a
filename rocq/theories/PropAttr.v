(** Properties C98 and C99: what the attributes of a declaration make the derive macros generate. *)
From Coq Require Import List NArith Bool Lia String Ascii.
From Verif Require Import Base MHeader PHeader MDerive MAttr.
Import ListNotations.
Local Open Scope N_scope.
Local Open Scope list_scope.

(** ** What attributes say *)

Definition named (a : attr) (s : string) : Prop := at_name a = Some (chars s).

(** The names of the classes. *)
Definition class_name (c : class) : string :=
  match c with
  | Universal => "UNIVERSAL" | Application => "APPLICATION" | ContextSpecific => "CONTEXT-SPECIFIC" | Private => "PRIVATE"
  end.

(** A letter in upper or lower case; the capitals of dotless i and long s are I and S. *)
Definition some_case (u c : N) : Prop := c = u \/ 65 <= u <= 90 /\ c = u + 32 \/ u = 73 /\ c = 0x131 \/ u = 83 /\ c = 0x17F.
Definition spelled (w : list N) (s : string) : Prop := Forall2 some_case (chars s) w.

(** [tag_explicit(n)] or [tag_explicit(class n)], the class in letters of any case. *)
Inductive tag_text : list token -> class -> N -> Prop :=
| TagNumber n : n < 2 ^ 16 -> tag_text [Number n] ContextSpecific n
| TagClassNumber w c n : spelled w (class_name c) -> n < 2 ^ 16 -> tag_text [Word w; Number n] c n.

Definition tag_attr (a : attr) : Prop := named a "tag_explicit" \/ named a "tag_implicit".
Definition gives_tag (a : attr) (g : tagging) : Prop :=
  (exists ts, at_meta a = MList ts /\ tag_text ts (tg_class g) (tg_num g))
  /\ (named a "tag_explicit" /\ tg_kind g = KExplicit \/ named a "tag_implicit" /\ tg_kind g = KImplicit).

(** The items of [asn1(...)]. *)
Definition item := (list N * option (list token))%type.
Definition item_tokens (i : item) : list token :=
  match i with
  | (w, None) => [Word w]
  | (w, Some v) => [Word w; Punct 61; Text v]
  end.
Inductive item_text : list token -> list item -> Prop :=
| NoItem : item_text [] []
| LastItem i : item_text (item_tokens i) [i]
| MoreItems i ts l : item_text ts l -> item_text (item_tokens i ++ Punct 44 :: ts) (i :: l).

(** All items of all [asn1] attributes, in order. *)
Inductive asn1_items : list attr -> list item -> Prop :=
| ItemsNil : asn1_items [] []
| ItemsSkip a l is : ~ named a "asn1" -> asn1_items l is -> asn1_items (a :: l) is
| ItemsAttr a l ts is js : named a "asn1" -> at_meta a = MList ts -> item_text ts is -> asn1_items l js ->
    asn1_items (a :: l) (is ++ js).

(** The last element of a list that says something, if there is one. *)
Definition latest {A B} (says : A -> B -> Prop) (l : list A) (o : option B) : Prop :=
  match o with
  | None => forall a b, In a l -> ~ says a b
  | Some b => exists l1 a l2, l = l1 ++ a :: l2 /\ says a b /\ forall a' b', In a' l2 -> ~ says a' b'
  end.

(** The one attribute that gives a tag. *)
Definition only_tag (l : list attr) (o : option tagging) : Prop :=
  match o with
  | None => forall a, In a l -> ~ tag_attr a
  | Some g => exists l1 a l2, l = l1 ++ a :: l2 /\ gives_tag a g /\ forall a', In a' (l1 ++ l2) -> ~ tag_attr a'
  end.

Definition says_expr {E} (expr : list token -> option E) (s : string) (a : attr) (e : E) : Prop :=
  named a s /\ exists ts, at_meta a = MList ts /\ expr ts = Some e.
Definition item_says {E} (expr : list token -> option E) (i : item) (e : E) : Prop :=
  exists v, i = (chars "parse", Some v) /\ expr v = Some e.

(** What the attributes of a field declare. *)
Record declares {E} (expr : list token -> option E) (l : list attr) (f : field_info E) : Prop := mk_declares {
  dc_exprs : forall a, In a l -> named a "map_err" \/ named a "default" -> exists ts e, at_meta a = MList ts /\ expr ts = Some e;
  dc_tag : only_tag l (fi_tag f);
  dc_optional : fi_optional f = true <-> exists a, In a l /\ (named a "optional" \/ named a "default");
  dc_default : latest (says_expr expr "default") l (fi_default f);
  dc_map_err : latest (says_expr expr "map_err") l (fi_map_err f);
  dc_parse : exists is, asn1_items l is /\ (forall i, In i is -> exists e, item_says expr i e) /\ latest (item_says expr) is (fi_parse f) }.

(** ** Lists of items *)

Lemma bytes_eqb_iff (a b : bytes) : bytes_eqb a b = true <-> a = b.
Proof. unfold bytes_eqb. destruct (list_eq_dec N.eq_dec a b); split; intros H; congruence. Qed.
Lemma bytes_eqb_same (a : bytes) : bytes_eqb a a = true.
Proof. apply bytes_eqb_iff. reflexivity. Qed.

Lemma is_ident_iff (a : attr) (s : string) : is_ident a s = true <-> named a s.
Proof.
  unfold is_ident, named. destruct (at_name a); [|split; discriminate]. rewrite bytes_eqb_iff. split; intros H; congruence.
Qed.
Lemma is_ident_not (a : attr) (s : string) : is_ident a s = false <-> ~ named a s.
Proof. rewrite <- is_ident_iff. destruct (is_ident a s); split; congruence. Qed.

(** What the closure does with all items. *)
Fixpoint run {S} (set : S -> list N -> option (list token) -> res S) (s : S) (is : list item) : res S :=
  match is with
  | [] => Ok s
  | (w, v) :: is => let* s := set s w v in run set s is
  end.

Lemma run_app {S} (set : S -> list N -> option (list token) -> res S) (is js : list item) (s : S) :
  run set s (is ++ js) = (let* s := run set s is in run set s js).
Proof.
  revert s. induction is as [|[w v] is IH]; intros s; [reflexivity|]. cbn [run app]. destruct (set s w v); cbn; try reflexivity. apply IH.
Qed.

Lemma nested_run {S} (set : S -> list N -> option (list token) -> res S) (ts : list token) (is : list item) :
  item_text ts is -> forall s s', nested set s ts = Ok s' <-> run set s is = Ok s'.
Proof.
  induction 1 as [|[w [v|]]|[w [v|]] ts l H IH]; intros s s'.
  - cbn. tauto.
  - cbn. destruct (set s w (Some v)); cbn; tauto.
  - cbn. destruct (set s w None); cbn; tauto.
  - cbn. destruct (set s w (Some v)); cbn; try (split; discriminate). apply IH.
  - cbn. destruct (set s w None); cbn; try (split; discriminate). apply IH.
Qed.

Lemma nested_text {S} (set : S -> list N -> option (list token) -> res S) (ts : list token) :
  forall s s', nested set s ts = Ok s' -> exists is, item_text ts is.
Proof.
  remember (length ts) as n eqn:Hn. assert (Hle : (length ts <= n)%nat) by lia. clear Hn. revert ts Hle.
  induction n as [|n IH]; intros ts Hle s s' H.
  - destruct ts; [exists []; constructor|cbn in Hle; lia].
  - destruct ts as [|[w|m|v|c|] ts]; try discriminate; [exists []; constructor|].
    destruct ts as [|[w'|m|v|c|] ts]; try discriminate; [exists [(w, None)]; exact (LastItem (w, None))|].
    cbn [nested] in H. destruct (N.eqb_spec c 44) as [->|N1].
    + destruct (set s w None) as [s1| | |]; try discriminate. cbn [bind] in H.
      destruct (IH ts ltac:(cbn in Hle; lia) _ _ H) as (is & Hi). exists ((w, None) :: is). exact (MoreItems (w, None) _ _ Hi).
    + destruct (N.eqb_spec c 61) as [->|N2]; [|discriminate].
      destruct ts as [|[w'|m|v|c'|] ts]; try discriminate.
      destruct (set s w (Some v)) as [s1| | |]; try discriminate. cbn [bind] in H.
      destruct ts as [|[w'|m|v'|c'|] ts]; try discriminate; [exists [(w, Some v)]; exact (LastItem (w, Some v))|].
      destruct (N.eqb_spec c' 44) as [->|N3]; [|discriminate].
      destruct (IH ts ltac:(cbn in Hle; lia) _ _ H) as (is & Hi). exists ((w, Some v) :: is). exact (MoreItems (w, Some v) _ _ Hi).
Qed.

Lemma item_text_unique (ts : list token) (is js : list item) : item_text ts is -> item_text ts js -> is = js.
Proof.
  intros H1 H2.
  pose (set := fun (s : list item) (w : list N) (v : option (list token)) => Ok (s ++ [(w, v)])).
  assert (R : forall is s, run set s is = Ok (s ++ is)).
  { clear. induction is as [|[w v] is IH]; intros s; cbn; [rewrite app_nil_r; reflexivity|].
    rewrite IH, <- app_assoc. reflexivity. }
  pose proof (proj2 (nested_run set ts is H1 [] is) (R is [])) as A.
  pose proof (proj2 (nested_run set ts js H2 [] js) (R js [])) as B. congruence.
Qed.

(** ** The last that says something *)

Section Latest.
  Context {A B : Type} (says : A -> B -> Prop).

  Lemma latest_app_keep (l m : list A) (o : option B) :
    (forall a b, In a m -> ~ says a b) -> latest says l o -> latest says (l ++ m) o.
  Proof.
    intros N H. destruct o as [b|]; cbn in *.
    - destruct H as (l1 & a & l2 & -> & S & R). exists l1, a, (l2 ++ m). split; [rewrite <- app_assoc; reflexivity|]. split; [exact S|].
      intros a' b' I. apply in_app_or in I. destruct I as [I|I]; [apply R|apply N]; exact I.
    - intros a b I. apply in_app_or in I. destruct I as [I|I]; [apply H|apply N]; exact I.
  Qed.
  Lemma latest_app_new (l m : list A) (b : B) : latest says m (Some b) -> latest says (l ++ m) (Some b).
  Proof.
    intros (m1 & a & m2 & -> & S & R). exists (l ++ m1), a, m2. split; [rewrite <- app_assoc; reflexivity|]. split; assumption.
  Qed.
  Lemma latest_one (a : A) (b : B) : says a b -> latest says [a] (Some b).
  Proof. intros S. exists [], a, []. split; [reflexivity|]. split; [exact S|intros a' b' []]. Qed.

  Lemma latest_cons (a : A) (l : list A) (o : option B) :
    latest says (a :: l) o ->
    (exists b, o = Some b /\ latest says l (Some b))
    \/ (latest says l None /\ match o with Some b => says a b | None => forall b, ~ says a b end).
  Proof.
    destruct o as [b|]; cbn.
    - intros ([|a1 l1] & a' & l2 & E & S & R); injection E as -> ->.
      + right. split; [exact R|exact S].
      + left. exists b. split; [reflexivity|]. exists l1, a', l2. auto.
    - intros H. right. split; [intros a' b' I; apply H; right; exact I|]. intros b. apply H. left. reflexivity.
  Qed.

  Lemma latest_none_some (l : list A) (b : B) : latest says l None -> latest says l (Some b) -> False.
  Proof.
    intros N (l1 & a & l2 & -> & S & _). apply (N a b); [apply in_or_app; right; left; reflexivity|exact S].
  Qed.

  Lemma latest_unique (fun_says : forall a b b', says a b -> says a b' -> b = b') (l : list A) (o o' : option B) :
    latest says l o -> latest says l o' -> o = o'.
  Proof.
    revert o o'. induction l as [|a l IH]; intros o o' H H'.
    - destruct o as [b|]; [destruct H as ([|? ?] & ? & ? & E & _); discriminate|].
      destruct o' as [b|]; [destruct H' as ([|? ?] & ? & ? & E & _); discriminate|]. reflexivity.
    - apply latest_cons in H. apply latest_cons in H'.
      destruct H as [(b & -> & H)|[H S]], H' as [(b' & -> & H')|[H' S']].
      + exact (IH _ _ H H').
      + exfalso. exact (latest_none_some _ _ H' H).
      + exfalso. exact (latest_none_some _ _ H H').
      + destruct o as [b|], o' as [b'|]; try reflexivity.
        * f_equal. exact (fun_says _ _ _ S S').
        * exfalso. exact (S' _ S).
        * exfalso. exact (S _ S').
  Qed.

End Latest.

(** ** Tags *)

Lemma class_name_inj (c c' : class) : chars (class_name c) = chars (class_name c') -> c = c'.
Proof. destruct c, c'; intros H; try reflexivity; vm_compute in H; discriminate. Qed.

Lemma some_case_iff (u c : N) : 65 <= u <= 90 \/ u = 45 -> (upper c = u <-> some_case u c).
Proof.
  intros U. unfold upper, some_case. destruct (N.leb_spec 97 c), (N.leb_spec c 122); cbn [andb];
    destruct (N.eqb_spec c 0x131), (N.eqb_spec c 0x17F); subst; lia.
Qed.
Lemma spelled_upper (w : list N) (c : class) : spelled w (class_name c) <-> map upper w = chars (class_name c).
Proof.
  assert (A : Forall (fun u => 65 <= u <= 90 \/ u = 45) (chars (class_name c))).
  { apply Forall_forall. intros u I. destruct c; cbn in I; repeat (destruct I as [<-|I]; [cbn; lia|]); destruct I. }
  unfold spelled. revert w. induction A as [|u l U A IH]; intros w.
  - split; [intros H; inversion H; reflexivity | destruct w; [constructor | discriminate]].
  - split.
    + intros H. inversion H as [|? x ? r X R]; subst. cbn [map]. f_equal; [apply some_case_iff; assumption | apply IH; exact R].
    + destruct w as [|x r]; [discriminate|]. cbn [map]. intros H. injection H as X R. constructor; [apply some_case_iff; assumption | apply IH; exact R].
Qed.

Lemma gives_tag_fun (a : attr) (g g' : tagging) : gives_tag a g -> gives_tag a g' -> g = g'.
Proof.
  intros [(ts & M & T) K] [(ts' & M' & T') K']. rewrite M in M'. injection M' as <-.
  assert (Hk : tg_kind g = tg_kind g').
  { unfold named in *. destruct K as [[N K]|[N K]], K' as [[N' K']|[N' K']]; rewrite K, K'; try reflexivity;
      rewrite N in N'; vm_compute in N'; discriminate. }
  destruct g as [k c n], g' as [k' c' n']; cbn in *. subst k'.
  inversion T; subst; inversion T'; subst; try reflexivity.
  apply spelled_upper in H, H3. rewrite H in H3. apply class_name_inj in H3. subst. reflexivity.
Qed.

Lemma gives_tag_attr (a : attr) (g : tagging) : gives_tag a g -> tag_attr a.
Proof. intros [_ [[N _]|[N _]]]; [left|right]; exact N. Qed.

Lemma only_tag_unique (l : list attr) (o o' : option tagging) : only_tag l o -> only_tag l o' -> o = o'.
Proof.
  destruct o as [g|], o' as [g'|]; cbn; try reflexivity.
  - intros (l1 & a & l2 & -> & G & R) (l1' & a' & l2' & E & G' & R').
    assert (I : In a' (l1 ++ a :: l2)) by (rewrite E; apply in_or_app; right; left; reflexivity).
    apply in_app_or in I. destruct I as [I|[->|I]].
    + exfalso. apply (R a'); [apply in_or_app; left; exact I|exact (gives_tag_attr _ _ G')].
    + rewrite (gives_tag_fun _ _ _ G G'). reflexivity.
    + exfalso. apply (R a'); [apply in_or_app; right; exact I|exact (gives_tag_attr _ _ G')].
  - intros (l1 & a & l2 & -> & G & R) N. exfalso. apply (N a); [apply in_or_app; right; left; reflexivity|exact (gives_tag_attr _ _ G)].
  - intros N (l1 & a & l2 & -> & G & R). exfalso. apply (N a); [apply in_or_app; right; left; reflexivity|exact (gives_tag_attr _ _ G)].
Qed.

Lemma tag_class_iff (w : list N) (c : class) : tag_class_of w = Ok c <-> spelled w (class_name c).
Proof.
  rewrite spelled_upper.
  unfold tag_class_of. split.
  - intros H.
    destruct (bytes_eqb (map upper w) (chars "UNIVERSAL")) eqn:E1; [apply bytes_eqb_iff in E1; injection H as <-; exact E1|].
    destruct (bytes_eqb (map upper w) (chars "CONTEXT-SPECIFIC")) eqn:E2; [apply bytes_eqb_iff in E2; injection H as <-; exact E2|].
    destruct (bytes_eqb (map upper w) (chars "APPLICATION")) eqn:E3; [apply bytes_eqb_iff in E3; injection H as <-; exact E3|].
    destruct (bytes_eqb (map upper w) (chars "PRIVATE")) eqn:E4; [apply bytes_eqb_iff in E4; injection H as <-; exact E4|discriminate].
  - intros ->. destruct c; vm_compute; reflexivity.
Qed.

Lemma tag_args_iff (ts : list token) (c : class) (n : N) : parse_args parse_tag_args (MList ts) = Ok (c, n) <-> tag_text ts c n.
Proof.
  unfold parse_args, parse_tag_args, parse_number. split.
  - intros H. destruct ts as [|[w|m|v|p|] ts]; try discriminate.
    + cbn [bind] in H. destruct (tag_class_of w) as [c'| | |] eqn:Ec; try discriminate. cbn [bind] in H.
      destruct ts as [|[w'|m|v|p|] ts]; try discriminate.
      destruct (N.ltb_spec m (2 ^ 16)); [|discriminate]. cbn [bind] in H.
      destruct ts; [|discriminate]. injection H as -> ->. constructor; [apply tag_class_iff; exact Ec|assumption].
    + cbn [bind] in H. destruct (N.ltb_spec m (2 ^ 16)); [|discriminate]. cbn [bind] in H.
      destruct ts; [|discriminate]. injection H as <- ->. constructor. assumption.
  - intros H. inversion H; subst.
    + cbn [bind]. apply N.ltb_lt in H0. rewrite H0. reflexivity.
    + cbn [bind]. apply tag_class_iff in H0. rewrite H0. cbn [bind]. apply N.ltb_lt in H1. rewrite H1. reflexivity.
Qed.

Lemma only_tag_keep (l : list attr) (a : attr) (o : option tagging) : ~ tag_attr a -> only_tag l o -> only_tag (l ++ [a]) o.
Proof.
  intros N. destruct o as [g|]; cbn.
  - intros (l1 & b & l2 & -> & G & R). exists l1, b, (l2 ++ [a]). split; [rewrite <- app_assoc; reflexivity|]. split; [exact G|].
    intros a' I. rewrite app_assoc in I. apply in_app_or in I. destruct I as [I|[<-|[]]]; [exact (R _ I)|exact N].
  - intros H a' I. apply in_app_or in I. destruct I as [I|[<-|[]]]; [exact (H _ I)|exact N].
Qed.
Lemma only_tag_new (l : list attr) (a : attr) (g : tagging) : gives_tag a g -> only_tag l None -> only_tag (l ++ [a]) (Some g).
Proof.
  intros G N. exists l, a, []. split; [reflexivity|]. split; [exact G|]. intros a' I. rewrite app_nil_r in I. exact (N _ I).
Qed.

(** ** Items of all attributes *)

Lemma asn1_items_skip (l : list attr) (a : attr) (is : list item) : ~ named a "asn1" -> asn1_items l is -> asn1_items (l ++ [a]) is.
Proof.
  intros N H. induction H; cbn [app].
  - apply ItemsSkip; [exact N|constructor].
  - apply ItemsSkip; assumption.
  - eapply ItemsAttr; eassumption.
Qed.
Lemma asn1_items_attr (l : list attr) (a : attr) (ts : list token) (is js : list item) :
  named a "asn1" -> at_meta a = MList ts -> item_text ts js -> asn1_items l is -> asn1_items (l ++ [a]) (is ++ js).
Proof.
  intros N M T H. induction H; cbn [app].
  - rewrite <- (app_nil_r js). eapply ItemsAttr; try eassumption. constructor.
  - apply ItemsSkip; assumption.
  - rewrite <- app_assoc. eapply ItemsAttr; eassumption.
Qed.
Lemma asn1_items_unique (l : list attr) (is js : list item) : asn1_items l is -> asn1_items l js -> is = js.
Proof.
  intros H. revert js. induction H; intros js' J; inversion J; subst; try reflexivity; try contradiction.
  - apply IHasn1_items. assumption.
  - match goal with Q : at_meta a = MList ?x, R : at_meta a = MList ?y |- _ => rewrite Q in R; injection R as <- end.
    match goal with Q : item_text _ ?x, R : item_text _ ?y |- ?x ++ _ = ?y ++ _ => rewrite (item_text_unique _ _ _ Q R) end.
    f_equal. apply IHasn1_items. assumption.
Qed.
Lemma asn1_items_prefix (l : list attr) (a : attr) (is : list item) :
  asn1_items (l ++ [a]) is ->
  exists js ks, is = js ++ ks /\ asn1_items l js
                /\ (~ named a "asn1" /\ ks = [] \/ named a "asn1" /\ exists ts, at_meta a = MList ts /\ item_text ts ks).
Proof.
  revert is. induction l as [|b l IH]; intros is H; cbn [app] in H.
  - inversion H; subst.
    + inversion H4; subst. exists [], []. split; [reflexivity|]. split; [constructor|]. left. auto.
    + inversion H6; subst. exists [], is0. split; [rewrite app_nil_r; reflexivity|]. split; [constructor|]. right. split; [assumption|]. exists ts. auto.
  - inversion H; subst.
    + destruct (IH _ H4) as (js & ks & -> & A & R). exists js, ks. split; [reflexivity|]. split; [constructor; assumption|exact R].
    + destruct (IH _ H6) as (js0 & ks & -> & A & R). exists (is0 ++ js0), ks. split; [rewrite app_assoc; reflexivity|].
      split; [econstructor; eassumption|exact R].
Qed.

(** ** Fields *)

Ltac not_named H := unfold named in *; let X := fresh in intros X; rewrite H in X; vm_compute in X; discriminate.

Lemma field_attrs_snoc {E} (expr : list token -> option E) (f : field_info E) (l : list attr) (a : attr) :
  field_attrs expr f (l ++ [a]) = (let* f := field_attrs expr f l in field_attr expr f a).
Proof.
  revert f. induction l as [|b l IH]; intros f; cbn.
  - destruct (field_attr expr f a); reflexivity.
  - destruct (field_attr expr f b); cbn; try reflexivity. apply IH.
Qed.

Lemma item_says_fun {E} (expr : list token -> option E) (i : item) (e e' : E) : item_says expr i e -> item_says expr i e' -> e = e'.
Proof. intros (v & -> & X) (v' & Y & X'). injection Y as <-. congruence. Qed.
Lemma says_expr_fun {E} (expr : list token -> option E) (s : string) (a : attr) (e e' : E) :
  says_expr expr s a e -> says_expr expr s a e' -> e = e'.
Proof. intros (_ & v & M & X) (_ & v' & M' & X'). rewrite M in M'. injection M' as <-. congruence. Qed.

(** Running the closure of a field over items. *)
Lemma run_field {E} (expr : list token -> option E) (is : list item) (p p' : option E) :
  run (field_item expr) p is = Ok p' ->
  (forall i, In i is -> exists e, item_says expr i e)
  /\ forall js, latest (item_says expr) js p -> latest (item_says expr) (js ++ is) p'.
Proof.
  revert p. induction is as [|[w v] is IH]; intros p H; cbn [run] in H.
  - injection H as <-. split; [intros i []|]. intros js L. rewrite app_nil_r. exact L.
  - unfold field_item in H at 1. destruct (bytes_eqb w (chars "parse")) eqn:Ew; [|discriminate]. apply bytes_eqb_iff in Ew. subst w.
    destruct v as [v|]; [|discriminate]. destruct (expr v) as [e|] eqn:Ee; [|discriminate]. cbn [bind] in H.
    destruct (IH _ H) as [F L].
    assert (S : item_says expr (chars "parse", Some v) e) by (exists v; auto).
    split; [intros i [<-|I]; [exists e; exact S|exact (F _ I)]|].
    intros js Lj. change ((chars "parse", Some v) :: is) with ([(chars "parse", Some v)] ++ is). rewrite app_assoc. apply L.
    apply latest_app_new, latest_one. exact S.
Qed.
Lemma run_field_total {E} (expr : list token -> option E) (is : list item) (p : option E) :
  (forall i, In i is -> exists e, item_says expr i e) -> exists p', run (field_item expr) p is = Ok p'.
Proof.
  revert p. induction is as [|[w v] is IH]; intros p F; cbn [run]; [eexists; reflexivity|].
  destruct (F (w, v) (or_introl eq_refl)) as (e & v' & X & Ev). injection X as -> ->. unfold field_item at 1. rewrite bytes_eqb_same, Ev.
  cbn [bind]. apply IH. intros i I. apply F. right. exact I.
Qed.

Lemma latest_expr_keep {E} (expr : list token -> option E) (s : string) (l : list attr) (a : attr) (o : option E) :
  ~ named a s -> latest (says_expr expr s) l o -> latest (says_expr expr s) (l ++ [a]) o.
Proof. intros N. apply latest_app_keep. intros a' b [<-|[]] [X _]. exact (N X). Qed.
Lemma latest_expr_new {E} (expr : list token -> option E) (s : string) (l : list attr) (a : attr) (e : E) :
  named a s -> parse_expr expr (at_meta a) = Ok e -> latest (says_expr expr s) (l ++ [a]) (Some e).
Proof.
  intros N P. apply latest_app_new, latest_one. split; [exact N|]. unfold parse_expr in P. destruct (at_meta a) as [|ts|]; try discriminate.
  exists ts. split; [reflexivity|]. destruct (expr ts); [injection P as <-; reflexivity|discriminate].
Qed.
Lemma parse_expr_ok {E} (expr : list token -> option E) (m : meta) (e : E) :
  parse_expr expr m = Ok e <-> exists ts, m = MList ts /\ expr ts = Some e.
Proof.
  unfold parse_expr. split.
  - destruct m as [|ts|]; try discriminate. destruct (expr ts) eqn:X; [|discriminate]. intros [= <-]. exists ts. auto.
  - intros (ts & -> & ->). reflexivity.
Qed.

Lemma declares_step {E} (expr : list token -> option E) (l : list attr) (a : attr) (f f' : field_info E) :
  declares expr l f -> field_attr expr f a = Ok f' -> declares expr (l ++ [a]) f'.
Proof.
  intros [D1 D2 D3 D4 D5 D6] H. unfold field_attr in H.
  assert (Opt : forall b, fi_optional f' = b -> (named a "optional" \/ named a "default" -> b = true) ->
      (b = true -> fi_optional f = true \/ named a "optional" \/ named a "default") -> (fi_optional f = true -> b = true) ->
      (fi_optional f' = true <-> exists a', In a' (l ++ [a]) /\ (named a' "optional" \/ named a' "default"))).
  { intros b Eb B1 B2 B3. rewrite Eb. split.
    - intros T. destruct (B2 T) as [O|O].
      + destruct (proj1 D3 O) as (a' & I & N). exists a'. split; [apply in_or_app; left; exact I|exact N].
      + exists a. split; [apply in_or_app; right; left; reflexivity|exact O].
    - intros (a' & I & N). apply in_app_or in I. destruct I as [I|[<-|[]]].
      + apply B3. apply D3. exists a'. auto.
      + exact (B1 N). }
  assert (Exprs : (named a "map_err" \/ named a "default" -> exists ts e, at_meta a = MList ts /\ expr ts = Some e) ->
      forall a', In a' (l ++ [a]) -> named a' "map_err" \/ named a' "default" -> exists ts e, at_meta a' = MList ts /\ expr ts = Some e).
  { intros X a' I N. apply in_app_or in I. destruct I as [I|[<-|[]]]; [exact (D1 _ I N)|exact (X N)]. }
  assert (Items : ~ named a "asn1" -> fi_parse f' = fi_parse f ->
      exists is, asn1_items (l ++ [a]) is /\ (forall i, In i is -> exists e, item_says expr i e) /\ latest (item_says expr) is (fi_parse f')).
  { intros N ->. destruct D6 as (is & A & B & C). exists is. split; [apply asn1_items_skip; assumption|]. split; assumption. }
  destruct (at_name a) as [w|] eqn:Ea.
  2:{ injection H as <-. assert (N : forall s, ~ named a s) by (intros s; unfold named; rewrite Ea; discriminate).
      split.
      - apply Exprs. intros [X|X]; destruct (N _ X).
      - apply only_tag_keep; [intros [X|X]; destruct (N _ X)|exact D2].
      - apply (Opt (fi_optional f)); auto. intros [X|X]; destruct (N _ X).
      - apply latest_expr_keep; auto.
      - apply latest_expr_keep; auto.
      - apply Items; auto. }
  clear w Ea.
  destruct (is_ident a "map_err") eqn:I1.
  { apply is_ident_iff in I1. destruct (parse_expr expr (at_meta a)) as [e| | |] eqn:Pe; try discriminate. cbn [bind] in H. injection H as <-.
    split; cbn [fi_default fi_optional fi_tag fi_map_err fi_parse] in *.
    - apply Exprs. intros _. apply parse_expr_ok in Pe. destruct Pe as (ts & M & X). exists ts, e. auto.
    - apply only_tag_keep; [intros [X|X]; revert X; not_named I1|exact D2].
    - apply (Opt (fi_optional f)); auto. intros [X|X]; exfalso; revert X; not_named I1.
    - apply latest_expr_keep; [not_named I1|exact D4].
    - apply latest_expr_new; assumption.
    - apply Items; [not_named I1|reflexivity]. }
  apply is_ident_not in I1.
  destruct (is_ident a "default") eqn:I2.
  { apply is_ident_iff in I2. destruct (parse_expr expr (at_meta a)) as [e| | |] eqn:Pe; try discriminate. cbn [bind] in H. injection H as <-.
    split; cbn [fi_default fi_optional fi_tag fi_map_err fi_parse] in *.
    - apply Exprs. intros _. apply parse_expr_ok in Pe. destruct Pe as (ts & M & X). exists ts, e. auto.
    - apply only_tag_keep; [intros [X|X]; revert X; not_named I2|exact D2].
    - apply (Opt true); auto.
    - apply latest_expr_new; assumption.
    - apply latest_expr_keep; assumption.
    - apply Items; [not_named I2|reflexivity]. }
  apply is_ident_not in I2.
  assert (NoExpr : forall a', In a' (l ++ [a]) -> named a' "map_err" \/ named a' "default" -> exists ts e, at_meta a' = MList ts /\ expr ts = Some e)
    by (apply Exprs; intros [X|X]; contradiction).
  destruct (is_ident a "optional") eqn:I3.
  { apply is_ident_iff in I3. injection H as <-.
    split; cbn [fi_default fi_optional fi_tag fi_map_err fi_parse] in *; try assumption.
    - apply only_tag_keep; [intros [X|X]; revert X; not_named I3|exact D2].
    - apply (Opt true); auto.
    - apply latest_expr_keep; assumption.
    - apply latest_expr_keep; assumption.
    - apply Items; [not_named I3|reflexivity]. }
  apply is_ident_not in I3.
  assert (NoOpt : fi_optional f' = fi_optional f ->
      (fi_optional f' = true <-> exists a', In a' (l ++ [a]) /\ (named a' "optional" \/ named a' "default"))).
  { intros X. apply (Opt (fi_optional f)); auto. intros [Y|Y]; contradiction. }
  assert (Tag : forall k, set_tag k f (at_meta a) = Ok f' ->
      (named a "tag_explicit" /\ k = KExplicit \/ named a "tag_implicit" /\ k = KImplicit) -> ~ named a "asn1" -> declares expr (l ++ [a]) f').
  { intros k Hs K N. unfold set_tag in Hs. destruct (fi_tag f) as [g|] eqn:Ft; [discriminate|].
    destruct (parse_args parse_tag_args (at_meta a)) as [[c n]| | |] eqn:Pa; try discriminate. cbn [unwrap bind] in Hs. injection Hs as <-.
    split; cbn [fi_default fi_optional fi_tag fi_map_err fi_parse] in *; try assumption; auto.
    - apply only_tag_new; [|exact D2]. split.
      + destruct (at_meta a) as [|ts|]; try discriminate. exists ts. split; [reflexivity|]. apply tag_args_iff. exact Pa.
      + destruct K as [[K ->]|[K ->]]; [left|right]; split; auto.
    - apply latest_expr_keep; assumption.
    - apply latest_expr_keep; assumption. }
  destruct (is_ident a "tag_explicit") eqn:I4.
  { apply is_ident_iff in I4. apply (Tag KExplicit); [exact H|left; auto|not_named I4]. }
  apply is_ident_not in I4.
  destruct (is_ident a "tag_implicit") eqn:I5.
  { apply is_ident_iff in I5. apply (Tag KImplicit); [exact H|right; auto|not_named I5]. }
  apply is_ident_not in I5. clear Tag.
  assert (T : only_tag (l ++ [a]) (fi_tag f)) by (apply only_tag_keep; [intros [X|X]; contradiction|exact D2]).
  destruct (is_ident a "asn1") eqn:I6.
  { apply is_ident_iff in I6. destruct (parse_nested_meta (field_item expr) (fi_parse f) (at_meta a)) as [p| | |] eqn:Pn; try discriminate.
    cbn [bind] in H. injection H as <-.
    split; cbn [fi_default fi_optional fi_tag fi_map_err fi_parse] in *; try assumption; auto.
    - apply latest_expr_keep; assumption.
    - apply latest_expr_keep; assumption.
    - unfold parse_nested_meta in Pn. destruct (at_meta a) as [|ts|] eqn:Em; try discriminate.
      destruct (nested_text _ _ _ _ Pn) as (js & J). apply (nested_run _ _ _ J) in Pn. destruct (run_field _ _ _ _ Pn) as [F L].
      destruct D6 as (is & A & B & C). exists (is ++ js). split; [eapply asn1_items_attr; eassumption|]. split; [|apply L; exact C].
      intros i Ii. apply in_app_or in Ii. destruct Ii as [Ii|Ii]; auto. }
  apply is_ident_not in I6. injection H as <-.
  split; try assumption; auto.
  - apply latest_expr_keep; assumption.
  - apply latest_expr_keep; assumption.
Qed.

Lemma declares_sound {E} (expr : list token -> option E) (l : list attr) (f : field_info E) :
  field_try_from expr l = Ok f -> declares expr l f.
Proof.
  unfold field_try_from. revert f. induction l as [|a l IH] using rev_ind; intros f H.
  - injection H as <-. split; cbn.
    + intros a [].
    + intros a [].
    + split; [discriminate|]. intros (a & [] & _).
    + intros a b [].
    + intros a b [].
    + exists []. split; [constructor|]. split; [intros i []|intros i e []].
  - rewrite field_attrs_snoc in H. destruct (field_attrs expr _ l) as [f0| | |] eqn:F0; try discriminate. cbn [bind] in H.
    exact (declares_step _ _ _ _ _ (IH _ eq_refl) H).
Qed.

Lemma declares_unique {E} (expr : list token -> option E) (l : list attr) (f f' : field_info E) :
  declares expr l f -> declares expr l f' -> f = f'.
Proof.
  intros [_ T O D M (is & A & _ & P)] [_ T' O' D' M' (is' & A' & _ & P')].
  rewrite <- (asn1_items_unique _ _ _ A A') in P'.
  pose proof (only_tag_unique _ _ _ T T'). pose proof (latest_unique _ (says_expr_fun expr "default") _ _ _ D D').
  pose proof (latest_unique _ (says_expr_fun expr "map_err") _ _ _ M M'). pose proof (latest_unique _ (item_says_fun expr) _ _ _ P P').
  assert (fi_optional f = fi_optional f').
  { destruct (fi_optional f) eqn:X, (fi_optional f') eqn:Y; try reflexivity.
    - symmetry. apply O'. apply O. reflexivity.
    - apply O. apply O'. reflexivity. }
  destruct f, f'; cbn in *. congruence.
Qed.

Lemma only_tag_prefix (l : list attr) (a : attr) (o : option tagging) :
  only_tag (l ++ [a]) o -> ~ tag_attr a /\ only_tag l o \/ only_tag l None /\ exists g, o = Some g /\ gives_tag a g.
Proof.
  destruct o as [g|]; cbn.
  - intros (l1 & b & l2 & E & G & R). destruct (exists_last (l := b :: l2)) as (l3 & c & E2); [discriminate|].
    rewrite E2, app_assoc in E. apply app_inj_tail in E. destruct E as [-> <-].
    destruct l3 as [|b' l3].
    + injection E2 as -> ->. right. rewrite app_nil_r. split; [intros a' I; apply R; rewrite app_nil_r; exact I|]. exists g. auto.
    + injection E2 as <- ->. left. split; [apply R; rewrite !in_app_iff; right; right; left; reflexivity|].
      exists l1, b, l3. split; [reflexivity|]. split; [exact G|]. intros a' I. apply R. rewrite !in_app_iff in *. tauto.
  - intros H. left. split; [apply H; rewrite in_app_iff; right; left; reflexivity|]. intros a' I. apply H. rewrite in_app_iff. left. exact I.
Qed.

(** A declaration without faults is accepted. *)
Lemma declares_total {E} (expr : list token -> option E) (l : list attr) (o : option tagging) (is : list item) :
  (forall a, In a l -> named a "map_err" \/ named a "default" -> exists ts e, at_meta a = MList ts /\ expr ts = Some e) ->
  only_tag l o -> asn1_items l is -> (forall i, In i is -> exists e, item_says expr i e) ->
  exists f, field_try_from expr l = Ok f.
Proof.
  unfold field_try_from. revert o is. induction l as [|a l IH] using rev_ind; intros o is D1 D2 D3 D4; [eexists; reflexivity|].
  rewrite field_attrs_snoc.
  destruct (asn1_items_prefix _ _ _ D3) as (js & ks & -> & A & R).
  assert (P1 : forall a, In a l -> named a "map_err" \/ named a "default" -> exists ts e, at_meta a = MList ts /\ expr ts = Some e)
    by (intros a' I; apply D1; rewrite in_app_iff; left; exact I).
  assert (P4 : forall i, In i js -> exists e, item_says expr i e) by (intros i I; apply D4; rewrite in_app_iff; left; exact I).
  assert (Pa : named a "map_err" \/ named a "default" -> exists ts e, at_meta a = MList ts /\ expr ts = Some e)
    by (apply D1; rewrite in_app_iff; right; left; reflexivity).
  assert (F : exists f, field_attrs expr (mk_field None false None None None) l = Ok f).
  { destruct (only_tag_prefix _ _ _ D2) as [[_ T]|[T _]]; exact (IH _ _ P1 T A P4). }
  destruct F as (f & F). rewrite F. cbn [bind]. pose proof (declares_sound expr l f F) as [_ T _ _ _ _].
  unfold field_attr. destruct (at_name a) as [w|] eqn:Ea; [|eexists; reflexivity]. clear w Ea.
  destruct (is_ident a "map_err") eqn:I1.
  { apply is_ident_iff in I1. destruct (Pa (or_introl I1)) as (ts & e & M & X). rewrite (proj2 (parse_expr_ok expr _ e)); [eexists; reflexivity|].
    exists ts. auto. }
  destruct (is_ident a "default") eqn:I2.
  { apply is_ident_iff in I2. destruct (Pa (or_intror I2)) as (ts & e & M & X). rewrite (proj2 (parse_expr_ok expr _ e)); [eexists; reflexivity|].
    exists ts. auto. }
  destruct (is_ident a "optional"); [eexists; reflexivity|].
  assert (Tag : tag_attr a -> forall k, exists f', set_tag k f (at_meta a) = Ok f').
  { intros Ta k. destruct (only_tag_prefix _ _ _ D2) as [[N _]|[No (g & -> & G)]]; [contradiction|].
    unfold set_tag. rewrite (only_tag_unique _ _ _ T No).
    destruct G as [(ts & M & X) _]. rewrite M. apply tag_args_iff in X. rewrite X. eexists. reflexivity. }
  destruct (is_ident a "tag_explicit") eqn:I4; [apply Tag; left; apply is_ident_iff; exact I4|].
  destruct (is_ident a "tag_implicit") eqn:I5; [apply Tag; right; apply is_ident_iff; exact I5|].
  destruct (is_ident a "asn1") eqn:I6; [|eexists; reflexivity].
  apply is_ident_iff in I6. destruct R as [[N _]|[_ (ts & M & Tx)]]; [contradiction|].
  destruct (run_field_total expr ks (fi_parse f)) as (p' & Rp); [intros i I; apply D4; rewrite in_app_iff; right; exact I|].
  rewrite M. cbn [parse_nested_meta]. rewrite (proj2 (nested_run _ _ _ Tx _ _) Rp). eexists. reflexivity.
Qed.

(** ** C98: a field is what its attributes declare, or the declaration is refused *)

Theorem C98_field_exact {E} (expr : list token -> option E) (l : list attr) (f : field_info E) :
  field_try_from expr l = Ok f <-> declares expr l f.
Proof.
  split; [apply declares_sound|]. intros D. pose proof D as [D1 D2 _ _ _ (is & A & B & _)].
  destruct (declares_total expr l _ is D1 D2 A B) as (f' & F). rewrite F. f_equal.
  exact (declares_unique _ _ _ _ (declares_sound _ _ _ F) D).
Qed.
Print Assumptions C98_field_exact.

(** [#[tag_explicit(application 3)] #[default(1)] #[optional] #[default(2)]]: expressions are numbers here. *)
Definition number_expr (ts : list token) : option N := match ts with [Number n] => Some n | _ => None end.
Definition attr_of (s : string) (ts : list token) : attr := mk_attr (Some (chars s)) (MList ts).
Definition attr_alone (s : string) : attr := mk_attr (Some (chars s)) MPath.
Example C98_field_case :
  let l := [attr_of "tag_explicit" [Word (chars "application"); Number 3]; attr_of "default" [Number 1]; attr_alone "optional";
            attr_of "default" [Number 2]] in
  let f := mk_field (Some 2) true (Some (mk_tagging KExplicit Application 3)) None None in
  field_try_from number_expr l = Ok f /\ declares number_expr l f /\ field_read f = FormTaggedDefault (mk_tagging KExplicit Application 3) 2.
Proof.
  set (l := [_; _; _; _]). assert (H : field_try_from number_expr l = Ok (mk_field (Some 2) true (Some (mk_tagging KExplicit Application 3)) None None))
    by (vm_compute; reflexivity).
  split; [exact H|]. split; [apply C98_field_exact; exact H|reflexivity].
Qed.
(** Two tags, a number of more than 16 bits, an unknown class and a missing number are refused. *)
Example C98_field_refused :
  field_try_from number_expr [attr_of "tag_explicit" [Number 3]; attr_of "tag_implicit" [Number 3]] = Panic
  /\ field_try_from number_expr [attr_of "tag_explicit" [Number 65536]] = Panic
  /\ field_try_from number_expr [attr_of "tag_explicit" [Word (chars "PUBLIC"); Number 1]] = Panic
  /\ field_try_from number_expr [attr_alone "tag_explicit"] = Panic
  /\ field_try_from number_expr [attr_of "asn1" [Word (chars "encode"); Punct 61; Text [Number 1]]] = Err EUnsupported.
Proof. repeat split; vm_compute; reflexivity. Qed.

(** ** How a field is refused *)

Lemma nested_no_panic {S} (set : S -> list N -> option (list token) -> res S) : (forall s w v, set s w v <> Panic) ->
  forall n ts, (length ts <= n)%nat -> forall s, nested set s ts <> Panic.
Proof.
  intros N. induction n as [|n IH]; intros ts L s; destruct ts as [|[w|x|v|p|] ts]; cbn [nested]; try discriminate; [cbn in L; lia|].
  cbn [length] in L. destruct ts as [|[w'|x|v|p|] ts]; try discriminate; [apply N|]. cbn [length] in L.
  destruct (p =? 44). { destruct (set s w None) eqn:Q; cbn [bind]; try discriminate; [apply IH; lia|destruct (N _ _ _ Q)]. }
  destruct (p =? 61); [|discriminate]. destruct ts as [|[w'|x|v|q|] ts]; try discriminate. cbn [length] in L.
  destruct (set s w (Some v)) eqn:Q; cbn [bind]; try discriminate; [|destruct (N _ _ _ Q)].
  destruct ts as [|[w'|x|u|q'|] ts]; try discriminate. cbn [length] in L. destruct (q' =? 44); [apply IH; lia | discriminate].
Qed.
Lemma field_attr_panic {E} (expr : list token -> option E) (f : field_info E) (a : attr) :
  field_attr expr f a = Panic <-> tag_attr a /\ (fi_tag f <> None \/ forall g, ~ gives_tag a g).
Proof.
  unfold field_attr. destruct (at_name a) as [w|] eqn:Ea.
  2:{ split; [discriminate|]. intros [[H|H] _]; unfold named in H; rewrite Ea in H; discriminate. }
  assert (P : forall B (h : E -> res B), (forall e, h e <> Panic) -> bind (parse_expr expr (at_meta a)) h <> Panic).
  { intros B h H. unfold parse_expr. destruct (at_meta a) as [|ts|]; cbn [bind]; try discriminate. destruct (expr ts); cbn [bind]; [apply H | discriminate]. }
  assert (T : forall k, tag_attr a -> set_tag k f (at_meta a) = Panic <-> tag_attr a /\ (fi_tag f <> None \/ forall g, ~ gives_tag a g)).
  { intros k Ta. unfold set_tag. destruct (fi_tag f) as [g|].
    - split; [intros _; split; [exact Ta | left; discriminate] | reflexivity].
    - destruct (parse_args parse_tag_args (at_meta a)) as [[c n]| | |] eqn:Pa; cbn [unwrap bind].
      + split; [discriminate|]. intros [_ [H|H]]; [congruence|]. exfalso.
        destruct (at_meta a) as [|ts|] eqn:M; try discriminate. apply tag_args_iff in Pa.
        destruct Ta as [Ta|Ta]; [apply (H (mk_tagging KExplicit c n)) | apply (H (mk_tagging KImplicit c n))]; split; eauto.
      + split; [intros _; split; [exact Ta|right] | reflexivity]. intros g [(ts & M & X) _]. rewrite M in Pa. apply tag_args_iff in X. congruence.
      + split; [intros _; split; [exact Ta|right] | reflexivity]. intros g [(ts & M & X) _]. rewrite M in Pa. apply tag_args_iff in X. congruence.
      + split; [intros _; split; [exact Ta|right] | reflexivity]. intros g [(ts & M & X) _]. rewrite M in Pa. apply tag_args_iff in X. congruence. }
  assert (No : forall (r : res (field_info E)), r <> Panic -> ~ tag_attr a -> r = Panic <-> tag_attr a /\ (fi_tag f <> None \/ forall g, ~ gives_tag a g)).
  { intros r R N. split; [intros H; contradiction | intros [H _]; contradiction]. }
  destruct (is_ident a "map_err") eqn:I1. { apply is_ident_iff in I1. apply No; [apply P; discriminate|]. intros [X|X]; revert X; not_named I1. }
  destruct (is_ident a "default") eqn:I2. { apply is_ident_iff in I2. apply No; [apply P; discriminate|]. intros [X|X]; revert X; not_named I2. }
  destruct (is_ident a "optional") eqn:I3. { apply is_ident_iff in I3. apply No; [discriminate|]. intros [X|X]; revert X; not_named I3. }
  destruct (is_ident a "tag_explicit") eqn:I4. { apply is_ident_iff in I4. apply T. left. exact I4. }
  destruct (is_ident a "tag_implicit") eqn:I5. { apply is_ident_iff in I5. apply T. right. exact I5. }
  apply is_ident_not in I4. apply is_ident_not in I5.
  assert (N : ~ tag_attr a) by (intros [X|X]; contradiction).
  destruct (is_ident a "asn1"); apply No; try exact N; [|discriminate].
  unfold parse_nested_meta. destruct (at_meta a) as [|ts|]; cbn [bind]; try discriminate.
  destruct (nested (field_item expr) (fi_parse f) ts) eqn:Q; cbn [bind]; try discriminate. exfalso.
  refine (nested_no_panic _ _ (length ts) ts (le_n _) _ Q). intros s0 w0 v. unfold field_item.
  destruct (bytes_eqb _ _); [|discriminate]. destruct v as [v|]; [|discriminate]. destruct (expr v); discriminate.
Qed.
Lemma field_attrs_panic {E} (expr : list token -> option E) (l : list attr) : forall f,
  field_attrs expr f l = Panic <-> exists l1 a l2 f', l = l1 ++ a :: l2 /\ field_attrs expr f l1 = Ok f' /\ field_attr expr f' a = Panic.
Proof.
  induction l as [|a l IH]; intros f; cbn [field_attrs].
  - split; [discriminate|]. intros (l1 & a & l2 & f' & H & _). destruct l1; discriminate.
  - destruct (field_attr expr f a) as [g|e|n|] eqn:F; cbn [bind].
    + rewrite IH. split.
      * intros (l1 & b & l2 & f' & -> & H & B). exists (a :: l1), b, l2, f'. cbn [field_attrs]. rewrite F. auto.
      * intros (l1 & b & l2 & f' & H & A & B). destruct l1 as [|a' l1]; injection H as <- ->.
        -- cbn [field_attrs] in A. injection A as <-. congruence.
        -- cbn [field_attrs] in A. rewrite F in A. eauto 8.
    + split; [discriminate|]. intros (l1 & b & l2 & f' & H & A & B). destruct l1 as [|a' l1]; injection H as <- ->; cbn [field_attrs] in A.
      * injection A as <-. congruence.
      * rewrite F in A. discriminate.
    + split; [discriminate|]. intros (l1 & b & l2 & f' & H & A & B). destruct l1 as [|a' l1]; injection H as <- ->; cbn [field_attrs] in A.
      * injection A as <-. congruence.
      * rewrite F in A. discriminate.
    + split; [intros _ | reflexivity]. exists [], a, l, f. auto.
Qed.
(** The macro panics exactly at a second tag and at a tag whose arguments are malformed, when all attributes before are well formed; other
    refusals are errors. *)
Theorem C98_panics {E} (expr : list token -> option E) (l : list attr) :
  field_try_from expr l = Panic
  <-> exists l1 a l2 f, l = l1 ++ a :: l2 /\ declares expr l1 f /\ tag_attr a
      /\ ((exists a', In a' l1 /\ tag_attr a') \/ forall g, ~ gives_tag a g).
Proof.
  unfold field_try_from. rewrite field_attrs_panic. split.
  - intros (l1 & a & l2 & f & H & F & P). exists l1, a, l2, f. apply field_attr_panic in P. destruct P as [Ta P].
    pose proof (declares_sound expr l1 f F) as D. split; [exact H|]. split; [exact D|]. split; [exact Ta|].
    destruct P as [P|P]; [left|right; exact P]. pose proof (dc_tag _ _ _ D) as O. destruct (fi_tag f) as [g|]; [|congruence].
    destruct O as (m1 & b & m2 & -> & G & _). exists b. split; [apply in_or_app; right; left; reflexivity|].
    destruct G as [_ [[G _]|[G _]]]; [left|right]; exact G.
  - intros (l1 & a & l2 & f & H & D & Ta & P). exists l1, a, l2, f. apply C98_field_exact in D as F. split; [exact H|]. split; [exact F|].
    apply field_attr_panic. split; [exact Ta|]. destruct P as [(b & I & B)|P]; [left|right; exact P].
    pose proof (dc_tag _ _ _ D) as O. destruct (fi_tag f); [discriminate|]. destruct (O b I B).
Qed.
Print Assumptions C98_panics.
(** So a declaration can be refused by a panic. *)
Theorem C98_error_refuted :
  exists l, (forall f, ~ declares number_expr l f) /\ field_try_from number_expr l = Panic.
Proof.
  exists [attr_of "tag_explicit" [Number 3]; attr_of "tag_implicit" [Number 3]]. split; [|vm_compute; reflexivity].
  intros f D. apply C98_field_exact in D. vm_compute in D. discriminate.
Qed.
Print Assumptions C98_error_refuted.
Example C98_panics_case :
  field_try_from number_expr [attr_of "default" [Number 1]; attr_of "tag_implicit" [Number 70000]] = Panic
  /\ field_try_from number_expr [attr_of "default" []; attr_of "tag_implicit" [Number 70000]] = Err EUnsupported.
Proof. split; vm_compute; reflexivity. Qed.

(** The class of context-specific tags cannot be named: its name is no word of Rust. *)
Theorem C98_classes_refuted :
  exists c, (forall w n, ~ In 45 w -> ~ tag_text [Word w; Number n] c n)
  /\ field_try_from number_expr [attr_of "tag_explicit" [Word (chars "CONTEXT_SPECIFIC"); Number 0]] = Panic
  /\ field_try_from number_expr [attr_of "tag_explicit" [Word (chars "CONTEXT"); Punct 45; Word (chars "SPECIFIC"); Number 0]] = Panic.
Proof.
  exists ContextSpecific. split; [|split; vm_compute; reflexivity]. intros w n N H. inversion H as [|w' c' n' Hw Hn]; subst. apply N.
  assert (I : In 45 (chars (class_name ContextSpecific))) by (vm_compute; tauto). unfold spelled in Hw.
  clear - I Hw. revert I Hw. generalize (chars (class_name ContextSpecific)). intros l I Hw. revert I. induction Hw as [|u x l r X R IH]; intros I; [destruct I|]. destruct I as [->|I]; [left; unfold some_case in X; lia | right; auto].
Qed.
Print Assumptions C98_classes_refuted.
(** The three other classes can, in letters of any case. *)
Theorem C98_classes (c : class) (w : list N) (n : N) : c <> ContextSpecific -> n < 2 ^ 16 ->
  spelled w (class_name c) -> forall k E (expr : list token -> option E),
  field_try_from expr [attr_of (match k with KExplicit => "tag_explicit" | KImplicit => "tag_implicit" end) [Word w; Number n]]
  = Ok (mk_field None false (Some (mk_tagging k c n)) None None).
Proof.
  intros Hc Hn Hw k E expr. assert (T : tag_text [Word w; Number n] c n) by (constructor; assumption).
  apply tag_args_iff in T. destruct k; unfold field_try_from, field_attrs, field_attr, set_tag, attr_of; cbn [at_name at_meta fi_tag];
    rewrite T; reflexivity.
Qed.
Print Assumptions C98_classes.
Example C98_classes_case : spelled (chars "Private") (class_name Private) /\ spelled (chars "appl" ++ [0x131] ++ chars "cation") (class_name Application).
Proof. split; apply spelled_upper; vm_compute; reflexivity. Qed.

(** ** How a field is read *)

Definition no_custom {E} (expr : list token -> option E) (l : list attr) : Prop :=
  exists is, asn1_items l is /\ latest (item_says expr) is None.
Definition reads_as {E} (expr : list token -> option E) (l : list attr) (m : field_form E) : Prop :=
  match m with
  | FormCustom e => exists is, asn1_items l is /\ latest (item_says expr) is (Some e)
  | FormPlain => no_custom expr l /\ only_tag l None /\ ~ exists a, In a l /\ named a "default"
  | FormDefault d => no_custom expr l /\ only_tag l None /\ latest (says_expr expr "default") l (Some d)
  | FormTagged g => no_custom expr l /\ only_tag l (Some g) /\ ~ exists a, In a l /\ (named a "optional" \/ named a "default")
  | FormTaggedOptional g => no_custom expr l /\ only_tag l (Some g) /\ (exists a, In a l /\ named a "optional") /\ ~ exists a, In a l /\ named a "default"
  | FormTaggedDefault g d => no_custom expr l /\ only_tag l (Some g) /\ latest (says_expr expr "default") l (Some d)
  | FormTaggedRequired _ _ => False
  end.

Theorem C98_read {E} (expr : list token -> option E) (l : list attr) (f : field_info E) :
  field_try_from expr l = Ok f -> reads_as expr l (field_read f) /\ only_tag l (field_written f).
Proof.
  intros H. apply C98_field_exact in H. destruct H as [D1 D2 D3 D4 D5 (is & A & B & C)]. split; [|exact D2].
  assert (Hd : fi_default f = None -> ~ exists a, In a l /\ named a "default").
  { intros X (a & I & N). rewrite X in D4. destruct (D1 a I (or_intror N)) as (ts & e & M & Ee). apply (D4 a e I). split; [exact N|]. exists ts. auto. }
  unfold field_read. destruct (fi_parse f) as [e|]; [exists is; auto|].
  assert (NC : no_custom expr l) by (exists is; auto).
  destruct (fi_tag f) as [g|].
  - destruct (fi_optional f) eqn:O.
    + destruct (fi_default f) as [d|] eqn:Fd; cbn.
      * auto.
      * split; [exact NC|]. split; [exact D2|]. split; [|apply Hd; reflexivity].
        destruct (proj1 D3 eq_refl) as (a & I & [N|N]); [exists a; auto|]. exfalso. apply (Hd eq_refl). exists a. auto.
    + assert (NO : ~ exists a, In a l /\ (named a "optional" \/ named a "default")) by (intros X; apply D3 in X; discriminate).
      destruct (fi_default f) as [d|] eqn:Fd; cbn; [|auto].
      destruct D4 as (l1 & a & l2 & -> & [N _] & _). apply NO. exists a. split; [apply in_or_app; right; left; reflexivity|right; exact N].
  - destruct (fi_default f) as [d|] eqn:Fd; cbn; auto.
Qed.
Print Assumptions C98_read.

(** A field with a custom parser: its tag is written, but the generated code does not read it. *)
Theorem C98_custom_tag_refuted :
  exists l f e g, field_try_from number_expr l = Ok f /\ field_read f = FormCustom e /\ field_written f = Some g.
Proof.
  exists [attr_of "tag_explicit" [Number 0]; attr_of "asn1" [Word (chars "parse"); Punct 61; Text [Number 7]]]. do 3 eexists.
  split; [vm_compute; reflexivity|]. split; reflexivity.
Qed.
Print Assumptions C98_custom_tag_refuted.
(** [optional] on a field without a tag changes nothing: the type of the field decides. *)
Theorem C98_optional_untagged {E} (expr : list token -> option E) (l1 l2 : list attr) (f : field_info E) :
  field_try_from expr (l1 ++ attr_alone "optional" :: l2) = Ok f -> fi_tag f = None ->
  exists f', field_try_from expr (l1 ++ l2) = Ok f' /\ field_read f = field_read f' /\ field_written f = field_written f'.
Proof.
  unfold field_try_from. intros H T.
  assert (App : forall f l m, field_attrs expr f (l ++ m) = (let* f := field_attrs expr f l in field_attrs expr f m)).
  { intros f0 l m. revert f0. induction l as [|a l IH]; intros f0; [reflexivity|]. cbn. destruct (field_attr expr f0 a); cbn; auto. }
  rewrite App in *. destruct (field_attrs expr (mk_field None false None None None) l1) as [f1| | |]; try discriminate. cbn [bind] in *.
  cbn [field_attrs] in H. change (field_attr expr f1 (attr_alone "optional")) with
    (Ok (mk_field (fi_default f1) true (fi_tag f1) (fi_map_err f1) (fi_parse f1))) in H. cbn [bind] in H.
  pose (same := fun f f' : field_info E => fi_default f = fi_default f' /\ fi_tag f = fi_tag f' /\ fi_map_err f = fi_map_err f' /\ fi_parse f = fi_parse f').
  assert (Step : forall f f' a g, same f f' -> field_attr expr f a = Ok g -> exists g', field_attr expr f' a = Ok g' /\ same g g').
  { intros f0 f0' a g (S1 & S2 & S3 & S4) F. unfold field_attr in *. destruct (at_name a).
    2:{ injection F as <-. eexists. split; [reflexivity|]. repeat split; assumption. }
    destruct (is_ident a "map_err"). { destruct (parse_expr expr (at_meta a)); try discriminate. injection F as <-. eexists. split; [reflexivity|]. repeat split; assumption. }
    destruct (is_ident a "default"). { destruct (parse_expr expr (at_meta a)); try discriminate. injection F as <-. eexists. split; [reflexivity|]. repeat split; assumption. }
    destruct (is_ident a "optional"). { injection F as <-. eexists. split; [reflexivity|]. repeat split; assumption. }
    assert (Tag : forall k, set_tag k f0 (at_meta a) = Ok g -> exists g', set_tag k f0' (at_meta a) = Ok g' /\ same g g').
    { intros k. unfold set_tag. rewrite <- S2. destruct (fi_tag f0); [discriminate|].
      destruct (unwrap (parse_args parse_tag_args (at_meta a))) as [[c n]| | |]; try discriminate. intros X. injection X as <-.
      eexists. split; [reflexivity|]. repeat split; assumption. }
    destruct (is_ident a "tag_explicit"); [exact (Tag _ F)|].
    destruct (is_ident a "tag_implicit"); [exact (Tag _ F)|].
    destruct (is_ident a "asn1").
    { rewrite <- S4. destruct (parse_nested_meta (field_item expr) (fi_parse f0) (at_meta a)); try discriminate. injection F as <-.
      eexists. split; [reflexivity|]. repeat split; assumption. }
    injection F as <-. eexists. split; [reflexivity|]. repeat split; assumption. }
  assert (All : forall l f f' g, same f f' -> field_attrs expr f l = Ok g -> exists g', field_attrs expr f' l = Ok g' /\ same g g').
  { induction l as [|a l IH]; intros f0 f0' g S F; cbn [field_attrs] in *.
    - injection F as <-. eexists. split; [reflexivity|exact S].
    - destruct (field_attr expr f0 a) as [g0| | |] eqn:G; try discriminate. cbn [bind] in F. destruct (Step _ _ _ _ S G) as (g1 & -> & S1).
      cbn [bind]. exact (IH _ _ _ S1 F). }
  destruct (All l2 (mk_field (fi_default f1) true (fi_tag f1) (fi_map_err f1) (fi_parse f1)) f1 f (conj eq_refl (conj eq_refl (conj eq_refl eq_refl))) H)
    as (f' & F' & S1 & S2 & S3 & S4).
  exists f'. split; [exact F'|]. unfold field_read, field_written. rewrite <- S4, <- S2, <- S1, T. split; reflexivity.
Qed.
Print Assumptions C98_optional_untagged.

(** ** Options of a container *)

Definition rules_word (r : rules) : string := match r with RBer => "BER" | RDer => "DER" end.
(** ["BER,DER"] *)
Inductive rules_text : list token -> list rules -> Prop :=
| NoRules : rules_text [] []
| LastRules r : rules_text [Word (chars (rules_word r))] [r]
| MoreRules r ts rs : rules_text ts rs -> rules_text (Word (chars (rules_word r)) :: Punct 44 :: ts) (r :: rs).

Definition rules_say (s : string) (i : item) (rs : list rules) : Prop := exists v, i = (chars s, Some v) /\ rules_text v rs.
Definition kind_said (a : attr) (k : tag_kind) : Prop :=
  named a "tagged_explicit" /\ k = KExplicit \/ named a "tagged_implicit" /\ k = KImplicit.
Definition error_said (a : attr) (m : meta) : Prop := named a "error" /\ at_meta a = m.
Definition or_both (o : option (list rules)) : list rules := match o with Some rs => rs | None => [RBer; RDer] end.

Record options_declared (l : list attr) (o : options) : Prop := mk_options_declared {
  od_debug : op_debug o = true <-> exists a, In a l /\ named a "debug_derive";
  od_error : latest error_said l (op_error o);
  od_kind : latest kind_said l (op_tag_kind o);
  od_items : exists is p e, asn1_items l is
      /\ (forall i, In i is -> i = (chars "orig_input", None) \/ exists rs, rules_say "parse" i rs \/ rules_say "encode" i rs)
      /\ (op_orig_input o = true <-> In (chars "orig_input", None) is)
      /\ latest (rules_say "parse") is p /\ op_parsers o = or_both p
      /\ latest (rules_say "encode") is e /\ op_encoders o = or_both e }.

Lemma parse_rules_iff (w : list N) (r : rules) : parse_rules w = Ok r <-> w = chars (rules_word r).
Proof.
  unfold parse_rules. split.
  - destruct (bytes_eqb w (chars "BER")) eqn:E1; [apply bytes_eqb_iff in E1; intros [= <-]; exact E1|].
    destruct (bytes_eqb w (chars "DER")) eqn:E2; [apply bytes_eqb_iff in E2; intros [= <-]; exact E2|discriminate].
  - intros ->. destruct r; reflexivity.
Qed.
Lemma parse_multi_iff (ts : list token) (rs : list rules) : parse_multi ts = Ok rs <-> rules_text ts rs.
Proof.
  split.
  - remember (length ts) as n eqn:Hn. assert (Hle : (length ts <= n)%nat) by lia. clear Hn. revert ts rs Hle.
    induction n as [|n IH]; intros ts rs Hle H.
    + destruct ts; [injection H as <-; constructor|cbn in Hle; lia].
    + destruct ts as [|[w|m|v|c|] ts]; try discriminate; [injection H as <-; constructor|].
      cbn [parse_multi] in H. destruct (parse_rules w) as [r| | |] eqn:Er; try discriminate. cbn [bind] in H.
      apply parse_rules_iff in Er. subst w.
      destruct ts as [|[w|m|v|c|] ts]; try discriminate; [injection H as <-; constructor|].
      destruct (N.eqb_spec c 44) as [->|]; [|discriminate]. destruct (parse_multi ts) as [l| | |] eqn:El; try discriminate.
      injection H as <-. constructor. apply IH; [cbn in Hle; lia|exact El].
  - induction 1 as [|r|r ts rs H IH]; [reflexivity| |].
    + cbn [parse_multi]. rewrite (proj2 (parse_rules_iff _ r) eq_refl). reflexivity.
    + cbn [parse_multi]. rewrite (proj2 (parse_rules_iff _ r) eq_refl). cbn [bind]. rewrite N.eqb_refl, IH. reflexivity.
Qed.
Lemma rules_say_fun (s : string) (i : item) (a b : list rules) : rules_say s i a -> rules_say s i b -> a = b.
Proof. intros (v & -> & A) (v' & X & B). injection X as <-. apply parse_multi_iff in A. apply parse_multi_iff in B. congruence. Qed.

Definition known_item (i : item) : Prop :=
  i = (chars "orig_input", None) \/ exists rs, rules_say "parse" i rs \/ rules_say "encode" i rs.

Ltac other_item := let X := fresh in let v := fresh in intros v X _; destruct X as (? & X & _); vm_compute in X; discriminate.

Lemma options_item_ok (o o' : options) (i : item) : options_item o (fst i) (snd i) = Ok o' ->
  (i = (chars "orig_input", None) /\ o' = mk_options (op_debug o) (op_error o) (op_tag_kind o) true (op_parsers o) (op_encoders o))
  \/ (exists rs, rules_say "parse" i rs /\ o' = mk_options (op_debug o) (op_error o) (op_tag_kind o) (op_orig_input o) rs (op_encoders o))
  \/ (exists rs, rules_say "encode" i rs /\ o' = mk_options (op_debug o) (op_error o) (op_tag_kind o) (op_orig_input o) (op_parsers o) rs).
Proof.
  destruct i as [w v]. cbn [fst snd]. unfold options_item.
  destruct (bytes_eqb w (chars "parse")) eqn:E1.
  { apply bytes_eqb_iff in E1. subst w. destruct v as [v|]; [|discriminate]. destruct (parse_multi v) as [rs| | |] eqn:P; try discriminate.
    intros [= <-]. right. left. exists rs. split; [|reflexivity]. exists v. split; [reflexivity|apply parse_multi_iff; exact P]. }
  destruct (bytes_eqb w (chars "encode")) eqn:E2.
  { apply bytes_eqb_iff in E2. subst w. destruct v as [v|]; [|discriminate]. destruct (parse_multi v) as [rs| | |] eqn:P; try discriminate.
    intros [= <-]. right. right. exists rs. split; [|reflexivity]. exists v. split; [reflexivity|apply parse_multi_iff; exact P]. }
  destruct (bytes_eqb w (chars "orig_input")) eqn:E3; [|discriminate].
  apply bytes_eqb_iff in E3. subst w. destruct v; [discriminate|]. intros [= <-]. left. auto.
Qed.

(** What the items so far have set. *)
Definition items_set (is : list item) (o : options) : Prop :=
  exists p e, (op_orig_input o = true <-> In (chars "orig_input", None) is)
    /\ latest (rules_say "parse") is p /\ op_parsers o = or_both p
    /\ latest (rules_say "encode") is e /\ op_encoders o = or_both e.

Lemma items_set_step (is : list item) (o o' : options) (i : item) :
  items_set is o -> options_item o (fst i) (snd i) = Ok o' ->
  known_item i /\ items_set (is ++ [i]) o' /\ op_debug o' = op_debug o /\ op_error o' = op_error o /\ op_tag_kind o' = op_tag_kind o.
Proof.
  intros (p & e & O & P & Ep & En & Ee) H. unfold known_item.
  assert (Keep : forall s o, ~ (exists rs, rules_say s i rs) -> latest (rules_say s) is o -> latest (rules_say s) (is ++ [i]) o).
  { intros s q N. apply latest_app_keep. intros a b [<-|[]] X. apply N. exists b. exact X. }
  assert (In1 : i <> (chars "orig_input", None) -> (In (chars "orig_input", None) (is ++ [i]) <-> In (chars "orig_input", None) is)).
  { intros N. rewrite in_app_iff. cbn [In]. split; [intros [X|[X|[]]]; [exact X|congruence]|tauto]. }
  destruct (options_item_ok _ _ _ H) as [[-> ->]|[(rs & S & ->)|(rs & S & ->)]].
  - split; [left; reflexivity|]. split; [|auto]. exists p, e. cbn [op_orig_input op_parsers op_encoders].
    split; [split; [intros _; apply in_or_app; right; left; reflexivity|reflexivity]|].
    repeat split; try assumption; apply Keep; try assumption; intros (rs & v & X & _); vm_compute in X; discriminate.
  - split; [right; exists rs; left; exact S|]. split; [|auto]. exists (Some rs), e. cbn [op_orig_input op_parsers op_encoders].
    split; [rewrite In1; [exact O|intros ->; destruct S as (v & X & _); vm_compute in X; discriminate]|].
    split; [apply latest_app_new, latest_one; exact S|]. split; [reflexivity|]. split; [|exact Ee]. apply Keep; [|exact En].
    intros (rs' & v & X & _). destruct S as (v' & -> & _). vm_compute in X. discriminate.
  - split; [right; exists rs; right; exact S|]. split; [|auto]. exists p, (Some rs). cbn [op_orig_input op_parsers op_encoders].
    split; [rewrite In1; [exact O|intros ->; destruct S as (v & X & _); vm_compute in X; discriminate]|].
    split; [apply Keep; [|exact P]; intros (rs' & v & X & _); destruct S as (v' & -> & _); vm_compute in X; discriminate|].
    split; [exact Ep|]. split; [apply latest_app_new, latest_one; exact S|reflexivity].
Qed.
Lemma items_set_run (js is : list item) (o o' : options) :
  items_set is o -> run options_item o js = Ok o' ->
  (forall i, In i js -> known_item i) /\ items_set (is ++ js) o' /\ op_debug o' = op_debug o /\ op_error o' = op_error o /\ op_tag_kind o' = op_tag_kind o.
Proof.
  revert is o. induction js as [|[w v] js IH]; intros is o S H; cbn [run] in H.
  - injection H as <-. rewrite app_nil_r. split; [intros i []|]. auto.
  - destruct (options_item o w v) as [o1| | |] eqn:E; try discriminate. cbn [bind] in H.
    destruct (items_set_step is o o1 (w, v) S E) as (K & S1 & D & Er & Kd). destruct (IH _ _ S1 H) as (F & S2 & D2 & Er2 & Kd2).
    split; [intros i [<-|I]; auto|]. split; [rewrite <- app_assoc in S2; exact S2|]. repeat split; congruence.
Qed.
Lemma run_options_total (js : list item) (o : options) : (forall i, In i js -> known_item i) -> exists o', run options_item o js = Ok o'.
Proof.
  revert o. induction js as [|[w v] js IH]; intros o F; cbn [run]; [eexists; reflexivity|].
  assert (X : exists o1, options_item o w v = Ok o1).
  { destruct (F (w, v) (or_introl eq_refl)) as [X|(rs & [(t & X & R)|(t & X & R)])]; injection X as -> ->; apply parse_multi_iff in R || idtac.
    - eexists. reflexivity.
    - unfold options_item. rewrite bytes_eqb_same, R. eexists. reflexivity.
    - unfold options_item. rewrite bytes_eqb_same, R. eexists. reflexivity. }
  destruct X as (o1 & ->). cbn [bind]. apply IH. intros i I. apply F. right. exact I.
Qed.

Lemma options_attrs_snoc (o : options) (l : list attr) (a : attr) :
  options_attrs o (l ++ [a]) = (let* o := options_attrs o l in options_attr o a).
Proof.
  revert o. induction l as [|b l IH]; intros o; cbn.
  - destruct (options_attr o a); reflexivity.
  - destruct (options_attr o b); cbn; try reflexivity. apply IH.
Qed.

Lemma options_step (l : list attr) (a : attr) (o o' : options) :
  options_declared l o -> options_attr o a = Ok o' -> options_declared (l ++ [a]) o'.
Proof.
  intros [D1 D2 D3 (is & p & e & A & K & O & P & Ep & En & Ee)] H. unfold options_attr in H.
  assert (Dbg : ~ named a "debug_derive" -> (op_debug o = true <-> exists a', In a' (l ++ [a]) /\ named a' "debug_derive")).
  { intros N. rewrite D1. split; intros (a' & I & X); exists a'; (split; [|exact X]); rewrite in_app_iff in *.
    - left. exact I.
    - destruct I as [I|[<-|[]]]; [exact I|contradiction]. }
  assert (Err : ~ named a "error" -> latest error_said (l ++ [a]) (op_error o)).
  { intros N. apply latest_app_keep; [|exact D2]. intros a' b [<-|[]] [X _]. contradiction. }
  assert (Kd : ~ named a "tagged_explicit" -> ~ named a "tagged_implicit" -> latest kind_said (l ++ [a]) (op_tag_kind o)).
  { intros N1 N2. apply latest_app_keep; [|exact D3]. intros a' b [<-|[]] [[X _]|[X _]]; contradiction. }
  assert (It : ~ named a "asn1" -> exists is p e, asn1_items (l ++ [a]) is
      /\ (forall i, In i is -> known_item i) /\ (op_orig_input o = true <-> In (chars "orig_input", None) is)
      /\ latest (rules_say "parse") is p /\ op_parsers o = or_both p /\ latest (rules_say "encode") is e /\ op_encoders o = or_both e).
  { intros N. exists is, p, e. split; [apply asn1_items_skip; assumption|]. repeat split; try assumption; apply O. }
  destruct (is_ident a "debug_derive") eqn:I1.
  { apply is_ident_iff in I1. injection H as <-. split; cbn [op_debug op_error op_tag_kind op_orig_input op_parsers op_encoders].
    - split; [intros _; exists a; split; [apply in_or_app; right; left; reflexivity|exact I1]|reflexivity].
    - apply Err. not_named I1.
    - apply Kd; not_named I1.
    - apply It. not_named I1. }
  apply is_ident_not in I1.
  destruct (is_ident a "tagged_explicit") eqn:I2.
  { apply is_ident_iff in I2. injection H as <-. split; cbn [op_debug op_error op_tag_kind op_orig_input op_parsers op_encoders].
    - exact (Dbg I1).
    - apply Err. not_named I2.
    - apply latest_app_new, latest_one. left. auto.
    - apply It. not_named I2. }
  apply is_ident_not in I2.
  destruct (is_ident a "tagged_implicit") eqn:I3.
  { apply is_ident_iff in I3. injection H as <-. split; cbn [op_debug op_error op_tag_kind op_orig_input op_parsers op_encoders].
    - exact (Dbg I1).
    - apply Err. not_named I3.
    - apply latest_app_new, latest_one. right. auto.
    - apply It. not_named I3. }
  apply is_ident_not in I3.
  destruct (is_ident a "error") eqn:I4.
  { apply is_ident_iff in I4. injection H as <-. split; cbn [op_debug op_error op_tag_kind op_orig_input op_parsers op_encoders].
    - exact (Dbg I1).
    - apply latest_app_new, latest_one. split; [exact I4|reflexivity].
    - apply Kd; assumption.
    - apply It. not_named I4. }
  apply is_ident_not in I4.
  destruct (is_ident a "asn1") eqn:I5.
  { apply is_ident_iff in I5. unfold parse_nested_meta in H. destruct (at_meta a) as [|ts|] eqn:Em; try discriminate.
    destruct (nested_text _ _ _ _ H) as (js & J). apply (nested_run _ _ _ J) in H.
    destruct (items_set_run js is o o') as (F & (p' & e' & S) & E1 & E2 & E3); [exists p, e; repeat split; try assumption; apply O|exact H|].
    split.
    - rewrite E1. exact (Dbg I1).
    - rewrite E2. exact (Err I4).
    - rewrite E3. exact (Kd I2 I3).
    - exists (is ++ js), p', e'. split; [eapply asn1_items_attr; eassumption|]. split; [|exact S].
      intros i I. apply in_app_or in I. destruct I as [I|I]; [exact (K _ I)|exact (F _ I)]. }
  apply is_ident_not in I5. injection H as <-. split; auto.
Qed.

Lemma options_sound (l : list attr) (o : options) : options_from_struct l = Ok o -> options_declared l o.
Proof.
  unfold options_from_struct. revert o. induction l as [|a l IH] using rev_ind; intros o H.
  - injection H as <-. split; cbn.
    + split; [discriminate|]. intros (a & [] & _).
    + intros a b [].
    + intros a b [].
    + exists [], None, None. split; [constructor|]. split; [intros i []|]. split; [split; [discriminate|intros []]|].
      split; [intros a b []|]. split; [reflexivity|]. split; [intros a b []|reflexivity].
  - rewrite options_attrs_snoc in H. destruct (options_attrs _ l) as [o0| | |] eqn:F0; try discriminate. cbn [bind] in H.
    exact (options_step _ _ _ _ (IH _ eq_refl) H).
Qed.

Lemma bool_iff_eq (a b : bool) (P : Prop) : (a = true <-> P) -> (b = true <-> P) -> a = b.
Proof. destruct a, b; intros X Y; try reflexivity; [symmetry; apply Y, X|apply X, Y]; reflexivity. Qed.

Lemma options_unique (l : list attr) (o o' : options) : options_declared l o -> options_declared l o' -> o = o'.
Proof.
  intros [D1 D2 D3 (is & p & e & A & _ & O & P & Ep & En & Ee)] [D1' D2' D3' (is' & p' & e' & A' & _ & O' & P' & Ep' & En' & Ee')].
  rewrite <- (asn1_items_unique _ _ _ A A') in *. clear A A'.
  pose proof (latest_unique _ (rules_say_fun "parse") _ _ _ P P'). pose proof (latest_unique _ (rules_say_fun "encode") _ _ _ En En').
  assert (op_error o = op_error o') by (refine (latest_unique error_said _ l _ _ D2 D2'); intros a b b' [_ X] [_ Y]; congruence).
  assert (op_tag_kind o = op_tag_kind o').
  { refine (latest_unique kind_said _ l _ _ D3 D3'). intros a b b' [[N ->]|[N ->]] [[N' ->]|[N' ->]]; try reflexivity; exfalso; revert N'; not_named N. }
  pose proof (bool_iff_eq _ _ _ D1 D1'). pose proof (bool_iff_eq _ _ _ O O'). subst p' e'.
  destruct o, o'; cbn in *. congruence.
Qed.

Lemma options_total (l : list attr) (is : list item) : asn1_items l is -> (forall i, In i is -> known_item i) -> exists o, options_from_struct l = Ok o.
Proof.
  unfold options_from_struct. revert is. induction l as [|a l IH] using rev_ind; intros is A K; [eexists; reflexivity|].
  rewrite options_attrs_snoc. destruct (asn1_items_prefix _ _ _ A) as (js & ks & -> & Aj & R).
  destruct (IH js Aj) as (o & ->); [intros i I; apply K; apply in_or_app; left; exact I|]. cbn [bind]. unfold options_attr.
  destruct (is_ident a "debug_derive"); [eexists; reflexivity|].
  destruct (is_ident a "tagged_explicit"); [eexists; reflexivity|].
  destruct (is_ident a "tagged_implicit"); [eexists; reflexivity|].
  destruct (is_ident a "error"); [eexists; reflexivity|].
  destruct (is_ident a "asn1") eqn:I; [|eexists; reflexivity]. apply is_ident_iff in I.
  destruct R as [[N _]|[_ (ts & M & T)]]; [contradiction|]. rewrite M. cbn [parse_nested_meta].
  destruct (run_options_total ks o) as (o' & Ho); [intros i Ii; apply K; apply in_or_app; right; exact Ii|].
  exists o'. apply (nested_run _ _ _ T). exact Ho.
Qed.

Theorem C98_options_exact (l : list attr) (o : options) : options_from_struct l = Ok o <-> options_declared l o.
Proof.
  split; [apply options_sound|]. intros D. pose proof D as [_ _ _ (is & p & e & A & K & _)].
  destruct (options_total l is A K) as (o' & H). rewrite H. f_equal. exact (options_unique _ _ _ (options_sound _ _ H) D).
Qed.
Print Assumptions C98_options_exact.

(** [#[asn1(parse = "DER", encode = "")]] generates the DER parser only; without the attribute everything is generated. *)
Example C98_options_case :
  exists o o', options_from_struct [attr_of "asn1" [Word (chars "parse"); Punct 61; Text [Word (chars "DER")]; Punct 44;
                                                    Word (chars "encode"); Punct 61; Text []]] = Ok o
  /\ options_from_struct [] = Ok o'
  /\ new_traits o = [TTagged; TParser RDer]
  /\ new_traits o' = [TTagged; TParser RBer; TParser RDer; TEncoder RBer; TEncoder RDer].
Proof. do 2 eexists. repeat split; vm_compute; reflexivity. Qed.

(** Which readers and writers a derive generates. *)
Theorem C98_generated (l : list attr) (o : options) (is : list item) (p e : option (list rules)) :
  options_from_struct l = Ok o -> asn1_items l is -> latest (rules_say "parse") is p -> latest (rules_say "encode") is e ->
  forall r, (In (TParser r) (new_traits o) <-> In r (or_both p)) /\ (In (TEncoder r) (new_traits o) <-> In r (or_both e)).
Proof.
  intros H A P En r. apply options_sound in H. destruct H as [_ _ _ (is' & p' & e' & A' & _ & _ & P' & Ep & En' & Ee)].
  rewrite (asn1_items_unique _ _ _ A' A) in *.
  pose proof (latest_unique _ (rules_say_fun "parse") _ _ _ P P'). pose proof (latest_unique _ (rules_say_fun "encode") _ _ _ En En'). subst p' e'.
  rewrite <- Ep, <- Ee. clear.
  assert (Ex : forall r l, existsb (rules_eqb r) l = true <-> In r l).
  { intros s l. rewrite existsb_exists. split.
    - intros (x & I & E). destruct s, x; cbn in E; try discriminate; exact I.
    - intros I. exists s. split; [exact I|destruct s; reflexivity]. }
  assert (Wh : forall b (x t : trait), In t (when b x) <-> b = true /\ x = t).
  { intros [] x t; cbn; split; [intros [X|[]]|intros [_ X]|intros []|intros [X _]]; auto; discriminate. }
  unfold new_traits, has_parser, has_encoder. rewrite <- !Ex, !in_app_iff, !Wh. cbn [In].
  destruct r; split; (split; [intros X|intros X]); intuition (try discriminate; try congruence).
Qed.
Print Assumptions C98_generated.

(** Attributes that contradict each other are accepted: the last one counts. *)
Theorem C98_contradiction_refuted :
  exists o o', options_from_struct [attr_alone "tagged_explicit"; attr_alone "tagged_implicit"] = Ok o /\ op_tag_kind o = Some KImplicit
  /\ options_from_struct [attr_alone "tagged_implicit"; attr_alone "tagged_explicit"] = Ok o' /\ op_tag_kind o' = Some KExplicit.
Proof. do 2 eexists. repeat split; vm_compute; reflexivity. Qed.
Print Assumptions C98_contradiction_refuted.

(** ** Numbers of variants *)

(** The first attribute [tag] of a variant. *)
Definition variant_says (l : list attr) (o : option N) : Prop :=
  match o with
  | None => forall a, In a l -> ~ named a "tag"
  | Some n => exists l1 a l2, l = l1 ++ a :: l2 /\ (forall a', In a' l1 -> ~ named a' "tag")
                              /\ named a "tag" /\ at_meta a = MList [Number n] /\ n < 2 ^ 32
  end.
(** A number given, or one more than the one before, or 0. *)
Inductive numbered : N -> list (option N) -> list N -> Prop :=
| NumberedNil c : numbered c [] []
| NumberedGiven c n os ns : numbered (n + 1) os ns -> numbered c (Some n :: os) (n :: ns)
| NumberedNext c os ns : numbered (c + 1) os ns -> numbered c (None :: os) (c :: ns).

Lemma variant_tag_iff (l : list attr) (o : option N) : get_variant_tag l = Ok o <-> variant_says l o.
Proof.
  induction l as [|a l IH].
  - cbn. destruct o as [n|]; cbn; split; try discriminate; try (intros _; tauto).
    intros ([|? ?] & ? & ? & E & _); discriminate.
  - cbn [get_variant_tag]. destruct (is_ident a "tag") eqn:I.
    + apply is_ident_iff in I. split.
      * intros H. unfold parse_args, parse_number in H. destruct (at_meta a) as [|ts|] eqn:M; try discriminate.
        destruct ts as [|[w|n|v|c|] ts]; try discriminate. destruct (N.ltb_spec n (2 ^ 32)); [|discriminate].
        cbn [bind] in H. destruct ts; [|discriminate]. injection H as <-. exists [], a, l. cbn. auto.
      * intros H. destruct o as [n|]; cbn in H.
        -- destruct H as ([|b l1] & a' & l2 & E & N & T & M & L).
           ++ injection E as -> ->. rewrite M. unfold parse_args, parse_number. apply N.ltb_lt in L. rewrite L. reflexivity.
           ++ injection E as -> ->. exfalso. exact (N b (or_introl eq_refl) I).
        -- exfalso. exact (H a (or_introl eq_refl) I).
    + apply is_ident_not in I. rewrite IH. destruct o as [n|]; cbn; split.
      * intros (l1 & a' & l2 & -> & N & T). exists (a :: l1), a', l2. split; [reflexivity|]. split; [|exact T].
        intros b [<-|Ib]; [exact I|exact (N b Ib)].
      * intros ([|b l1] & a' & l2 & E & N & T & R); injection E as -> ->; [contradiction|]. exists l1, a', l2.
        split; [reflexivity|]. split; [intros c Ic; apply N; right; exact Ic|auto].
      * intros N b [<-|Ib]; [exact I|exact (N b Ib)].
      * intros N b Ib. apply N. right. exact Ib.
Qed.

Lemma existsb_eqb (n : N) (l : list N) : existsb (N.eqb n) l = true <-> In n l.
Proof.
  rewrite existsb_exists. split; [intros (x & I & E); apply N.eqb_eq in E; subst; exact I|]. intros I. exists n. split; [exact I|apply N.eqb_refl].
Qed.

Lemma variant_numbers_iff (vs : list (list attr)) : forall c acc ts, NoDup acc -> Forall (fun n => n < 2 ^ 32 - 1) acc -> c <= 2 ^ 32 - 1 ->
  (variant_numbers c acc vs = Ok ts <->
   exists os ns, Forall2 variant_says vs os /\ numbered c os ns /\ ts = acc ++ ns /\ NoDup ts /\ Forall (fun n => n < 2 ^ 32 - 1) ts).
Proof.
  induction vs as [|v vs IH]; intros c acc ts Na Fa Hc; cbn [variant_numbers].
  - split.
    + intros [= <-]. exists [], []. rewrite app_nil_r. repeat split; try assumption; constructor.
    + intros (os & ns & F & Nu & -> & _). inversion F; subst. inversion Nu; subst. rewrite app_nil_r. reflexivity.
  - assert (Step : forall o t, variant_says v o -> t = match o with Some t => t | None => c end -> t <= 2 ^ 32 - 1 ->
      ((if existsb (N.eqb t) acc then Err EUnsupported else if t =? 2 ^ 32 - 1 then Panic else variant_numbers (t + 1) (acc ++ [t]) vs) = Ok ts <->
       exists os ns, Forall2 variant_says (v :: vs) os /\ numbered c os ns /\ ts = acc ++ ns /\ NoDup ts /\ Forall (fun n => n < 2 ^ 32 - 1) ts)).
    { intros o t V Et Ht.
      assert (Mk : forall ns, NoDup (acc ++ t :: ns) -> Forall (fun n => n < 2 ^ 32 - 1) (acc ++ t :: ns) ->
                existsb (N.eqb t) acc = false /\ (t =? 2 ^ 32 - 1) = false).
      { intros ns D F. split.
        - destruct (existsb (N.eqb t) acc) eqn:X; [|reflexivity]. apply existsb_eqb in X. apply NoDup_remove_2 in D. exfalso. apply D.
          apply in_or_app. left. exact X.
        - apply Forall_app in F. destruct F as [_ F]. inversion F; subst. apply N.eqb_neq. lia. }
      split.
      - intros H. destruct (existsb (N.eqb t) acc) eqn:X; [discriminate|]. destruct (N.eqb_spec t (2 ^ 32 - 1)); [discriminate|].
        assert (Nt : ~ In t acc) by (intros I; apply existsb_eqb in I; congruence).
        apply IH in H; [| | |lia].
        + destruct H as (os & ns & F & Nu & -> & D & Fn). exists (o :: os), (t :: ns).
          split; [constructor; assumption|]. split; [destruct o; subst; constructor; exact Nu|].
          rewrite <- app_assoc in *. auto.
        + rewrite <- (rev_involutive (acc ++ [t])). apply NoDup_rev. rewrite rev_app_distr. cbn. constructor; [rewrite <- in_rev; exact Nt|apply NoDup_rev; exact Na].
        + apply Forall_app. split; [exact Fa|]. constructor; [lia|constructor].
      - intros (os & ns & F & Nu & -> & D & Fn). inversion F as [|v' o' vs' os' V' F' E1 E2]; subst os.
        assert (o' = o) by (apply variant_tag_iff in V; apply variant_tag_iff in V'; congruence). subst o'.
        assert (exists ns', ns = t :: ns' /\ numbered (t + 1) os' ns') as (ns' & -> & Nu').
        { inversion Nu; subst; [eexists; split; [reflexivity|assumption]|eexists; split; [reflexivity|assumption]]. }
        destruct (Mk _ D Fn) as [-> ->].
        assert (P : NoDup ((acc ++ [t]) ++ ns') /\ Forall (fun n => n < 2 ^ 32 - 1) ((acc ++ [t]) ++ ns')) by (rewrite <- app_assoc; auto).
        apply IH.
        + destruct P as [P _]. clear -P. induction ns' as [|x xs IHx] using rev_ind; [rewrite app_nil_r in P; exact P|].
          apply IHx. rewrite app_assoc in P. apply NoDup_remove_1 in P. rewrite app_nil_r in P. exact P.
        + apply Forall_app in Fn. destruct Fn as [_ Fn]. inversion Fn; subst. apply Forall_app. split; [exact Fa|]. constructor; [assumption|constructor].
        + apply Forall_app in Fn. destruct Fn as [_ Fn]. inversion Fn; subst. lia.
        + exists os', ns'. split; [exact F'|]. split; [exact Nu'|]. rewrite <- app_assoc. auto. }
    destruct (get_variant_tag v) as [o| | |] eqn:G.
    + cbn [bind]. pose proof (proj1 (variant_tag_iff v o) G) as V. apply (Step o); [exact V|reflexivity|].
      destruct o as [n|]; [|exact Hc]. destruct V as (l1 & a & l2 & _ & _ & _ & _ & L). lia.
    + cbn [bind]. split; [discriminate|]. intros (os & ns & F & _). inversion F; subst. apply variant_tag_iff in H1. congruence.
    + cbn [bind]. split; [discriminate|]. intros (os & ns & F & _). inversion F; subst. apply variant_tag_iff in H1. congruence.
    + cbn [bind]. split; [discriminate|]. intros (os & ns & F & _). inversion F; subst. apply variant_tag_iff in H1. congruence.
Qed.

Theorem C98_variants_exact (vs : list (N * list attr)) (ts : list N) :
  parse_tag_variants vs = Ok ts <->
  (forall v, In v vs -> fst v = 1)
  /\ exists os, Forall2 variant_says (map snd vs) os /\ numbered 0 os ts /\ NoDup ts /\ Forall (fun n => n < 2 ^ 32 - 1) ts.
Proof.
  unfold parse_tag_variants. destruct (existsb (fun v => negb (fst v =? 1)) vs) eqn:X.
  - split; [discriminate|]. intros [H _]. apply existsb_exists in X. destruct X as (v & I & B). rewrite (H v I) in B. discriminate.
  - rewrite variant_numbers_iff by (try constructor; lia). split.
    + intros (os & ns & F & Nu & -> & D & L). split; [|exists os; auto]. intros v I.
      destruct (N.eqb_spec (fst v) 1) as [E|E]; [exact E|]. exfalso.
      rewrite <- not_true_iff_false in X. apply X, existsb_exists. exists v. split; [exact I|]. apply N.eqb_neq in E. rewrite E. reflexivity.
    + intros (_ & os & F & Nu & D & L). exists os, ts. auto.
Qed.
Print Assumptions C98_variants_exact.
Example C98_variants_case :
  parse_tag_variants [(1, []); (1, [attr_of "tag" [Number 4]]); (1, [])] = Ok [0; 4; 5]
  /\ parse_tag_variants [(1, [attr_of "tag" [Number 1]]); (1, [attr_of "tag" [Number 0]]); (1, [])] = Err EUnsupported
  /\ parse_tag_variants [(0, [])] = Err EUnsupported.
Proof. repeat split; vm_compute; reflexivity. Qed.
(** The largest number is not usable. *)
Theorem C98_largest_refuted : exists vs, parse_tag_variants vs = Panic /\ map snd vs = [[attr_of "tag" [Number (2 ^ 32 - 1)]]].
Proof. exists [(1, [attr_of "tag" [Number (2 ^ 32 - 1)]])]. split; vm_compute; reflexivity. Qed.
Print Assumptions C98_largest_refuted.

(** The discriminants of an enumeration. *)
Definition discriminant_says (v : option (list token)) (o : option N) : Prop :=
  match o with None => v = None | Some n => v = Some [Number n] /\ n < 2 ^ 32 end.
Lemma enum_numbers_iff (vs : list (option (list token))) : forall c ds, c <= 2 ^ 32 - 1 ->
  (enum_numbers c vs = Ok ds <-> exists os, Forall2 discriminant_says vs os /\ numbered c os ds /\ Forall (fun n => n < 2 ^ 32 - 1) ds).
Proof.
  induction vs as [|v vs IH]; intros c ds Hc; cbn [enum_numbers].
  - split; [intros [= <-]; exists []; repeat constructor|]. intros (os & F & Nu & _). inversion F; subst. inversion Nu; subst. reflexivity.
  - split.
    + intros H.
      assert (X : exists o d, discriminant_says v o /\ d = match o with Some n => n | None => c end /\ d <= 2 ^ 32 - 1
                /\ (if d =? 2 ^ 32 - 1 then Panic else let* r := enum_numbers (d + 1) vs in Ok (d :: r)) = Ok ds).
      { destruct v as [ts|].
        - destruct ts as [|[w|n|t|p|] [|t' ts]]; try discriminate. destruct (N.ltb_spec n (2 ^ 32)); [|discriminate]. cbn [bind] in H.
          exists (Some n), n. repeat split; auto. lia.
        - cbn [bind] in H. exists None, c. repeat split; auto. }
      destruct X as (o & d & S & Ed & Ld & H'). clear H. destruct (N.eqb_spec d (2 ^ 32 - 1)); [discriminate|].
      destruct (enum_numbers (d + 1) vs) as [r| | |] eqn:En; try discriminate. injection H' as <-.
      apply IH in En; [|lia]. destruct En as (os & F & Nu & L). exists (o :: os). split; [constructor; assumption|].
      split; [destruct o; subst; constructor; exact Nu|]. constructor; [lia|exact L].
    + intros (os & F & Nu & L). inversion F as [|v' o vs' os' S F' E1 E2]; subst os. 
      assert (exists d ns', ds = d :: ns' /\ d = match o with Some n => n | None => c end /\ numbered (d + 1) os' ns') as (d & ns' & -> & Ed & Nu').
      { inversion Nu; subst; do 2 eexists; (split; [reflexivity|]); auto. }
      inversion L as [|d' ns'' Ld L']; subst d' ns''.
      assert (En : enum_numbers (d + 1) vs = Ok ns') by (apply IH; [lia|]; exists os'; auto).
      assert (X : match v with
                  | Some [Number n] => if n <? 2 ^ 32 then Ok n else Err EUnsupported
                  | Some _ => Err EUnsupported
                  | None => Ok c
                  end = Ok d).
      { destruct o as [n|]; cbn in S; [destruct S as [-> Hn]; apply N.ltb_lt in Hn; rewrite Hn|subst v]; subst d; reflexivity. }
      rewrite X. cbn [bind]. destruct (N.eqb_spec d (2 ^ 32 - 1)); [lia|]. rewrite En. reflexivity.
Qed.
Theorem C98_enum_exact (vs : list (option (list token))) (ds : list N) :
  parse_enum_variants vs = Ok ds <->
  exists os, Forall2 discriminant_says vs os /\ numbered 0 os ds /\ Forall (fun n => n < 2 ^ 32 - 1) ds.
Proof. apply enum_numbers_iff. lia. Qed.
Print Assumptions C98_enum_exact.
Example C98_enum_case :
  parse_enum_variants [Some [Number 0]; Some [Number 4]; None] = Ok [0; 4; 5]
  /\ parse_enum_variants [Some [Punct 45; Number 1]] = Err EUnsupported.
Proof. split; vm_compute; reflexivity. Qed.

(** ** Shapes *)

(** An alias is a struct with one unnamed field, a sequence or set a struct without unnamed fields. *)
Theorem C98_shape_exact (c : container_type) (s : shape) :
  (exists b, container_is_any c s = Ok b) <-> (c = CAlias /\ exists t, s = Unnamed [t]) \/ (c <> CAlias /\ forall ts, s <> Unnamed ts).
Proof.
  split.
  - intros (b & H). destruct c, s as [|[|t [|u ts]]|]; try discriminate; try (left; split; [reflexivity|eexists; reflexivity]);
      right; (split; [discriminate|intros us X; discriminate]).
  - intros [[-> (t & ->)]|[N1 N2]].
    + destruct t; eexists; reflexivity.
    + destruct c, s as [|ts|]; try (exfalso; apply N1; reflexivity); try (exfalso; apply (N2 ts); reflexivity); eexists; reflexivity.
Qed.
Print Assumptions C98_shape_exact.

Lemma starts_with_iff (p s : list N) : starts_with p s = true <-> exists rest, s = p ++ rest.
Proof.
  revert s. induction p as [|a p IH]; intros s; [split; [exists s; reflexivity|reflexivity]|].
  destruct s as [|b s]; [split; [discriminate|intros (r & X); discriminate]|]. cbn [starts_with app]. rewrite andb_true_iff, IH, N.eqb_eq. split.
  - intros [-> (r & ->)]. exists r. reflexivity.
  - intros (r & X). injection X as -> ->. split; [reflexivity|exists r; reflexivity].
Qed.
(** An alias is treated as an alias of [Any] exactly when the text of its type begins with the letters Any. *)
Theorem C98_any_exact (w : list N) :
  container_is_any CAlias (Unnamed [Some w]) = Ok true <-> exists rest, w = chars "Any" ++ rest.
Proof.
  cbn [container_is_any]. rewrite <- starts_with_iff. split; [intros [= H]; exact H|intros ->; reflexivity].
Qed.
Print Assumptions C98_any_exact.
(** So is another type, and [Any] with a path before it is not. *)
Theorem C98_any_refuted :
  exists other any, other = chars "AnyString" /\ container_is_any CAlias (Unnamed [Some other]) = Ok true
  /\ any = chars "asn1_rs :: Any < 'a >" /\ container_is_any CAlias (Unnamed [Some any]) = Ok false.
Proof. do 2 eexists. repeat split. Qed.
Print Assumptions C98_any_refuted.

(** ** C99: several derives on one declaration *)

(** A path with one segment, as in [#[derive(Name)]]. *)
Definition plain (s : string) : option (list N) * list N := (Some (chars s), chars s).
Definition count (t : trait) (l : list trait) : nat :=
  length (filter (fun u => match t, u with
                           | TTagged, TTagged | TTryFrom, TTryFrom | TCheck, TCheck | TFromDer, TFromDer => true
                           | TParser a, TParser b | TEncoder a, TEncoder b => rules_eqb a b
                           | _, _ => false
                           end) l).
(** The older derives of parsers of a struct, and of its writers. *)
Definition reader_names : list string :=
  ["BerParserSequence"; "DerParserSequence"; "BerParserSet"; "DerParserSet"; "BerParserAlias"; "DerParserAlias"; "BerParserChoice";
   "DerParserChoice"; "BerSequence"; "DerSequence"; "BerSet"; "DerSet"]%string.
Definition writer_names : list string := ["ToBerSequence"; "ToDerSequence"; "ToBerSet"; "ToDerSet"]%string.
(** A name the check knows nothing of: it begins with none of the names of readers. *)
Definition stranger (w : list N) : Prop := forall s, In s reader_names -> ~ exists rest, w = chars s ++ rest.
Definition known_names : list string :=
  reader_names ++ writer_names ++ ["BerAlias"; "DerAlias"; "Sequence"; "Set"; "Choice"; "Enumerated"; "Alias"]%string.

(** What may stand in a [derive] attribute: a reader or a writer by its plain name, or a derive of another crate. *)
Inductive entry : bool -> option (list N) * list N -> Prop :=
| EReader s : In s reader_names -> entry true (plain s)
| EWriter s : In s writer_names -> entry false (plain s)
| EForeign q w : (forall s, In s known_names -> w <> chars s) -> (q = None \/ q = Some w /\ stranger w) -> entry false (q, w).
(** At most one reader in a line; [true] if there is one. *)
Inductive line_ok : bool -> list (option (list N) * list N) -> Prop :=
| LNil : line_ok false []
| LOther p l b : entry false p -> line_ok b l -> line_ok b (p :: l)
| LReader p l : entry true p -> line_ok false l -> line_ok true (p :: l).
Inductive lines_ok : bool -> list (list (option (list N) * list N)) -> Prop :=
| LsNil : lines_ok false []
| LsCons line b lines c : line_ok b line -> lines_ok c lines -> lines_ok (b || c) (line :: lines).

Lemma count_app (t : trait) (a b : list trait) : count t (a ++ b) = (count t a + count t b)%nat.
Proof. unfold count. rewrite filter_app, app_length. reflexivity. Qed.

Lemma patterns_readers (w : list N) : existsb (fun s => starts_with (chars s) w) patterns = true <-> exists s, In s reader_names /\ exists rest, w = chars s ++ rest.
Proof.
  rewrite existsb_exists. split; intros (s & I & H); exists s; rewrite <- starts_with_iff in *; (split; [|exact H]); cbn in *; tauto.
Qed.
Lemma writer_stranger (s : string) : In s writer_names -> stranger (chars s).
Proof.
  intros I s' I' (r & X). assert (B : starts_with (chars s') (chars s) = true) by (apply starts_with_iff; exists r; exact X).
  revert B. clear X. cbn in I, I'.
  repeat (destruct I as [<-|I]; [repeat (destruct I' as [<-|I']; [vm_compute; discriminate|]); destruct I'|]). destruct I.
Qed.

Lemma entry_seen (b : bool) p : entry b p -> other_derive (fst p) = b.
Proof.
  intros [s I|s I|q w N [->|[-> S]]]; cbn [fst plain other_derive]; try reflexivity.
  - apply patterns_readers. exists s. split; [exact I|]. exists []. rewrite app_nil_r. reflexivity.
  - apply not_true_iff_false. rewrite patterns_readers. intros (s' & I' & X). exact (writer_stranger s I s' I' X).
  - apply not_true_iff_false. rewrite patterns_readers. intros (s' & I' & X). exact (S s' I' X).
Qed.
Lemma line_seen (b : bool) l : line_ok b l -> existsb other_derive (map fst l) = b.
Proof.
  induction 1 as [|p l b E H IH|p l E H IH]; cbn [map existsb]; [reflexivity| |]; rewrite (entry_seen _ _ E); [exact IH|reflexivity].
Qed.
Lemma lines_seen (b : bool) ls : lines_ok b ls -> check_lastderive (map (map fst) ls) = negb b.
Proof.
  unfold check_lastderive. intros H. f_equal. induction H as [|line b lines c L H IH]; [reflexivity|]. cbn [map existsb]. rewrite (line_seen _ _ L), IH. reflexivity.
Qed.

Lemma foreign_traits (o : options) (last : bool) (w : list N) : (forall s, In s known_names -> w <> chars s) -> derive_traits o last w = [].
Proof.
  intros N. unfold derive_traits.
  assert (F : forall s, In s known_names -> bytes_eqb w (chars s) = false).
  { intros s I. apply not_true_iff_false. rewrite bytes_eqb_iff. exact (N s I). }
  rewrite !F by (cbn; tauto). reflexivity.
Qed.
Ltac open_options :=
  unfold derive_traits, new_traits;
  match goal with o : options |- _ =>
    generalize (has_parser o RBer) as p; intros p; generalize (has_parser o RDer) as q; intros q;
    generalize (has_encoder o RBer) as r; intros r; generalize (has_encoder o RDer) as u; intros u; clear o
  end.
(** Finitely many cases: what is generated depends on four bits of the options. *)
Definition canon (p q r u : bool) : options :=
  mk_options false None None false (when p RBer ++ when q RDer) (when r RBer ++ when u RDer).
Lemma derive_traits_canon (o : options) (last : bool) (w : list N) :
  derive_traits o last w
  = derive_traits (canon (has_parser o RBer) (has_parser o RDer) (has_encoder o RBer) (has_encoder o RDer)) last w.
Proof.
  generalize (eq_refl (has_parser o RBer)), (eq_refl (has_parser o RDer)), (eq_refl (has_encoder o RBer)), (eq_refl (has_encoder o RDer)).
  generalize (has_parser o RBer) at -2 as p. generalize (has_parser o RDer) at -2 as q.
  generalize (has_encoder o RBer) at -2 as r. generalize (has_encoder o RDer) at -2 as u. intros u r q p P Q R U.
  assert (P' : has_parser (canon p q r u) RBer = p) by (destruct p, q; reflexivity).
  assert (Q' : has_parser (canon p q r u) RDer = q) by (destruct p, q; reflexivity).
  assert (R' : has_encoder (canon p q r u) RBer = r) by (destruct r, u; reflexivity).
  assert (U' : has_encoder (canon p q r u) RDer = u) by (destruct r, u; reflexivity).
  unfold derive_traits, new_traits. rewrite P', Q', R', U', P, Q, R, U. reflexivity.
Qed.
Definition all_traits : list trait := [TTagged; TTryFrom; TCheck; TFromDer; TParser RBer; TParser RDer; TEncoder RBer; TEncoder RDer].
Definition bools : list bool := [true; false].
Definition every (names : list string) (f : options -> bool -> string -> trait -> bool) : bool :=
  forallb (fun s => forallb (fun last => forallb (fun p => forallb (fun q => forallb (fun r => forallb (fun u =>
    let o := canon p q r u in forallb (f o last s) all_traits) bools) bools) bools) bools) bools) names.
Lemma every_sound (names : list string) (f : options -> bool -> string -> trait -> bool) : every names f = true ->
  forall p q r u last s t, In s names -> f (canon p q r u) last s t = true.
Proof.
  intros H p q r u last s t I. unfold every in H.
  assert (B : forall b : bool, In b bools) by (intros []; cbn; tauto).
  rewrite forallb_forall in H. specialize (H s I). rewrite forallb_forall in H. specialize (H last (B last)).
  rewrite forallb_forall in H. specialize (H p (B p)). rewrite forallb_forall in H. specialize (H q (B q)).
  rewrite forallb_forall in H. specialize (H r (B r)). rewrite forallb_forall in H. specialize (H u (B u)).
  cbn zeta in H. rewrite forallb_forall in H. apply H. destruct t as [| | | |[]|[]]; cbn; tauto.
Qed.
Lemma reader_tagged (o : options) (last : bool) (s : string) : In s reader_names ->
  count TTagged (derive_traits o last (chars s)) = if last then 1%nat else 0%nat.
Proof.
  intros I. rewrite derive_traits_canon. apply Nat.eqb_eq.
  refine (every_sound reader_names (fun o last s _ => count TTagged (derive_traits o last (chars s)) =? if last then 1 else 0)%nat _
            _ _ _ _ _ _ TTagged I).
  vm_compute; reflexivity.
Qed.
Lemma writer_tagged (o : options) (last : bool) (s : string) : In s writer_names -> count TTagged (derive_traits o last (chars s)) = 0%nat.
Proof.
  intros I. rewrite derive_traits_canon. apply Nat.eqb_eq.
  refine (every_sound writer_names (fun o last s _ => count TTagged (derive_traits o last (chars s)) =? 0)%nat _ _ _ _ _ last _ TTagged I).
  vm_compute; reflexivity.
Qed.
Lemma entry_tagged (o : options) (last b : bool) p : entry b p -> count TTagged (derive_traits o last (snd p)) = if (b && last)%bool then 1%nat else 0%nat.
Proof.
  intros [s I|s I|q w N _]; cbn [snd plain andb].
  - apply reader_tagged. exact I.
  - apply writer_tagged. exact I.
  - rewrite foreign_traits by exact N. reflexivity.
Qed.
Lemma line_tagged (o : options) (last b : bool) l : line_ok b l ->
  count TTagged (flat_map (fun p => derive_traits o last (snd p)) l) = if (b && last)%bool then 1%nat else 0%nat.
Proof.
  induction 1 as [|p l b E H IH|p l E H IH]; cbn [flat_map]; [reflexivity| |]; rewrite count_app, IH, (entry_tagged _ _ _ _ E); cbn [andb].
  - reflexivity.
  - destruct last; reflexivity.
Qed.

(** With at most one reader in each [derive] attribute, [Tagged] is implemented exactly once, or not at all if there is no reader. *)
Theorem C99_once (o : options) (b : bool) (lines : list (list (option (list N) * list N))) :
  lines_ok b lines -> count TTagged (declaration_traits o lines) = if b then 1%nat else 0%nat.
Proof.
  induction 1 as [|line b lines c L H IH]; [reflexivity|]. cbn [declaration_traits]. rewrite count_app, IH, (line_tagged _ _ _ _ L).
  rewrite (lines_seen _ _ H). destruct b, c; reflexivity.
Qed.
Print Assumptions C99_once.

(** What the documentation says a derive implements, besides the tag (src/derive.rs). *)
Definition implements (w : list N) : list trait :=
  let is s := bytes_eqb w (chars s) in
  if (is "BerParserSequence" || is "BerParserSet" || is "BerParserAlias" || is "BerParserChoice")%string then [TParser RBer]
  else if (is "DerParserSequence" || is "DerParserSet" || is "DerParserAlias" || is "DerParserChoice")%string then [TParser RDer]
  else if (is "ToBerSequence" || is "ToBerSet")%string then [TEncoder RBer]
  else if (is "ToDerSequence" || is "ToDerSet")%string then [TEncoder RDer]
  else if (is "BerSequence" || is "BerSet")%string then [TTryFrom]
  else if (is "DerSequence" || is "DerSet")%string then [TTryFrom; TCheck; TFromDer]
  else [].
Definition asked (lines : list (list (option (list N) * list N))) : list trait :=
  flat_map (flat_map (fun p => implements (snd p))) lines.

Lemma count_none (t : trait) (l : list trait) : count t l = 0%nat <-> ~ In t l.
Proof.
  unfold count. split.
  - intros H I. assert (X : In t (filter (fun u => match t, u with
                           | TTagged, TTagged | TTryFrom, TTryFrom | TCheck, TCheck | TFromDer, TFromDer => true
                           | TParser a, TParser b | TEncoder a, TEncoder b => rules_eqb a b
                           | _, _ => false
                           end) l)).
    { apply filter_In. split; [exact I|]. destruct t as [| | | |[]|[]]; reflexivity. }
    destruct (filter _ l); [destruct X|discriminate].
  - intros N. destruct (filter _ l) as [|u r] eqn:F; [reflexivity|]. exfalso. apply N.
    assert (X : In u (u :: r)) by (left; reflexivity). rewrite <- F in X. apply filter_In in X. destruct X as [X Y].
    destruct t as [| | | |[]|[]], u as [| | | |[]|[]]; cbn in Y; try discriminate; exact X.
Qed.
Lemma count_nodup (l : list trait) : (forall t, (count t l <= 1)%nat) -> NoDup l.
Proof.
  induction l as [|u l IH]; intros H; constructor.
  - apply count_none. specialize (H u). change (u :: l) with ([u] ++ l) in H. rewrite count_app in H.
    assert (count u [u] = 1%nat) by (destruct u as [| | | |[]|[]]; reflexivity). lia.
  - apply IH. intros t. specialize (H t). change (u :: l) with ([u] ++ l) in H. rewrite count_app in H. lia.
Qed.

Lemma reader_others (o : options) (last : bool) (s : string) (t : trait) : In s reader_names -> t <> TTagged ->
  (count t (derive_traits o last (chars s)) <= count t (implements (chars s)))%nat.
Proof.
  intros I N. rewrite derive_traits_canon. destruct t; [congruence|..];
  match goal with |- (count ?x _ <= _)%nat => apply Nat.leb_le;
    refine (every_sound reader_names (fun o last s t => match t with TTagged => true
              | _ => count t (derive_traits o last (chars s)) <=? count t (implements (chars s)) end)%nat _ _ _ _ _ last s x I) end;
  vm_compute; reflexivity.
Qed.
Lemma writer_others (o : options) (last : bool) (s : string) (t : trait) : In s writer_names ->
  (count t (derive_traits o last (chars s)) <= count t (implements (chars s)))%nat.
Proof.
  intros I. rewrite derive_traits_canon. apply Nat.leb_le.
  refine (every_sound writer_names (fun o last s t => count t (derive_traits o last (chars s)) <=? count t (implements (chars s)))%nat _
            _ _ _ _ last s t I).
  vm_compute; reflexivity.
Qed.
Lemma entry_others (o : options) (last b : bool) p (t : trait) : entry b p -> t <> TTagged ->
  (count t (derive_traits o last (snd p)) <= count t (implements (snd p)))%nat.
Proof.
  intros [s I|s I|q w N _] T; cbn [snd plain].
  - apply reader_others; assumption.
  - apply writer_others; assumption.
  - rewrite foreign_traits by exact N. cbn. lia.
Qed.
Lemma line_others (o : options) (last b : bool) l (t : trait) : line_ok b l -> t <> TTagged ->
  (count t (flat_map (fun p => derive_traits o last (snd p)) l) <= count t (flat_map (fun p => implements (snd p)) l))%nat.
Proof.
  intros H T. induction H as [|p l b E H IH|p l E H IH]; cbn [flat_map]; [lia| |]; rewrite !count_app;
    pose proof (entry_others o last _ _ t E T); lia.
Qed.

(** If moreover no trait is asked for twice, no trait is implemented twice. *)
Theorem C99_no_conflict (o : options) (b : bool) (lines : list (list (option (list N) * list N))) :
  lines_ok b lines -> NoDup (asked lines) -> NoDup (declaration_traits o lines).
Proof.
  intros L D. apply count_nodup. intros t.
  assert (D1 : forall l, NoDup l -> (count t l <= 1)%nat).
  { clear. intros l H. induction H as [|u l N H IH]; [cbn; lia|]. change (u :: l) with ([u] ++ l). rewrite count_app.
    assert (C : (count t [u] <= 1)%nat /\ (count t [u] = 1%nat -> t = u)).
    { destruct t as [| | | |[]|[]], u as [| | | |[]|[]]; cbn; split; try lia; intros X; try reflexivity; discriminate. }
    destruct (Nat.eq_dec (count t [u]) 1) as [E|E]; [|lia]. destruct C as [_ C]. rewrite <- (C E) in N. apply count_none in N. lia. }
  destruct t as [| | | |r|r]; [rewrite (C99_once o b lines L); destruct b; lia| | | | |];
    (eapply Nat.le_trans; [|apply (D1 (asked lines) D)]); clear D D1;
    (induction L as [|line b lines c Ll L IH]; [cbn; lia|]; unfold asked in *; cbn [declaration_traits flat_map]; rewrite !count_app;
     match goal with |- context [count ?t (flat_map (fun p => derive_traits ?o ?x (snd p)) ?l)] =>
       pose proof (line_others o x _ l t Ll ltac:(discriminate)) end; lia).
Qed.
Print Assumptions C99_no_conflict.

(** All that is asked for is implemented, except what [asn1(parse = …)] and [asn1(encode = …)] leave out, and besides the tag nothing else. *)
Definition left_out (o : options) (t : trait) : Prop :=
  match t with TParser r => ~ In r (op_parsers o) | TEncoder r => ~ In r (op_encoders o) | _ => False end.
Lemma has_parser_iff (o : options) (r : rules) : has_parser o r = true <-> In r (op_parsers o).
Proof.
  unfold has_parser. rewrite existsb_exists. split; [intros (x & I & E); destruct r, x; try discriminate E; exact I | intros I; exists r; split; [exact I | destruct r; reflexivity]].
Qed.
Lemma has_encoder_iff (o : options) (r : rules) : has_encoder o r = true <-> In r (op_encoders o).
Proof.
  unfold has_encoder. rewrite existsb_exists. split; [intros (x & I & E); destruct r, x; try discriminate E; exact I | intros I; exists r; split; [exact I | destruct r; reflexivity]].
Qed.
Lemma known_exact (o : options) (last : bool) (s : string) (t : trait) : In s (reader_names ++ writer_names) -> t <> TTagged ->
  count t (derive_traits o last (chars s))
  = if match t with TParser r => has_parser o r | TEncoder r => has_encoder o r | _ => true end then count t (implements (chars s)) else 0%nat.
Proof.
  intros I T. rewrite derive_traits_canon.
  assert (C : every (reader_names ++ writer_names) (fun o last s t => match t with TTagged => true
              | _ => count t (derive_traits o last (chars s))
                     =? if match t with TParser r => has_parser o r | TEncoder r => has_encoder o r | _ => true end
                        then count t (implements (chars s)) else 0 end)%nat = true) by (vm_compute; reflexivity).
  pose proof (every_sound _ _ C (has_parser o RBer) (has_parser o RDer) (has_encoder o RBer) (has_encoder o RDer) last s t I) as H.
  cbv beta in H. clear C.
  assert (P : forall p q r u a, has_parser (canon p q r u) a = match a with RBer => p | RDer => q end) by (intros [] [] r u []; reflexivity).
  assert (E : forall p q r u a, has_encoder (canon p q r u) a = match a with RBer => r | RDer => u end) by (intros p q [] [] []; reflexivity).
  destruct t as [| | | |a|a]; [congruence|..]; apply Nat.eqb_eq in H; [exact H..| |].
  - rewrite P in H. destruct a; exact H.
  - rewrite E in H. destruct a; exact H.
Qed.
Theorem C99_everything (o : options) (b : bool) (lines : list (list (option (list N) * list N))) (t : trait) :
  lines_ok b lines -> t <> TTagged ->
  (~ left_out o t -> count t (declaration_traits o lines) = count t (asked lines))
  /\ (left_out o t -> count t (declaration_traits o lines) = 0%nat).
Proof.
  intros L T.
  set (keep := match t with TParser r => has_parser o r | TEncoder r => has_encoder o r | _ => true end).
  assert (E : forall last c p, entry c p -> count t (derive_traits o last (snd p)) = if keep then count t (implements (snd p)) else 0%nat).
  { intros last c p [s I|s I|q w N _]; cbn [snd plain].
    - subst keep. apply known_exact; [apply in_or_app; left; exact I | exact T].
    - subst keep. apply known_exact; [apply in_or_app; right; exact I | exact T].
    - rewrite foreign_traits by exact N. unfold implements.
      assert (F : forall s, In s known_names -> bytes_eqb w (chars s) = false) by (intros s I; apply not_true_iff_false; rewrite bytes_eqb_iff; exact (N s I)).
      rewrite !F by (cbn; tauto). destruct keep; reflexivity. }
  assert (G : forall last c l, line_ok c l ->
    count t (flat_map (fun p => derive_traits o last (snd p)) l) = if keep then count t (flat_map (fun p => implements (snd p)) l) else 0%nat).
  { intros last c l H. induction H as [|p l c X H IH|p l X H IH]; cbn [flat_map]; [destruct keep; reflexivity| |];
      rewrite !count_app, IH, (E last _ _ X); destruct keep; reflexivity. }
  assert (A : count t (declaration_traits o lines) = if keep then count t (asked lines) else 0%nat).
  { unfold asked. induction L as [|line c lines d Ll L IH]; [destruct keep; reflexivity|].
    cbn [declaration_traits flat_map]. rewrite !count_app, IH, (G _ _ _ Ll). destruct keep; reflexivity. }
  rewrite A. subst keep. clear. destruct t as [| | | |r|r]; cbn [left_out]; try (split; [reflexivity | tauto]).
  - rewrite <- has_parser_iff. destruct (has_parser o r); split; intros X; try reflexivity; exfalso; solve [tauto | apply X; discriminate | apply X; congruence].
  - rewrite <- has_encoder_iff. destruct (has_encoder o r); split; intros X; try reflexivity; exfalso; solve [tauto | apply X; discriminate | apply X; congruence].
Qed.
Print Assumptions C99_everything.
Example C99_everything_case :
  lines_ok true [[plain "DerSequence"]] /\ exists o, options_from_struct [] = Ok o /\ (forall t, ~ left_out o t)
  /\ declaration_traits o [[plain "DerSequence"]] = [TTagged; TTryFrom; TCheck; TFromDer].
Proof.
  split.
  - apply (LsCons _ true _ false); [|constructor]. apply LReader; [apply EReader; cbn; tauto | constructor].
  - eexists. split; [reflexivity|]. split; [intros [| | | |[]|[]]; cbn; tauto | vm_compute; reflexivity].
Qed.

(** [#[derive(Debug, BerParserSequence, ToBerSequence)] #[derive(DerParserSequence, ToDerSequence)]] *)
Example C99_case :
  let lines := [[plain "Debug"; plain "BerParserSequence"; plain "ToBerSequence"]; [plain "DerParserSequence"; plain "ToDerSequence"]] in
  lines_ok true lines /\ NoDup (asked lines)
  /\ exists o, options_from_struct [] = Ok o
     /\ declaration_traits o lines = [TParser RBer; TEncoder RBer; TTagged; TParser RDer; TEncoder RDer].
Proof.
  cbv zeta. split; [|split].
  - apply (LsCons _ true _ true).
    + apply LOther; [|apply LReader; [apply EReader; cbn; tauto|apply LOther; [apply EWriter; cbn; tauto|constructor]]].
      apply (EForeign (Some (chars "Debug")) (chars "Debug")).
      * intros s I X. cbn in I. repeat (destruct I as [<-|I]; [vm_compute in X; discriminate|]). destruct I.
      * right. split; [reflexivity|]. intros s I (r & X). cbn in I. repeat (destruct I as [<-|I]; [cbn in X; discriminate|]). destruct I.
    + apply (LsCons _ true _ false); [|constructor].
      apply LReader; [apply EReader; cbn; tauto|apply LOther; [apply EWriter; cbn; tauto|constructor]].
  - apply count_nodup. intros t. destruct t as [| | | |[]|[]]; apply Nat.leb_le; vm_compute; reflexivity.
  - eexists. split; [reflexivity|]. vm_compute. reflexivity.
Qed.

(** Both readers in one [derive] attribute, or named by their path: [Tagged] is implemented twice, and the declaration does not compile. *)
Theorem C99_same_line_refuted :
  exists lines, lines = [[plain "BerParserSequence"; plain "DerParserSequence"]] /\ NoDup (asked lines)
  /\ forall o, count TTagged (declaration_traits o lines) = 2%nat.
Proof.
  eexists. split; [reflexivity|]. split; [apply count_nodup; intros t; destruct t as [| | | |[]|[]]; apply Nat.leb_le; vm_compute; reflexivity|].
  intros o. unfold declaration_traits, flat_map. open_options. destruct p, q; vm_compute; reflexivity.
Qed.
Print Assumptions C99_same_line_refuted.
Theorem C99_path_refuted :
  exists lines, lines = [[(None, chars "BerParserSequence")]; [(None, chars "DerParserSequence")]] /\ NoDup (asked lines)
  /\ forall o, count TTagged (declaration_traits o lines) = 2%nat.
Proof.
  eexists. split; [reflexivity|]. split; [apply count_nodup; intros t; destruct t as [| | | |[]|[]]; apply Nat.leb_le; vm_compute; reflexivity|].
  intros o. unfold declaration_traits, flat_map. open_options. destruct p, q; vm_compute; reflexivity.
Qed.
Print Assumptions C99_path_refuted.
(** A derive of another crate whose name begins like a reader: [Tagged] is not implemented at all. *)
Theorem C99_prefix_refuted :
  exists lines, lines = [[plain "BerParserSequence"]; [plain "BerSetup"]] /\ forall o, count TTagged (declaration_traits o lines) = 0%nat.
Proof.
  eexists. split; [reflexivity|]. intros o. unfold declaration_traits, flat_map. open_options. destruct p; vm_compute; reflexivity.
Qed.
Print Assumptions C99_prefix_refuted.
(** The older aliases do not look, and are not looked for. *)
Theorem C99_alias_refuted :
  exists lines, lines = [[plain "DerAlias"]; [plain "BerParserAlias"]] /\ NoDup (asked lines)
  /\ forall o, count TTagged (declaration_traits o lines) = 2%nat.
Proof.
  eexists. split; [reflexivity|]. split; [apply count_nodup; intros t; destruct t as [| | | |[]|[]]; apply Nat.leb_le; vm_compute; reflexivity|].
  intros o. unfold declaration_traits, flat_map. open_options. destruct p; vm_compute; reflexivity.
Qed.
Print Assumptions C99_alias_refuted.
