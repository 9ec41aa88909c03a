(** C89: conversions between the error types. *)
From Coq Require Import String.
From Verif Require Import Base MHeader MErr.
Local Open Scope string_scope.

Theorem C89_errors_kept :
  (forall e, error_of_inner (inner_of_error e) = e)
  /\ (forall i, inner_of_error (error_of_inner i) = i)
  /\ (forall e, (forall k, e <> LNomError k) -> inner_display (inner_of_error e) = error_display e)
  /\ (forall k, inner_of_error (LNomError k) = INom k)
  /\ (forall e, kind_of_inner (inner_of_error e) = kind_of_error e)
  /\ (forall i, kind_of_error (error_of_inner i) = kind_of_inner i).
Proof.
  repeat split; intros; try (destruct e); try (destruct i); try reflexivity.
  exfalso; eapply H; reflexivity.
Qed.
Print Assumptions C89_errors_kept.

(** Flattening [nom::Err]: an incomplete input is reported with the number of octets missing; anything
    else is the error itself, whether or not it may be recovered from. An error made a [nom::Err] is one that can be recovered from. *)
Inductive flattened {E} (same : E -> lib_error -> Prop) : nom_err E -> lib_error -> Prop :=
| flat_incomplete n : flattened same (NIncomplete n) (LIncomplete n)
| flat_error e l : same e l -> flattened same (NError e) l
| flat_failure e l : same e l -> flattened same (NFailure e) l.

Theorem C89_flatten {I : Type} :
  (forall e : nom_err (ber_error I), flattened (fun b l => inner_of_error l = be_inner b) e (from_nom_berr e))
  /\ (forall e, flattened eq e (error_of_nom e))
  /\ (forall e : nom_err (ber_error I), from_nom_error error_of_ber (fun l => l) e = from_nom_berr e)
  /\ (forall e, from_nom_error (fun l => l) (fun l => l) e = error_of_nom e)
  /\ (forall e, flattened eq (nom_of_error e) e /\ (forall e', nom_of_error e <> NFailure e')).
Proof.
  assert (R := proj1 (proj2 C89_errors_kept)).
  repeat split; intros; try (destruct e); cbn; try constructor; try reflexivity; try discriminate; apply R.
Qed.
Print Assumptions C89_flatten.

(** Where an error is located: at the place given for an [Error], which has none of its own, and at its own
    place for a [BerError]. *)
Theorem C89_location {I : Type} (nowhere i : I) :
  (forall e, be_input (ber_of_located (i, e)) = i /\ error_of_ber (ber_of_located (i, e)) = e)
  /\ (forall b : ber_error I, ber_of_ber (i, b) = b)
  /\ (forall e, be_input (ber_of_error nowhere e) = nowhere /\ error_of_ber (ber_of_error nowhere e) = e)
  /\ (forall e : nom_err lib_error, flattened eq e (error_of_ber (from_nom_bererror ber_of_located (ber_of_error nowhere) i e)))
  /\ (forall e : nom_err (ber_error I),
        flattened (fun b l => inner_of_error l = be_inner b) e
                  (error_of_ber (from_nom_bererror ber_of_ber (ber_of_error nowhere) i e))).
Proof.
  assert (L := proj1 C89_errors_kept). assert (R := proj1 (proj2 C89_errors_kept)).
  repeat split; intros; try (destruct e); cbn; try constructor; try reflexivity; unfold error_of_ber; cbn; rewrite ?L; auto.
Qed.
Print Assumptions C89_location.

(** Errors made by the constructors say the same as an [Error] and as a [BerError], and are where they are put. *)
Theorem C89_made {I : Type} (i : I) (tag kind : N) (et : option N) (ec : option class) (c : class) (msg : bytes) (n : needed) :
  (error_of_ber (ber_unexpected_tag i et tag) = error_unexpected_tag et tag /\ kind_of_error (error_unexpected_tag et tag) = EUnexpectedTag)
  /\ (error_of_ber (ber_unexpected_class i ec c) = error_unexpected_class ec c /\ kind_of_error (error_unexpected_class ec c) = EUnexpectedClass)
  /\ error_of_ber (ber_invalid_value i tag msg) = LInvalidValue tag msg
  /\ error_of_ber (ber_incomplete i n) = LIncomplete n
  /\ error_of_ber (ber_from_error_kind i kind) = error_from_error_kind i kind
  /\ map be_input [ber_unexpected_tag i et tag; ber_unexpected_class i ec c; ber_invalid_value i tag msg; ber_incomplete i n; ber_from_error_kind i kind] = repeat i 5
  /\ (forall b : ber_error I, ber_append i kind b = b).
Proof. repeat split. Qed.
Print Assumptions C89_made.

(** [append], by which nom adds to an error, keeps the first error of a [BerError] and replaces that of an [Error]. *)
Theorem C89_append_refuted {I : Type} (i : I) :
  exists kind b, error_append i kind (error_of_ber b) <> error_of_ber (ber_append i kind b).
Proof. exists 3%N, (mk_ber_error i IInvalidLength). discriminate. Qed.
Print Assumptions C89_append_refuted.

(** An error of nom is shown without its kind once it is an [InnerError]; an incomplete input found by a derived
    reader loses its location. *)
Theorem C89_nom_text_refuted : exists e, inner_display (inner_of_error e) <> error_display e.
Proof. exists (LNomError 3). discriminate. Qed.
Print Assumptions C89_nom_text_refuted.

Theorem C89_incomplete_location_refuted {I : Type} (nowhere i : I) : i <> nowhere ->
  exists e : nom_err (ber_error I), be_input (from_nom_bererror ber_of_ber (ber_of_error nowhere) i e) <> i
    /\ forall b, e <> NError b /\ e <> NFailure b.
Proof.
  intros H. exists (NIncomplete (NeededSize 1)). cbn. split; [congruence|]. intros b; split; discriminate.
Qed.
Print Assumptions C89_incomplete_location_refuted.

Example C89_case :
  error_of_ber (ber_unexpected_tag [7] (Some 2) 4) = LUnexpectedTag (Some 2) 4 /\
  from_nom_berr (NFailure (ber_unexpected_tag tt (Some 2) 4)) = error_unexpected_tag (Some 2) 4
  /\ from_nom_berr (I := unit) (NIncomplete (NeededSize 3)) = LIncomplete (NeededSize 3)
  /\ ber_of_located (7, LDerConstraintFailed DCInvalidBoolean) = mk_ber_error 7 (IDerConstraintFailed DCInvalidBoolean).
Proof. repeat split. Qed.
