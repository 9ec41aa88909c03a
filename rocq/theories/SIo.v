(** What is expected of a target of writes, independently of the model.  [t s b] is the target after a call of [write_all] with [b], and
    whether the call succeeded; [seen s] is what the target has received so far. *)
From Coq Require Import List NArith.
Import ListNotations.

(** A call hands over a beginning of its octets, and all of them if it succeeds. *)
Definition honest {S : Type} (t : S -> list N -> S * bool) (seen : S -> list N) : Prop :=
  forall s b, exists p q, b = p ++ q /\ seen (fst (t s b)) = seen s ++ p /\ (snd (t s b) = true -> q = []).
