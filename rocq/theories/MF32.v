(** Writing of [f32] (src/asn1_types/real/f32.rs:50-75); reading is in [MReal]. *)
From Coq Require Import SpecFloat.
From Verif Require Import Base MEncode MBer MReal.

(** [f64::from(x)] for an [f32], used by src/asn1_types/real.rs:476-480 ([From<f32> for Real]): the 24 bits in 53. *)
Definition f32_as_f64 (x : spec_float) : f64 :=
  match x with S754_finite s m e => binary_round 53 1024 s m e | _ => x end.
(** src/asn1_types/real/f32.rs:56-74 ([ToBer for f32]) *)
Definition tober_f32 (x : spec_float) : tober := tober_f64 (f32_as_f64 x).
