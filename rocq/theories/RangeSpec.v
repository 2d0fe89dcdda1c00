(** Specification vocabulary for C60 and C61: HTTP byte ranges. *)
From Coq Require Import List NArith Bool.
From Verif Require Import Bytes HeaderSpec.
Import ListNotations.

(** decimal digits, possibly after a plus sign *)
Definition number (s : bytes) (n : N) : Prop := exists ds, (s = ds \/ s = bs "+" ++ ds) /\ decimal ds n.
(** "bytes=<begin>-" or "bytes=<begin>-<end>" with begin <= end; the code also takes "bytes=" several times *)
Definition range_text (s : bytes) (b : N) (e : option N) : Prop :=
  exists (k : nat) (bt et : bytes),
  s = concat (repeat (bs "bytes=") (S k)) ++ bt ++ bs "-" ++ et /\ number bt b /\
  match e with
  | None => et = []
  | Some n => number et n /\ (b <= n)%N
  end.
(** [s] is [t] between white space *)
Definition padded (s t : bytes) : Prop := exists a c, blank a /\ blank c /\ s = a ++ t ++ c.
