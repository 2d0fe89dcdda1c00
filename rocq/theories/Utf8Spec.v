(** Specification: the UTF-8 encoding of Unicode text (RFC 3629). *)
From Coq Require Import List NArith.
From Verif Require Import Bytes.
Import ListNotations.
Local Open Scope N_scope.
(** a Unicode scalar value: a code point up to 10FFFF that is not a surrogate *)
Definition scalar (c : N) : Prop := c <= 1114111 /\ ~ (55296 <= c <= 57343).
Definition tail6 (n : N) : byte := n2b (128 + n mod 64).
Definition utf8_of (c : N) : bytes :=
  if c <? 128 then [n2b c]
  else if c <? 2048 then [n2b (192 + c / 64); tail6 c]
  else if c <? 65536 then [n2b (224 + c / 4096); tail6 (c / 64); tail6 c]
  else [n2b (240 + c / 262144); tail6 (c / 4096); tail6 (c / 64); tail6 c].
Definition utf8_text (cs : list N) (s : bytes) : Prop := Forall scalar cs /\ s = concat (map utf8_of cs).
