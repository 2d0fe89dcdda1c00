(** Specification vocabulary for C43-C45: what a field of the IC-Certificate
    header says. *)
From Coq Require Import List NArith Bool.
From Verif Require Import Bytes Text Header.
Import ListNotations.

(** a string of white-space characters *)
Definition blank (s : bytes) : Prop := exists l, s = concat l /\ Forall (fun c => In c ws_chars) l.
(** [f] is "name=value" up to surrounding white space, where one ':' may
    precede and one may follow the value *)
Definition says (f name value : bytes) : Prop :=
  exists a b l r, blank a /\ blank b /\ f = a ++ (name ++ bs "=" ++ l ++ value ++ r) ++ b /\
  (l = [] \/ l = bs ":") /\ (r = [] \/ r = bs ":") /\
  name <> [] /\ value <> [] /\ ~ In "="%byte name /\ ~ In ":"%byte value /\
  (** nothing more to trim *)
  (forall w s, In w ws_chars -> name ++ bs "=" ++ l ++ value ++ r <> w ++ s) /\
  (forall w s, In w ws_chars -> name ++ bs "=" ++ l ++ value ++ r <> s ++ w).
(** first field called [name] among the comma-separated fields of a header *)
Definition first_field (h name value : bytes) : Prop :=
  exists l f r, split_on "," h = l ++ f :: r /\ says f name value /\
  (forall g v, In g l -> ~ says g name v).
Definition no_field (h name : bytes) : Prop := forall g v, In g (split_on "," h) -> ~ says g name v.

(** the number a string of decimal digits denotes *)
Definition decimal (ds : bytes) (n : N) : Prop :=
  ds <> [] /\ Forall (fun d => 48 <= b2n d <= 57)%N ds /\ n = fold_left (fun a d => a * 10 + (b2n d - 48))%N ds 0%N.
