(** Specification vocabulary for C34-C37: which wildcard paths match a request
    and which is more specific.  Paths are lists of segments; a trailing empty
    segment stands for a trailing slash. *)
From Coq Require Import List NArith.
From Verif Require Import Bytes.
Import ListNotations.

Definition seg_prefix (p r : list bytes) : Prop := exists s, r = p ++ s.
(** A wildcard path [w] matches request [r]: [w] is a prefix of [r], or [w] is
    [p/] for a prefix [p] of [r] with something after it. *)
Definition matches (w r : list bytes) : Prop :=
  seg_prefix w r \/ exists p x s, w = p ++ [[]] /\ r = p ++ x :: s.
Definition dir (p : list bytes) : Prop := exists q, p = q ++ [[]].
(** [w] is more specific than [v]: longer, or of the same length but without
    the trailing slash where [v] has one. *)
Definition more_specific (w v : list bytes) : Prop :=
  length v < length w \/ (length w = length v /\ ~ dir w /\ dir v).
(** The segments of a request path: no empty segment except a last one (trailing
    slash), which is the only segment of the root path; the last segment is not
    one of the reserved terminators. *)
Definition request_segments (r : list bytes) : Prop :=
  exists p, Forall (fun s => s <> []) p /\ (r = p \/ r = p ++ [[]]) /\
  (forall q, r <> q ++ [bs "<*>"]) /\ (forall q, r <> q ++ [bs "<$>"]).
