(** Specification vocabulary for C38-C42: signed certificates, delegations, and
    the least-recently-used contents of a cache. *)
From Coq Require Import List NArith.
From Verif Require Import Bytes HashTree HashTreeSpec Cbor.
Import ListNotations.

(** The message the IC signs for a state tree with root hash [d]. *)
Definition state_root_message (d : bytes) : bytes := x0d :: bs "ic-state-root" ++ d.
(** A DER-wrapped BLS public key of the IC: 37 fixed bytes then 96 key bytes. *)
Definition der_header : bytes :=
  unhex "308182301d060d2b0601040182dc7c0503010201060c2b0601040182dc7c05030201036100".
Definition der_of (key pk : bytes) : Prop := key = der_header ++ pk /\ length pk = 96.
(** [c]'s signature is valid for its tree's root hash under DER key [key]. *)
Definition signed_by (H : bytes -> bytes) (vs : bytes -> bytes -> bytes -> bool) (key : bytes) (c : certificate) : Prop :=
  exists pk, der_of key pk /\ vs pk (c_sig c) (state_root_message (digest H (c_tree c))) = true.
(** The time a certificate states: the number its "time" leaf starts with. *)
Definition subnet_path (subnet : bytes) (what : bytes) : list bytes := [bs "subnet"; subnet; what].

(** CBOR of a list of ranges: an array of two-element arrays of byte strings. *)
Definition enc_ranges (l : list (bytes * bytes)) : bytes :=
  enc_head 4 (N.of_nat (length l)) ++
  flat_map (fun r => enc_head 4 2 ++ enc_bytes (fst r) ++ enc_bytes (snd r)) l.

(** Keys of a history, most recent first, each once, at most [cap]. *)
Fixpoint nub (l : list bytes) : list bytes :=
  match l with
  | [] => []
  | k :: r => k :: filter (fun x => negb (bytes_eqb x k)) (nub r)
  end.
Definition most_recent (cap : nat) (used : list bytes) : list bytes := firstn cap (nub (rev used)).
