(** Model of /repo/packages/ic-representation-independent-hash/src/representation_independent_hash.rs. *)
From Coq Require Import List Arith NArith Lia Bool.
From Verif Require Import Bytes Leb128.
Import ListNotations.

(** representation_independent_hash.rs:4-15 [Value]; a Rust [String] is its
    UTF-8 bytes, a u64 is an [N] (the bound plays no role). *)
Inductive value :=
| VString (s : bytes)
| VNumber (n : N)
| VBytes (s : bytes)
| VArray (l : list value).

Section RiHash.
  Variable H : bytes -> bytes.

  (** representation_independent_hash.rs:38-60 [hash_value], [hash_array]:
      SHA-256 of [value_msg] *)
  Fixpoint value_msg (v : value) : bytes :=
    match v with
    | VString s => s
    | VBytes s => s
    | VNumber n => leb_enc n
    | VArray l => flat_map (fun e => H (value_msg e)) l
    end.
  Definition hash_value (v : value) : bytes := H (value_msg v).

  (** derived [Ord] of ([u8; 32], [u8; 32]) *)
  Definition pair_leb (a b : bytes * bytes) : bool :=
    match bcmp (fst a) (fst b) with
    | Lt => true
    | Gt => false
    | Eq => match bcmp (snd a) (snd b) with Gt => false | _ => true end
    end.
  (** [sort_unstable] (line 27): any correct sort of a total order gives the
      same list ([sort_unique] in RiHashProofs.v); modelled by insertion sort. *)
  Fixpoint insert_sorted (x : bytes * bytes) (l : list (bytes * bytes)) : list (bytes * bytes) :=
    match l with
    | [] => [x]
    | y :: r => if pair_leb x y then x :: l else y :: insert_sorted x r
    end.
  Fixpoint sort_pairs (l : list (bytes * bytes)) : list (bytes * bytes) :=
    match l with [] => [] | x :: r => insert_sorted x (sort_pairs r) end.

  (** representation_independent_hash.rs:21-36 [representation_independent_hash] *)
  Definition ri_pairs (m : list (bytes * value)) : list (bytes * bytes) :=
    map (fun kv => (H (fst kv), hash_value (snd kv))) m.
  Definition ri_msg (m : list (bytes * value)) : bytes :=
    flat_map (fun p => fst p ++ snd p) (sort_pairs (ri_pairs m)).
  Definition ri_hash (m : list (bytes * value)) : bytes := H (ri_msg m).
End RiHash.
