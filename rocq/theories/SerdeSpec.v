(** Specification for C75: the documented shapes of serialized hash trees and
    certificates, and how the same data looks to the CBOR parser of ic-cbor. *)
From Coq Require Import List NArith Bool.
From Verif Require Import Bytes HashTree Cbor CborSpec Serde.
Import ListNotations.
Local Open Scope N_scope.

(** [v] is the byte string [b] for owned ([VecStorage]) or borrowed storage. *)
Inductive byte_string : storage -> dval -> bytes -> Prop :=
| BsBytes st b : byte_string st (SBytes true b) b
| BsStr st b : byte_string st (SStr true b) b
| BsOwnedBytes b : byte_string VecStorage (SBytes false b) b
| BsOwnedStr b : byte_string VecStorage (SStr false b) b
| BsNumbers ns b : Forall2 (fun v x => v = SUint (b2n x)) ns b -> byte_string VecStorage (SSeq ns) b.

(** hash-tree ::= [0] | [1 hash-tree hash-tree] | [2 bytes hash-tree] | [3 bytes] | [4 hash] *)
Inductive tree_shape (st : storage) : dval -> htree -> Prop :=
| ShEmpty : tree_shape st (SSeq [SUint 0]) HEmpty
| ShFork v w l r : tree_shape st v l -> tree_shape st w r -> tree_shape st (SSeq [SUint 1; v; w]) (HFork l r)
| ShLabeled k v kb c : byte_string st k kb -> tree_shape st v c -> tree_shape st (SSeq [SUint 2; k; v]) (HLabeled kb c)
| ShLeaf v b : byte_string st v b -> tree_shape st (SSeq [SUint 3; v]) (HLeaf b)
| ShPruned v h : byte_string SliceStorage v h -> length h = 32%nat -> tree_shape st (SSeq [SUint 4; v]) (HPruned h).

(** A field name, as string, bytes or index. *)
Inductive names (i : N) (name : bytes) : dval -> Prop :=
| NmStr b : names i name (SStr b name)
| NmBytes b : names i name (SBytes b name)
| NmIndex : names i name (SUint i).

(** [m] has exactly the entries [want] (each a predicate on key and value), in any order. *)
Inductive entries : list (dval * dval) -> list (dval * dval -> Prop) -> Prop :=
| EnNil : entries [] []
| EnCons e m (w : dval * dval -> Prop) before after : w e -> entries m (before ++ after) -> entries (e :: m) (before ++ w :: after).

(** delegation ::= [bytes bytes] | { subnet_id: bytes, certificate: bytes } *)
Inductive delegation_shape (st : storage) : dval -> delegation -> Prop :=
| DsSeq v w s c : byte_string st v s -> byte_string st w c -> delegation_shape st (SSeq [v; w]) (mk_deleg s c)
| DsMap m s c : entries m
    [ (fun e => names 0 (bs "subnet_id") (fst e) /\ byte_string st (snd e) s);
      (fun e => names 1 (bs "certificate") (fst e) /\ byte_string st (snd e) c) ] ->
    delegation_shape st (SMap m) (mk_deleg s c).

(** certificate ::= [hash-tree bytes delegation?] | { tree: hash-tree, signature: bytes, delegation?: delegation } *)
Inductive certificate_shape (st : storage) : dval -> certificate -> Prop :=
| CsSeq v w t s : tree_shape st v t -> byte_string st w s -> certificate_shape st (SSeq [v; w]) (mk_cert t s None)
| CsSeqD v w x t s d : tree_shape st v t -> byte_string st w s -> delegation_shape st x d ->
    certificate_shape st (SSeq [v; w; x]) (mk_cert t s (Some d))
| CsMap m t s : entries m
    [ (fun e => names 0 (bs "tree") (fst e) /\ tree_shape st (snd e) t);
      (fun e => names 1 (bs "signature") (fst e) /\ byte_string st (snd e) s) ] ->
    certificate_shape st (SMap m) (mk_cert t s None)
| CsMapD m t s d : entries m
    [ (fun e => names 0 (bs "tree") (fst e) /\ tree_shape st (snd e) t);
      (fun e => names 1 (bs "signature") (fst e) /\ byte_string st (snd e) s);
      (fun e => names 2 (bs "delegation") (fst e) /\ delegation_shape st (snd e) d) ] ->
    certificate_shape st (SMap m) (mk_cert t s (Some d)).

(** ** Formats *)
(** What a format hands back on reading what was written: slices of its input;
    copies (a stream); bytes as a list of numbers (a textual format such as JSON,
    reading from a slice). *)
Inductive format := FromSlice | FromStream | Textual.
Fixpoint read_back (f : format) (v : dval) : dval :=
  match v with
  | SUint n => SUint n
  | SBytes _ b =>
      match f with
      | FromSlice => SBytes true b
      | FromStream => SBytes false b
      | Textual => SSeq (map (fun x => SUint (b2n x)) b)
      end
  | SStr _ s => SStr (match f with FromStream => false | _ => true end) s
  | SSeq l => SSeq (map (read_back f) l)
  | SMap m => SMap (map (fun e => (read_back f (fst e), read_back f (snd e))) m)
  | SOther => SOther
  end.

(** Text of upper-case hexadecimal digits, two per byte. *)
Definition hex_value (c : byte) : option N :=
  let n := b2n c in
  if (48 <=? n) && (n <=? 57) then Some (n - 48) else if (65 <=? n) && (n <=? 70) then Some (n - 55) else None.
Fixpoint from_hex (s : bytes) : option bytes :=
  match s with
  | [] => Some []
  | a :: b :: r =>
      match hex_value a, hex_value b, from_hex r with
      | Some x, Some y, Some t => Some (n2b (16 * x + y) :: t)
      | _, _, _ => None
      end
  | _ => None
  end.

(** ** The same value as ic-cbor parses it: numbers 0-4 become tags, strings and
    bytes are not distinguished, maps keep the last value of a key. *)
Inductive parsed : dval -> cval -> Prop :=
| PTag n t : (n, t) = (0, TEmpty) \/ (n, t) = (1, TFork) \/ (n, t) = (2, TLabelled) \/ (n, t) = (3, TLeaf) \/ (n, t) = (4, TPruned) ->
    parsed (SUint n) (CTag t)
| PUint n u : 4 < n -> uval u = n -> parsed (SUint n) (CUnsigned u)
| PBytes b x : parsed (SBytes b x) (CBytes x)
| PStr b x : parsed (SStr b x) (CBytes x)
| PSeq l l' : Forall2 parsed l l' -> parsed (SSeq l) (CArray l')
| PMap m m' : Forall2 (fun e e' => (exists b, fst e = SStr b (fst e')) /\ parsed (snd e) (snd e')) m m' ->
    parsed (SMap m) (CMap (fold_left (fun a e => map_set (fst e) (snd e) a) m' [])).

(** ** The CBOR encoding of a value (RFC 8949, shortest heads, definite lengths) *)
Fixpoint cbor_of (v : dval) : bytes :=
  match v with
  | SUint n => enc_head 0 n
  | SBytes _ b => enc_bytes b
  | SStr _ s => enc_text s
  | SSeq l => enc_head 4 (N.of_nat (length l)) ++ flat_map cbor_of l
  | SMap m => enc_head 5 (N.of_nat (length m)) ++ flat_map (fun e => cbor_of (fst e) ++ cbor_of (snd e)) m
  | SOther => []
  end.

Fixpoint has_pruned (t : htree) : bool :=
  match t with
  | HFork l r => has_pruned l || has_pruned r
  | HLabeled _ c => has_pruned c
  | HPruned _ => true
  | _ => false
  end.
