(** Specification for C143: what is wrong with a CBOR value that should be a hash tree, a certificate, a list of
    canister ranges or a list of strings, and the error for it. *)
From Coq Require Import List NArith Bool.
From Verif Require Import Bytes Utf8Spec HashTree Cbor CborErrors.
Import ListNotations.

(** the value stands for the tree; what follows the parts of a node is ignored *)
Inductive stands_for : cval -> htree -> Prop :=
| for_empty more : stands_for (CArray (CTag TEmpty :: more)) HEmpty
| for_fork l r more tl tr : stands_for l tl -> stands_for r tr -> stands_for (CArray (CTag TFork :: l :: r :: more)) (HFork tl tr)
| for_labeled k c more t : stands_for c t -> stands_for (CArray (CTag TLabelled :: CBytes k :: c :: more)) (HLabeled k t)
| for_leaf d more : stands_for (CArray (CTag TLeaf :: CBytes d :: more)) (HLeaf d)
| for_pruned d more : length d = 32 -> stands_for (CArray (CTag TPruned :: CBytes d :: more)) (HPruned d).
Inductive tree_fault : cval -> cbor_error -> Prop :=
| no_array v : (forall l, v <> CArray l) -> tree_fault v (MalformedHashTree (bs "Expected Array cbor tag"))
| no_tag l : (forall t more, l <> CTag t :: more) -> tree_fault (CArray l) (MalformedHashTree (bs "Expected Hash Tree cbor tag"))
| no_leaf_data more : (forall d r, more <> CBytes d :: r) -> tree_fault (CArray (CTag TLeaf :: more)) (MalformedHashTree (bs "Missing ByteString for Leaf node"))
| no_pruned_data more : (forall d r, more <> CBytes d :: r) -> tree_fault (CArray (CTag TPruned :: more)) (MalformedHashTree (bs "Missing ByteString for Pruned node"))
| bad_pruned_length d more : length d <> 32 -> tree_fault (CArray (CTag TPruned :: CBytes d :: more)) IncorrectPrunedDataLength
| no_label_parts more : (forall d c r, more <> CBytes d :: c :: r) -> tree_fault (CArray (CTag TLabelled :: more)) (MalformedHashTree (bs "Missing ByteString or child node for Labelled node"))
| bad_child d c more e : tree_fault c e -> tree_fault (CArray (CTag TLabelled :: CBytes d :: c :: more)) e
| no_fork_parts more : (forall a b r, more <> a :: b :: r) -> tree_fault (CArray (CTag TFork :: more)) (MalformedHashTree (bs "Missing child nodes for Fork node"))
| bad_left l r more e : tree_fault l e -> tree_fault (CArray (CTag TFork :: l :: r :: more)) e
| bad_right l r more tl e : stands_for l tl -> tree_fault r e -> tree_fault (CArray (CTag TFork :: l :: r :: more)) e.

(** the entry of a map with this key *)
Definition has_entry (m : list (bytes * cval)) (k : bytes) (v : cval) : Prop := exists a b, m = a ++ (k, v) :: b /\ ~ In k (map fst a).
Definition no_entry (m : list (bytes * cval)) (k : bytes) : Prop := ~ In k (map fst m).
Definition no_string (m : list (bytes * cval)) (k : bytes) : Prop := forall s, ~ has_entry m k (CBytes s).
Inductive certificate_fault : cval -> cbor_error -> Prop :=
| not_a_map v : (forall m, v <> CMap m) -> certificate_fault v (MalformedCertificate (bs "Expected Map when parsing Certificate Cbor"))
| no_tree m : no_entry m (bs "tree") -> certificate_fault (CMap m) (MalformedCertificate (bs "Expected Tree when parsing Certificate Cbor"))
| bad_tree m v e : has_entry m (bs "tree") v -> tree_fault v e -> certificate_fault (CMap m) e
| no_signature m v t : has_entry m (bs "tree") v -> stands_for v t -> no_string m (bs "signature") ->
    certificate_fault (CMap m) (MalformedCertificate (bs "Expected Signature when parsing Certificate Cbor"))
| no_subnet m v t s dm : has_entry m (bs "tree") v -> stands_for v t -> has_entry m (bs "signature") (CBytes s) -> has_entry m (bs "delegation") (CMap dm) ->
    no_string dm (bs "subnet_id") ->
    certificate_fault (CMap m) (MalformedCertificate (bs "Expected Delegation Map to contain a Subnet ID when parsing Certificate Cbor"))
| no_subnet_certificate m v t s dm a : has_entry m (bs "tree") v -> stands_for v t -> has_entry m (bs "signature") (CBytes s) -> has_entry m (bs "delegation") (CMap dm) ->
    has_entry dm (bs "subnet_id") (CBytes a) -> no_string dm (bs "certificate") ->
    certificate_fault (CMap m) (MalformedCertificate (bs "Expected Delegation Map to contain a Certificate when parsing Certificate Cbor")).

(** two ids that fit *)
Definition good_range (v : cval) : Prop := exists a b more, v = CArray (CBytes a :: CBytes b :: more) /\ length a <= 29 /\ length b <= 29.
Inductive ranges_fault : cval -> cbor_error -> Prop :=
| ranges_no_array v : (forall l, v <> CArray l) -> ranges_fault v MalformedCborCanisterRanges
| ranges_element good x rest : Forall good_range good -> (forall a b more, x <> CArray (CBytes a :: CBytes b :: more)) ->
    ranges_fault (CArray (good ++ x :: rest)) MalformedCborCanisterRanges.
Definition good_string (v : cval) : Prop := exists s, v = CBytes s /\ exists cs, utf8_text cs s.
(** the first element that is wrong is shown *)
Inductive strings_fault : cval -> cbor_error -> Prop :=
| strings_no_array v : (forall l, v <> CArray l) -> strings_fault v (UnexpectedCborNodeType (bs "Array") v)
| strings_element good x rest : Forall good_string good -> (forall s, x <> CBytes s) ->
    strings_fault (CArray (good ++ x :: rest)) (UnexpectedCborNodeType (bs "ByteString") x)
| strings_text good s rest : Forall good_string good -> (~ exists cs, utf8_text cs s) ->
    strings_fault (CArray (good ++ CBytes s :: rest)) CborUtf8ConversionError.
