(** Version 1 certification as canisters do it, and as
    /repo/packages/ic-response-verification-test-utils/src/asset_tree.rs and
    certificate.rs do it for tests: an [RbTree] from paths to SHA-256 body hashes
    under the label "http_assets", and a header without version and expression path. *)
From Coq Require Import List NArith.
From Verif Require Import Bytes HashTree RbTree Nested Cbor Base64.
Import ListNotations.

Section V1Assets.
  Variable H : bytes -> bytes.
  (** ic-certification/src/rb_tree/mod.rs:48-56 [AsHashTree for Hash]: a leaf holding the hash *)
  Definition leaf_root (v : bytes) : bytes := digest H (HLeaf v).
  Definition assets : Type := rb bytes.
  (** asset_tree.rs:33-37 [insert] *)
  Definition assets_insert (path body : bytes) : op bytes := OpInsert bytes path (H body).
  (** asset_tree.rs:48-52 [get_certified_data] *)
  Definition assets_certified_data (t : assets) : bytes := labeled_hash H (bs "http_assets") (root_hash H bytes t).
  (** asset_tree.rs:39-46 [serialize_to_cbor], before the encoding *)
  Definition assets_witness (t : assets) (path : bytes) : option htree :=
    match witness H bytes leaf_root HLeaf path t with Some w => Some (HLabeled (bs "http_assets") w) | None => None end.
  (** the same for a path that is not certified, with the fallback revealed:
      [merge_hash_trees] (ic-certification/src/nested_rb_tree.rs:162-200)
      of two witnesses *)
  Definition assets_fallback_witness (t : assets) (path : bytes) : option htree :=
    match assets_witness t path, assets_witness t (bs "/index.html") with
    | Some a, Some b => merge a b
    | _, _ => None
    end.
End V1Assets.
(** certificate.rs:10-15 [create_certificate_header] *)
Definition v1_certificate_header (data_certificate : bytes) (tree : htree) : bytes :=
  bs "certificate=:" ++ b64_enc true data_certificate ++ bs ":, tree=:" ++ b64_enc true (self_describe ++ enc_tree tree) ++ bs ":".
