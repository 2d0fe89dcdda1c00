(** Model of /repo/packages/ic-certification-testing/src: certificate_builder.rs,
    certificate.rs, tree.rs, encoding.rs, signature.rs (the crate with which
    canister authors make certificates to test against).
    The IC crates it calls (ic_types, ic_crypto_tree_hash, the BLS crate) are not
    in /repo; they appear as parameters of the section below. *)
From Coq Require Import List Arith NArith.
From Verif Require Import Bytes HashTree Cbor CertSpec Leb128.
Import ListNotations.
Local Open Scope N_scope.

(** ic_crypto_tree_hash::LabeledTree<Vec<u8>> *)
Inductive ltree :=
| LLeaf (v : bytes)
| LSub (kids : list (bytes * ltree)).

(** certificate.rs:5-17 [create_certificate_tree] *)
Definition create_certificate_tree (canister_id certified_data encoded_time : bytes) : ltree :=
  LSub [(bs "canister", LSub [(canister_id, LSub [(bs "certified_data", LLeaf certified_data)])]);
        (bs "time", LLeaf encoded_time)].
(** certificate.rs:19-36 [create_delegation_tree]; encoding.rs:4-9
    [serialize_to_cbor] puts the self-describing tag in front *)
Definition create_delegation_tree (delegatee_key encoded_time subnet_id : bytes) (ranges : list (bytes * bytes)) : ltree :=
  LSub [(bs "subnet", LSub [(subnet_id, LSub [(bs "canister_ranges", LLeaf (self_describe ++ enc_ranges ranges));
                                              (bs "public_key", LLeaf delegatee_key)])]);
        (bs "time", LLeaf encoded_time)].
(** encoding.rs:11-18 [leb_encode_timestamp]: [timestamp as u64] *)
Definition leb_encode_timestamp (t : N) : bytes := leb_enc (t mod 2 ^ 64).
(** certificate_builder.rs:17 *)
Definition default_certificate_time : N := 1651142233000005031.
(** certificate_builder.rs:113-119 *)
Definition invalid_signature : bytes := bs "invalid sig -----padding to get to 48 bytes-----".

(** certificate_builder.rs:33-44 [SubnetData], [CanisterData] *)
Record subnet_data := mk_subnet { sn_id : bytes; sn_ranges : list (bytes * bytes) }.
(** certificate_builder.rs:46-54 [CertificateBuilder] *)
Record cert_builder := mk_cb {
  cb_time : option N; cb_canister : option (bytes * bytes); cb_subnet : option subnet_data;
  cb_nested : option subnet_data; cb_signature : option bytes; cb_custom : option ltree }.
(** certificate_builder.rs:19-26 [CertificateData] *)
Record cert_data := mk_cd { cd_cert : certificate; cd_root_key : bytes; cd_cbor : bytes }.

Section Builder.
  (** [parse_id]: CanisterId::from_str; [canister_of], [subnet_of]:
      CanisterId::from_u64 and PrincipalId::new_subnet_test_id; [arrange]:
      tree.rs:6-39 [get_mixed_hash_tree], the hash tree the IC crate makes of a
      labelled tree; [H]: SHA-256; [pub i], [sign i]: DER public key and signing
      function of the [i]-th key pair drawn by signature.rs:27-50 [generate_keypair]. *)
  Variables (parse_id : bytes -> option bytes) (canister_of subnet_of : N -> bytes)
            (arrange : ltree -> htree) (H : bytes -> bytes) (pub : nat -> bytes) (sign : nat -> bytes -> bytes).

  (** certificate_builder.rs:57-75 [new] *)
  Definition cb_new (id certified_data : bytes) : option cert_builder :=
    match parse_id id with
    | None => None
    | Some cid => Some (mk_cb None (Some (cid, certified_data)) None None None None)
    end.
  (** certificate_builder.rs:77-86 [from_custom_tree] *)
  Definition cb_from_custom_tree (t : ltree) : cert_builder := mk_cb None None None None None (Some t).
  (** certificate_builder.rs:263-276 [create_subnet_data] *)
  Definition create_subnet_data (subnet_id : N) (ranges : list (N * N)) : subnet_data :=
    mk_subnet (subnet_of subnet_id) (map (fun r => (canister_of (fst r), canister_of (snd r))) ranges).

  (** certificate_builder.rs:88-121: the setters *)
  Inductive cb_call :=
  | WithDelegation (subnet_id : N) (ranges : list (N * N))
  | WithNestedDelegation (subnet_id : N) (ranges : list (N * N))
  | WithTime (time : N)
  | WithInvalidSignature.
  Definition cb_set (b : cert_builder) (c : cb_call) : cert_builder :=
    match c with
    | WithDelegation s r => mk_cb (cb_time b) (cb_canister b) (Some (create_subnet_data s r)) (cb_nested b) (cb_signature b) (cb_custom b)
    | WithNestedDelegation s r => mk_cb (cb_time b) (cb_canister b) (cb_subnet b) (Some (create_subnet_data s r)) (cb_signature b) (cb_custom b)
    | WithTime t => mk_cb (Some t) (cb_canister b) (cb_subnet b) (cb_nested b) (cb_signature b) (cb_custom b)
    | WithInvalidSignature => mk_cb (cb_time b) (cb_canister b) (cb_subnet b) (cb_nested b) (Some invalid_signature) (cb_custom b)
    end.

  (** certificate_builder.rs:278-286 [build_certificate] with the [n]-th key pair:
      the tree and its signature (signature.rs:52-69 [get_tree_signature]) *)
  Definition build_certificate (n : nat) (t : ltree) : htree * bytes :=
    let tree := arrange t in (tree, sign n (state_root_message (digest H tree))).
  Definition serialize_cert (c : certificate) : bytes := self_describe ++ enc_cert c.
  (** certificate_builder.rs:234-261 [create_delegation_data]: delegation signed
      with the [n]-th key pair *)
  Definition create_delegation_data (n : nat) (delegatee_key encoded_time : bytes) (sn : subnet_data)
      (nested : option delegation) : delegation :=
    let (tree, sig) := build_certificate n (create_delegation_tree delegatee_key encoded_time (sn_id sn) (sn_ranges sn)) in
    mk_deleg (sn_id sn) (serialize_cert (mk_cert tree sig nested)).
  (** certificate_builder.rs:189-204 [build_delegation]; the key is that of the signer *)
  Definition build_delegation (b : cert_builder) (delegatee_key encoded_time : bytes) : option (delegation * bytes) :=
    match cb_subnet b with
    | Some sn => Some (create_delegation_data 1 delegatee_key encoded_time sn None, pub 1)
    | None => None
    end.
  (** certificate_builder.rs:206-231 [build_nested_delegation] *)
  Definition build_nested_delegation (b : cert_builder) (delegatee_key encoded_time : bytes) : option (delegation * bytes) :=
    match cb_subnet b, cb_nested b with
    | Some sn, Some nsn =>
        let inner := create_delegation_data 1 delegatee_key encoded_time nsn None in
        Some (create_delegation_data 2 (pub 1) encoded_time sn (Some inner), pub 1)
    | _, _ => None
    end.
  Definition cert_data_of (c : certificate) (key : bytes) : cert_data := mk_cd c key (serialize_cert c).
  (** certificate_builder.rs:123-187 [build]; [None] is an Err *)
  Definition cb_build (b : cert_builder) : option cert_data :=
    let encoded_time := leb_encode_timestamp (match cb_time b with Some t => t | None => default_certificate_time end) in
    match (match cb_custom b, cb_canister b with
           | Some t, None => Some t
           | None, Some (cid, data) => Some (create_certificate_tree cid data encoded_time)
           | _, _ => None
           end) with
    | None => None
    | Some t =>
        let (tree, sig) := build_certificate 0 t in
        let sig := match cb_signature b with Some s => s | None => sig end in
        Some (match build_nested_delegation b (pub 0) encoded_time with
              | Some (d, key) => cert_data_of (mk_cert tree sig (Some d)) key
              | None =>
                  match build_delegation b (pub 0) encoded_time with
                  | Some (d, key) => cert_data_of (mk_cert tree sig (Some d)) key
                  | None => cert_data_of (mk_cert tree sig None) (pub 0)
                  end
              end)
    end.
End Builder.
