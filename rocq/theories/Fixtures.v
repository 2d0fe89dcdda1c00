(** Model of /repo/packages/ic-response-verification-test-utils/src/{v2_certificate_fixture,certificate}.rs
    (fixtures with which responses are tested) and of
    /repo/packages/ic-certification-testing-wasm/src/certificate_builder.rs (the
    certificate builder for JavaScript). *)
From Coq Require Import List NArith ZArith Bool.
From Verif Require Import Bytes HashTree Nested Cbor Base64 HttpTypes HttpTree AssetRouter CertBuilder JsBindings.
Import ListNotations.
Local Open Scope N_scope.

(** encoding.rs:22-27 [cbor_encode], of trees and of lists of strings *)
Definition cbor_encode_tree (t : htree) : bytes := self_describe ++ enc_tree t.
Definition cbor_encode_strings (l : list bytes) : bytes := self_describe ++ enc_strings l.
(** certificate.rs:17-31 [create_versioned_certificate_header] *)
Definition create_versioned_certificate_header (certificate tree expr_path : bytes) (version : N) : bytes :=
  bs "certificate=:" ++ b64_enc true certificate ++ bs ":, tree=:" ++ b64_enc true tree ++
  bs ":, expr_path=:" ++ b64_enc true expr_path ++ bs ":, version=" ++ dec version.
(** v2_certificate_fixture.rs:59-70 [create_v2_header] *)
Definition create_v2_header (en : entry) (certificate_cbor tree_cbor : bytes) : bytes :=
  create_versioned_certificate_header certificate_cbor tree_cbor (cbor_encode_strings (expr_path (en_path en))) 2.

Section Fixtures.
  (** see CertBuilder.v; [show_id]: CanisterId::to_string *)
  Variables (parse_id : bytes -> option bytes) (show_id : bytes -> bytes) (canister_of subnet_of : N -> bytes)
            (arrange : ltree -> htree) (H : bytes -> bytes) (pub : nat -> bytes) (sign : nat -> bytes -> bytes).
  (** v2_certificate_fixture.rs:11-26 [create_v2_tree_fixture]: the encoded witness and
      the certified data; [None]: a panic ([unwrap] of an error) *)
  Definition create_v2_tree_fixture (req_path : bytes) (en : entry) : option (bytes * bytes) :=
    match http_run H [HInsert en] with
    | None => None
    | Some t =>
        match http_witness H t en req_path with
        | OOk w => Some (cbor_encode_tree w, http_root_hash H t)
        | _ => None
        end
    end.
  (** v2_certificate_fixture.rs:34-57 [create_v2_certificate_fixture]: root key,
      encoded certificate and canister id *)
  Definition create_v2_certificate_fixture (certified_data : bytes) (current_time : N) : option (bytes * bytes * bytes) :=
    let canister_id := canister_of 5 in
    match cb_new parse_id (show_id canister_id) certified_data with
    | None => None
    | Some b =>
        let b := cb_set canister_of subnet_of b (WithTime current_time) in
        let b := cb_set canister_of subnet_of b (WithDelegation 123 [(0, 10)]) in
        match cb_build arrange H pub sign b with
        | None => None
        | Some cd => Some (cd_root_key cd, cd_cbor cd, canister_id)
        end
    end.
  (** v2_certificate_fixture.rs:72-76 [V2Fixture] *)
  Record v2_fixture := mk_fixture { f_root_key : bytes; f_certificate_header : bytes; f_canister_id : bytes }.
  (** v2_certificate_fixture.rs:78-101 [create_v2_fixture] *)
  Definition create_v2_fixture (req_path : bytes) (en : entry) (current_time : N) : option v2_fixture :=
    match create_v2_tree_fixture req_path en with
    | None => None
    | Some (tree_cbor, certified_data) =>
        match create_v2_certificate_fixture certified_data current_time with
        | None => None
        | Some (root_key, certificate_cbor, canister_id) =>
            Some (mk_fixture root_key (create_v2_header en certificate_cbor tree_cbor) canister_id)
        end
    end.
End Fixtures.

(** serde_wasm_bindgen::from_value::<CanisterIdRange> (certificate_builder.rs:28-32 of
    ic-certification-testing): an object whose fields low and high are BigInts or
    integral numbers that fit a u64; other fields are ignored.  A number above 2^53 - 1
    that is not a BigInt is refused by the library, which is not modelled. *)
Definition js_u64 (v : jsval) : option N :=
  match v with JNum n => if ((0 <=? n) && (n <? 2 ^ 64))%Z then Some (Z.to_N n) else None | _ => None end.
Definition js_field (name : bytes) (v : jsval) : option jsval :=
  match find (fun e => bytes_eqb (fst e) name) (js_entries v) with Some e => Some (snd e) | None => None end.
Definition range_of_js (v : jsval) : option (N * N) :=
  match js_field (bs "low") v, js_field (bs "high") v with
  | Some l, Some h => match js_u64 l, js_u64 h with Some l, Some h => Some (l, h) | _, _ => None end
  | _, _ => None
  end.
Fixpoint ranges_of_js (l : list jsval) : option (list (N * N)) :=
  match l with
  | [] => Some []
  | v :: r => match range_of_js v, ranges_of_js r with Some x, Some xs => Some (x :: xs) | _, _ => None end
  end.
(** certificate_builder.rs:35-64 of ic-certification-testing-wasm: the calls there are,
    with u64 arguments *)
Inductive js_call :=
| JsWithDelegation (subnet_id : N) (ranges : list jsval)
| JsWithTime (milliseconds : N)
| JsWithInvalidSignature.
Definition cb_call_of_js (c : js_call) : option cb_call :=
  match c with
  | JsWithDelegation s l => match ranges_of_js l with Some l => Some (WithDelegation s l) | None => None end
  | JsWithTime ms => Some (WithTime (ms * 1000000))
  | JsWithInvalidSignature => Some WithInvalidSignature
  end.
(** a chain of calls; [None]: one of them throws *)
Section JsBuilder.
  Variables (parse_id : bytes -> option bytes) (canister_of subnet_of : N -> bytes)
            (arrange : ltree -> htree) (H : bytes -> bytes) (pub : nat -> bytes) (sign : nat -> bytes -> bytes).
  Fixpoint js_calls (l : list js_call) (b : cert_builder) : option cert_builder :=
    match l with
    | [] => Some b
    | c :: r => match cb_call_of_js c with Some c => js_calls r (cb_set canister_of subnet_of b c) | None => None end
    end.
  (** certificate_builder.rs:25-33 [new], :66-76 [build] *)
  Definition js_build (id certified_data : bytes) (l : list js_call) : option cert_data :=
    match cb_new parse_id id certified_data with
    | None => None
    | Some b => match js_calls l b with Some b => cb_build arrange H pub sign b | None => None end
    end.
End JsBuilder.
