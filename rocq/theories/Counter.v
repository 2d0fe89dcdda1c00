(** Model of /repo/examples/certification/certified-counter:
    src/backend/src/lib.rs and the click handler of src/frontend/src/index.ts.
    Candid encoding between the two is not modelled: the three fields arrive as they were sent.
    [reconstruct] of @dfinity/agent is the digest of the tree; Cbor.decode, lookup_path and Certificate.create of
    @dfinity/agent are parameters. *)
From Coq Require Import List NArith ZArith Bool.
From Verif Require Import Bytes HashTree RbTree Cbor JsBindings.
Import ListNotations.

(** [u32::to_be_bytes]; [DataView.setUint32] with littleEndian = false *)
Definition be32 (n : N) : bytes := [n2b (n / 16777216 mod 256); n2b (n / 65536 mod 256); n2b (n / 256 mod 256); n2b (n mod 256)]%N.

Section Counter.
  Variables (H : bytes -> bytes) (checked : bool).
  (** rb_tree/mod.rs:12-39, hash_tree.rs [AsHashTree for Vec<u8>]: the tree of a value is its leaf *)
  Definition vec_hash (v : bytes) : bytes := leaf_hash H v.
  Definition vec_tree (v : bytes) : htree := HLeaf v.

  (** lib.rs:8-11 COUNTER and TREE; [co_data] is the certified data of the canister, empty at first *)
  Record counter := mk_counter { co_count : N; co_tree : rb bytes; co_data : bytes }.
  Definition counter_new : counter := mk_counter 0 E [].

  (** lib.rs:13-17 [hash] *)
  Definition hash_bytes (data : bytes) : bytes := H data.

  (** lib.rs:19-33 [inc_count]; [None]: a trap *)
  Definition inc_count (s : counter) : option counter :=
    let n := (co_count s + 1)%N in
    if checked && (4294967296 <=? n)%N then None
    else
      let count := (n mod 4294967296)%N in
      match insert H bytes vec_hash (bs "count") (hash_bytes (be32 count)) (co_tree s) with
      | None => None
      | Some t => Some (mk_counter count t (root_hash H bytes t))
      end.
  Fixpoint inc_times (n : nat) (s : counter) : option counter :=
    match n with 0 => Some s | S n' => match inc_count s with None => None | Some s' => inc_times n' s' end end.

  (** An upgrade of the canister: there are no upgrade hooks, so COUNTER and TREE (lib.rs:8-11, thread_local!)
      start afresh and the certified data is not set; the platform keeps or clears it. *)
  Definition counter_upgrade (keeps : bool) (s : counter) : counter := mk_counter 0 E (if keeps then co_data s else []).
  (** The calls that change the state; a trap rolls an update call back. *)
  Inductive counter_call := Increment | Upgrade.
  Definition counter_step (keeps : bool) (s : counter) (c : counter_call) : counter :=
    match c with
    | Increment => match inc_count s with Some s' => s' | None => s end
    | Upgrade => counter_upgrade keeps s
    end.
  Definition counter_after (keeps : bool) (calls : list counter_call) : counter :=
    fold_left (counter_step keeps) calls counter_new.

  (** lib.rs:35-40 [CertifiedCounter] *)
  Record certified_counter := mk_certified_counter { cc_count : N; cc_certificate : bytes; cc_witness : bytes }.
  (** lib.rs:42-55 [get_count_witness] *)
  Definition get_count_witness (s : counter) : option bytes :=
    match witness H bytes vec_hash vec_tree (bs "count") (co_tree s) with
    | None => None
    | Some w => Some (self_describe ++ enc_tree w)
    end.
  (** lib.rs:57-76 [get_count]; [data_certificate]: what the IC hands to the query, absent outside one *)
  Definition get_count (data_certificate : option bytes) (s : counter) : option certified_counter :=
    match data_certificate with
    | None => None
    | Some c => match get_count_witness s with
                | None => None
                | Some w => Some (mk_certified_counter (co_count s) c w)
                end
    end.

  (** index.ts:38-46 [hashUInt32] *)
  Definition hash_uint32 (value : N) : bytes := H (be32 value).

  Variables (create : bytes -> bytes -> bytes -> option (list bytes -> option bytes)) (decode : bytes -> option htree) (leb : bytes -> option N).
  (** lookup_path of @dfinity/agent: [Some] when it gives an ArrayBuffer *)
  Variable js_lookup : list bytes -> htree -> option bytes.
  (** index.ts:48-81: [Some n] when the handler ends by writing [n] into the page; [None] when it throws before *)
  Definition on_click (canister_id root_key : bytes) (now_ms : Z) (r : certified_counter) : option N :=
    match verify_certification htree create decode (digest H) leb canister_id (cc_certificate r) (cc_witness r) root_key 50000 now_ms with
    | None => None
    | Some tree =>
        match js_lookup [bs "count"] tree with
        | None => None
        | Some tree_hash => if bytes_eqb (hash_uint32 (cc_count r)) tree_hash then Some (cc_count r) else None
        end
    end.
End Counter.
