(** Model of /repo/packages/ic-asset-certification/src/asset_map.rs and of
    [get_assets], [get_fallback_assets] (asset_router.rs:251-263). *)
From Coq Require Import List NArith Bool.
From Verif Require Import Bytes HttpTypes AssetRouter.
Import ListNotations.
Local Open Scope N_scope.

(** asset_router.rs:251-253 [get_assets], 261-263 [get_fallback_assets] *)
Definition get_assets (st : router) : store := r_responses st.
Definition get_fallback_assets (st : router) : store := r_fallbacks st.
(** asset_map.rs [AssetMap::get] for the HashMap: [RequestKey::new(path, encoding.map(to_string), range_begin)] *)
Definition asset_map_get (m : store) (path : bytes) (enc : option encoding) (range : option N) : option response :=
  option_map ca_response (m_get key_eqb (mk_key path (option_map encoding_name enc) range) m).
(** asset_map.rs [len], [is_empty] *)
Definition asset_map_len (m : store) : N := N.of_nat (length m).
Definition asset_map_is_empty (m : store) : bool := asset_map_len m =? 0.
(** asset_map.rs [iter], [AssetMapIterator::next]; the order of the HashMap's iterator is the parameter *)
Definition asset_map_iter (order : store -> store) (m : store) : list ((bytes * option bytes * option N) * response) :=
  map (fun e => ((k_path (fst e), k_encoding (fst e), k_range (fst e)), ca_response (snd e))) (order m).
