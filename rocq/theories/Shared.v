(** Model of an AssetRouter that shares its tree with other code:
    /repo/packages/ic-asset-certification/src/asset_router.rs:183-189 [with_tree] takes an
    Rc<RefCell<HttpCertificationTree>>.  A history mixes calls on the router and
    operations on the tree.  A RefCell borrowed twice (a panic) needs re-entrant
    calls, which neither side makes. *)
From Coq Require Import List NArith.
From Verif Require Import Bytes Nested HttpTypes HttpTree V2 WildcardSpec AssetRouter AssetSpec ServeSpec.
Import ListNotations.

Inductive event := OnRouter (c : call) | OnTree (o : http_op).
Section Shared.
  Variables (cs : N) (H : bytes -> bytes) (uri_query : bytes -> option (option bytes)) (glob : bytes -> option (bytes -> bool)).
  (** [None]: a panic *)
  Definition run_event (e : event) (st : router) : option router :=
    match e with
    | OnRouter c => Some (fst (run_call cs H uri_query glob c st))
    | OnTree o => match nstep H (r_tree st) (http_nop o) with
                  | Some t => Some (mk_router t (r_responses st) (r_fallbacks st))
                  | None => None
                  end
    end.
  Fixpoint run_shared (events : list event) (st : router) : option router :=
    match events with
    | [] => Some st
    | e :: events => match run_event e st with Some st' => run_shared events st' | None => None end
    end.
End Shared.

(** the calls on the router, and the entries others inserted *)
Definition router_calls (events : list event) : list call := flat_map (fun e => match e with OnRouter c => [c] | _ => [] end) events.
Definition direct_entries (events : list event) : list entry := flat_map (fun e => match e with OnTree (HInsert en) => [en] | _ => [] end) events.

(** The entry at [p] answers requests for [path] in this tree (compare [answers_or_slash]). *)
Definition answers_now (st : router) (p : cert_path) (path : bytes) : Prop :=
  match p with
  | PExact p => request_parts p = request_parts path
  | PWildcard p =>
      (matches (request_parts p) (request_parts path) \/ request_parts p = request_parts path ++ [[]]) /\ most_specific st p path
  end.
