(** Specification vocabulary for C46-C50: what a response claims, what a
    certified tree must contain for it. *)
From Coq Require Import List NArith.
From Verif Require Import Bytes Text Utf8 HashTree HashTreeSpec HttpTypes HttpHash HttpSpec V2 WildcardSpec.
Import ListNotations.

(** [v] is the value of the last header called [name] (up to ASCII case). *)
Definition last_header (name : bytes) (hs : list (bytes * bytes)) (v : bytes) : Prop :=
  exists a n b, hs = a ++ (n, v) :: b /\ same_name n name /\ Forall (fun h => ~ same_name (fst h) name) b.
Definition no_header (name : bytes) (hs : list (bytes * bytes)) : Prop :=
  Forall (fun h => ~ same_name (fst h) name) hs.

(** Percent decoding: "%" and two hexadecimal digits stand for a byte, every
    other character (including any other "%") for itself. *)
Definition hex_digits : bytes := bs "0123456789abcdef".
Definition hex_digit (b : byte) (n : N) : Prop := nth_error hex_digits (N.to_nat n) = Some (lower_byte b).
Definition escape (s : bytes) : Prop := exists x y h l r, s = "%"%byte :: x :: y :: r /\ hex_digit x h /\ hex_digit y l.
Inductive pct_decodes : bytes -> bytes -> Prop :=
| PdNil : pct_decodes [] []
| PdEscape x y h l s d : hex_digit x h -> hex_digit y l -> pct_decodes s d ->
    pct_decodes ("%"%byte :: x :: y :: s) (n2b (16 * h + l) :: d)
| PdPlain b s d : ~ escape (b :: s) -> pct_decodes s d -> pct_decodes (b :: s) (b :: d).
(** The path of a request: that of its URL, percent-decoded, if that is UTF-8. *)
Definition path_of (uri_path : bytes -> option bytes) (rq : request) (path : bytes) : Prop :=
  exists p, uri_path (rq_url rq) = Some p /\ pct_decodes p path /\ utf8_valid path = true.

(** The tree [t] has the certification of this request and response under
    expression path [e]: the hash of the CEL expression [expr] (meaning [c]),
    and below it, unless certification is skipped, the request hash (or the
    empty label) and the response hash, with an empty value. *)
Definition certified_entry (H : bytes -> bytes) (uri_query : bytes -> option (option bytes))
    (t : htree) (e : list bytes) (expr : bytes) (c : cel) (rq : request) (rs : response) : Prop :=
  match c with
  | CelSkip => exists s, at_path (e ++ [H expr]) t s
  | CelResponseOnly rc => at_path (e ++ [H expr; []; response_hash H rs rc None]) t (HLeaf [])
  | CelFull qc rc => exists h, request_hash H uri_query rq qc = Some h /\
      at_path (e ++ [H expr; h; response_hash H rs rc None]) t (HLeaf [])
  end.

(** [e] is the path at which [t] certifies responses for [path]: the exact path, or a
    wildcard matching it (or the path with a slash added, see C36) when the tree
    has neither the exact path nor a more specific matching wildcard. *)
Definition expression_path_for (t : htree) (path : bytes) (e : list bytes) : Prop :=
  (exists s, at_path e t s) /\
  (e = bs "http_expr" :: request_parts path ++ [bs "<$>"] \/
   exists v, e = bs "http_expr" :: v ++ [bs "<*>"] /\
     (matches v (request_parts path) \/ v = request_parts path ++ [[]]) /\
     (forall s, ~ at_path (bs "http_expr" :: request_parts path ++ [bs "<$>"]) t s) /\
     (forall u, matches u (request_parts path) -> more_specific u v -> forall s, ~ at_path (bs "http_expr" :: u ++ [bs "<*>"]) t s)).
(** the last segment of the request path is not a reserved terminator *)
Definition ordinary_path (path : bytes) : Prop :=
  (forall q, request_parts path <> q ++ [bs "<*>"]) /\ (forall q, request_parts path <> q ++ [bs "<$>"]).

(** Where the canister's certified data stands in a state tree. *)
Definition certified_data_path (canister_id : bytes) : list bytes := [bs "canister"; canister_id; bs "certified_data"].
Definition asset_path (path : bytes) : list bytes := [bs "http_assets"; path].

(** What a body is after undoing its content encoding. *)
Definition decoded_body (gunzip inflate : bytes -> option bytes) (encoding : option bytes) (body d : bytes) : Prop :=
  (encoding = Some (bs "gzip") /\ gunzip body = Some d) \/
  (encoding = Some (bs "deflate") /\ inflate body = Some d) \/
  (encoding <> Some (bs "gzip") /\ encoding <> Some (bs "deflate") /\ d = body).
