(** Specification vocabulary for C59, C60, C62, C65: which stored response serve_asset picks. *)
From Coq Require Import List NArith Bool Permutation.
From Verif Require Import Bytes HashTreeSpec Nested HttpTypes HttpSpec Cel V2 WildcardSpec VerifySpec HttpTreeSpec RangeSpec AssetRouter AssetSpec.
Import ListNotations.
Local Open Scope N_scope.

(** [sc] is a scope [path] lies in: a directory of [path], written with or without its slash. *)
Definition scope_of (path sc : bytes) : Prop :=
  exists s rest, path = s ++ bs "/" ++ rest /\ (sc = s ++ bs "/" \/ sc = s).
(** [x] is stored at [u] for encoding [e], the first of the preferred encodings (after them: no
    encoding) for which something is. *)
Definition first_choice (st : router) (f : bool) (u : bytes) (preferred : list bytes) (range : option N) (e : option bytes) (x : certified) : Prop :=
  exists before after, map Some preferred ++ [None] = before ++ e :: after /\ stored st f (mk_key u e range) x /\
    forall e' y, In e' before -> ~ stored st f (mk_key u e' range) y.
(** The response of an ordinary asset: of a whole asset larger than the chunk size, the first chunk. *)
Definition static_choice (cs : N) (st : router) (path : bytes) (preferred : list bytes) (range : option N) (c : certified) : Prop :=
  exists e x, first_choice st false path preferred range e x /\
    (N.of_nat (length (rs_body (ca_response x))) <= cs /\ c = x \/
     cs < N.of_nat (length (rs_body (ca_response x))) /\ stored st false (mk_key path e (Some 0)) c).
(** The response of a fallback: that of the longest scope. *)
Definition fallback_choice (st : router) (path : bytes) (preferred : list bytes) (c : certified) : Prop :=
  exists sc e, scope_of path sc /\ first_choice st true sc preferred None e c /\
    forall sc' e' y, scope_of path sc' -> (length sc < length sc')%nat -> e' = None \/ (exists n, e' = Some n /\ In n preferred) ->
      ~ stored st true (mk_key sc' e' None) y.
(** the value of the first header of a name *)
Definition first_value (name : bytes) (hs : list (bytes * bytes)) (v : bytes) : Prop :=
  exists before n after, hs = before ++ (n, v) :: after /\ same_name n name /\ no_header name before.
(** The range the request asks for: none, or the begin in its first Range header. *)
Definition wants_range (umod : N) (hs : list (bytes * bytes)) (range : option N) : Prop :=
  match range with
  | None => no_header (bs "range") hs
  | Some b => exists v t e, first_value (bs "range") hs v /\ padded v t /\ range_text t b e /\ b < umod /\ match e with Some n => n < umod | None => True end
  end.
(** [it] is one of the pieces of [s] between the separators [c] *)
Definition item_of (c : byte) (s it : bytes) : Prop :=
  ~ In c it /\ exists a b, s = a ++ it ++ b /\ (a = [] \/ exists a', a = a' ++ [c]) /\ (b = [] \/ exists b', b = c :: b').
(** An Accept-Encoding value names the encoding [e]: one of its items is [e], with or without parameters. *)
Definition names_encoding (v e : bytes) : Prop :=
  exists it n params, item_of "," v it /\ it = n ++ params /\ ~ In ";"%byte n /\ (params = [] \/ exists p, params = ";"%byte :: p) /\ padded n e.
Definition accepts_encoding (hs : list (bytes * bytes)) (e : bytes) : Prop :=
  exists v, first_value (bs "accept-encoding") hs v /\ names_encoding v e.
(** the router's own order: br, zstd, gzip, deflate, unknown ones, identity *)
Definition rank (e : bytes) (r : N) : Prop :=
  same_name e (bs "br") /\ r = 5 \/ same_name e (bs "zstd") /\ r = 4 \/ same_name e (bs "gzip") /\ r = 3 \/
  same_name e (bs "deflate") /\ r = 2 \/ same_name e (bs "identity") /\ r = 0 \/
  (forall n, In n [bs "br"; bs "zstd"; bs "gzip"; bs "deflate"; bs "identity"] -> ~ same_name e n) /\ r = 1.
(** a sorting function *)
Definition sorts (sort : list (bytes * N) -> list (bytes * N)) : Prop :=
  forall l, Permutation (sort l) l /\
    forall a x b y c, sort l = a ++ x :: b ++ y :: c -> snd y <= snd x.
(** ** C59 *)
(** Something is certified at or below this tree path. *)
Definition somewhere (st : router) (p : list bytes) : Prop := exists q v, nget (p ++ q) (r_tree st) = Some v.
(** Nothing is certified for [path] itself, nor for a wildcard more specific than [scope]. *)
Definition most_specific (st : router) (scope path : bytes) : Prop :=
  ~ somewhere st (request_parts path ++ [bs "<$>"]) /\
  forall u, matches u (request_parts path) -> more_specific u (request_parts scope) -> ~ somewhere st (u ++ [bs "<*>"]).
(** No url in the call has a query component, and all are shorter than [umod]. *)
Definition plain_url (umod : N) (uri_query : bytes -> option (option bytes)) (u : bytes) : Prop :=
  uri_query u = Some None /\ N.of_nat (length u) + 4 < umod.
Definition plain_urls (umod : N) (uri_query : bytes -> option (option bytes)) (c : call) : Prop :=
  match c with
  | CallCertify _ assets configs | CallDelete _ assets configs =>
      Forall (fun a => plain_url umod uri_query (as_url a)) assets /\
      Forall (fun cf => match cf with
                        | ConfigFile _ _ _ fbs als _ => Forall (plain_url umod uri_query) als /\ Forall (fun fb => N.of_nat (length (fb_scope fb)) + 4 < umod) fbs
                        | ConfigPattern _ _ _ _ => True
                        | ConfigRedirect from _ _ => plain_url umod uri_query from
                        end) configs
  | CallDeleteAll => True
  end.
(** ** C70 *)
(** The request is a GET without body and query component; for a chunk, without Range header. *)
Definition plain_get (uri_query : bytes -> option (option bytes)) (rq : request) (chunk : Prop) : Prop :=
  rq_method rq = bs "GET" /\ rq_body rq = [] /\ uri_query (rq_url rq) = Some None /\ (chunk -> no_header (bs "range") (rq_headers rq)).
(** A response at [k] (of a fallback if [f]) is for requests of [path]. *)
Definition responds (st : router) (f : bool) (k : key) (path : bytes) : Prop :=
  match f with
  | false => request_parts (k_path k) = request_parts path
  | true => (matches (request_parts (k_path k)) (request_parts path) \/ request_parts (k_path k) = request_parts path ++ [[]]) /\
            most_specific st (k_path k) path
  end.
(** The two expressions the router certifies with. *)
Definition router_expressions : list bytes := map (fun names => print_cel (get_expression names)) [[]; [bs "range"]].
(** two different messages with the same hash, one hashed for [rq], the other for the GET request
    the router certifies; the router covers the Range header or none, and no query parameters *)
Definition request_collision (H : bytes -> bytes) (uri_query : bytes -> option (option bytes)) (rq : request) : Prop :=
  exists names q hs, In names [[]; [bs "range"]] /\ uri_query (rq_url rq) = Some q /\ picks (named_in names) (rq_headers rq) hs /\
    collision H (request_messages H rq hs (option_map (fun _ => []) q)) (request_messages H (mk_request (bs "GET") [] [] []) [] None).
(** The urls ([f = false]) or fallback scopes ([f = true]) a call is about. *)
Definition call_names (f : bool) (c : call) : list bytes :=
  match c with
  | CallCertify _ assets configs | CallDelete _ assets configs =>
      (if f then [] else map as_url assets) ++
      flat_map (fun cf => match cf with
                          | ConfigFile _ _ _ fbs als _ => if f then map fb_scope fbs else als
                          | ConfigPattern _ _ _ _ => []
                          | ConfigRedirect from _ _ => if f then [] else [from]
                          end) configs
  | CallDeleteAll => []
  end.
(** No call ever was about the request path itself or a fallback more specific than [scope]. *)
Definition never_more_specific (calls : list call) (scope path : bytes) : Prop :=
  (forall c u, In c calls -> In u (call_names false c) -> request_parts u <> request_parts path) /\
  (forall c u, In c calls -> In u (call_names true c) -> ~ (matches (request_parts u) (request_parts path) /\ more_specific (request_parts u) (request_parts scope))).
