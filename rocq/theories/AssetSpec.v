(** Specification vocabulary for the asset router (C56-C62, C65-C68): what a call
    prepares, what the router holds. *)
From Coq Require Import List NArith Bool Permutation.
From Verif Require Import Bytes Text Nested NestedSpec HttpTypes HttpSpec Cel V2 Verify VerifySpec HttpTree HttpTreeSpec AssetRouter.
Import ListNotations.
Local Open Scope N_scope.

(** What a configuration says about an asset it matches; nothing for none. *)
Definition content_type_of (c : option config) : option bytes :=
  match c with Some (NFile _ t _ _ _ _) | Some (NPattern _ t _ _) => t | _ => None end.
Definition headers_of (c : option config) : list (bytes * bytes) :=
  match c with Some (NFile _ _ hs _ _ _) | Some (NPattern _ _ hs _) => hs | _ => [] end.
Definition fallbacks_of (c : option config) : list fallback_config :=
  match c with Some (NFile _ _ _ fbs _ _) => fbs | _ => [] end.
Definition aliases_of (c : option config) : list bytes :=
  match c with Some (NFile _ _ _ _ als _) => als | _ => [] end.

Section Spec.
  Variables (cs : N) (H : bytes -> bytes) (uri_query : bytes -> option (option bytes)) (glob : bytes -> option (bytes -> bool)).

  (** Responses for one asset under one configuration and encoding: the whole
      content, at its own url and its aliases, and as a fallback. *)
  Inductive whole_write (a : asset) (c : option config) (enc : option encoding) : bool -> key -> certified -> Prop :=
  | WholeStatic u x : u = as_url a \/ In u (aliases_of c) ->
      prepare_static cs H uri_query (aliased a u) (content_type_of c) (headers_of c) enc None = Some x ->
      whole_write a c enc false (mk_key u (encoding_str enc) None) x
  | WholeFallback fb x : In fb (fallbacks_of c) ->
      prepare_fallback cs H uri_query a (headers_of c) (content_type_of c) fb enc = Some x ->
      whole_write a c enc true (mk_key (fb_scope fb) (encoding_str enc) None) x.
  (** The chunks of an asset larger than the chunk size. *)
  Inductive chunk_write (a : asset) (c : option config) (enc : option encoding) : bool -> key -> certified -> Prop :=
  | ChunkStatic u i x : u = as_url a \/ In u (aliases_of c) ->
      cs < N.of_nat (length (as_content a)) -> i * cs < N.of_nat (length (as_content a)) ->
      prepare_static cs H uri_query (aliased a u) (content_type_of c) (headers_of c) enc (Some (i * cs)) = Some x ->
      chunk_write a c enc false (mk_key u (encoding_str enc) (Some (i * cs))) x.
  (** The asset values of a call: the last asset given for each path. *)
  Definition last_asset (assets : list asset) (a : asset) : Prop :=
    exists l r, assets = l ++ a :: r /\ forall b, In b r -> as_path b <> as_path a.
  (** The configuration for an asset: the first that matches. *)
  Definition first_config (cfgs : list config) (a : asset) (c : option config) : Prop :=
    match c with
    | Some x => exists l r, cfgs = l ++ x :: r /\ matches_asset x a = true /\ forall y, In y l -> matches_asset y a = false
    | None => forall y, In y cfgs -> matches_asset y a = false
    end.
  (** Assets and encodings a call goes through: each asset itself, and as
      variants of it the assets whose path has a configured suffix, at its url. *)
  Inductive variant (assets : list asset) (cfgs : list config) : asset -> option config -> option encoding -> Prop :=
  | VariantSelf a c : last_asset assets a -> first_config cfgs a c -> variant assets cfgs a c None
  | VariantEncoded a c e suffix ea : last_asset assets a -> first_config cfgs a c -> In (e, suffix) (encodings_of c) ->
      last_asset assets ea -> as_path ea = as_path a ++ suffix ->
      variant assets cfgs (aliased ea (as_url a)) c (Some e).
  (** Everything a call with these assets and configurations is about: whole
      responses, and chunks. *)
  Inductive whole_written (assets : list asset) (configs : list asset_config) : bool -> key -> certified -> Prop :=
  | WrittenWhole cfgs a c enc f k x : normalize_all glob configs = Some cfgs -> variant assets cfgs a c enc ->
      whole_write a c enc f k x -> whole_written assets configs f k x
  | WrittenRedirect from to kind x : In (ConfigRedirect from to kind) configs ->
      prepare_redirect H uri_query from to kind = Some x -> whole_written assets configs false (mk_key from None None) x.
  Inductive chunk_written (assets : list asset) (configs : list asset_config) : bool -> key -> certified -> Prop :=
  | WrittenChunk cfgs a c enc f k x : normalize_all glob configs = Some cfgs -> variant assets cfgs a c enc ->
      chunk_write a c enc f k x -> chunk_written assets configs f k x.
  Definition written (assets : list asset) (configs : list asset_config) (f : bool) (k : key) (x : certified) : Prop :=
    whole_written assets configs f k x \/ chunk_written assets configs f k x.
  (** what a call may put into the router, and the entries it may take out of the tree *)
  Definition call_puts (c : call) (f : bool) (k : key) (x : certified) : Prop :=
    match c with CallCertify _ a cf => written a cf f k x | _ => False end.
  Definition call_drops (c : call) (f : bool) (k : key) (x : certified) : Prop :=
    match c with CallDelete _ a cf => whole_written a cf f k x | _ => False end.
  (** The iteration order of a HashMap is some order of its values. *)
  Definition any_order (c : call) : Prop :=
    match c with
    | CallCertify o _ _ | CallDelete o _ _ => forall l, Permutation (o l) l
    | CallDeleteAll => True
    end.
End Spec.

(** The router's tree certifies an entry. *)
Definition certifies (st : router) (en : entry) : Prop := nget (entry_tree_path en) (r_tree st) = Some [].
(** The router stores [x] under [k]; [f] tells fallbacks from ordinary responses. *)
Definition stored (st : router) (f : bool) (k : key) (x : certified) : Prop :=
  m_get key_eqb k (if f then r_fallbacks st else r_responses st) = Some x.
(** one of two tree paths is an initial part of the other *)
Definition overlapping (p q : list bytes) : Prop := is_prefix p q \/ is_prefix q p.

(** ** The responses an asset is served with *)
(** header [n: v] *)
Definition content_headers (body : bytes) (hs : list (bytes * bytes)) (content_type encoding range : option bytes) (expr : bytes) : list (bytes * bytes) :=
  let opt (n : bytes) v := match v with Some x => [(n, x)] | None => [] end in
  opt (bs "content-length") (Some (dec (N.of_nat (length body)))) ++ hs ++ opt (bs "content-type") content_type ++ opt (bs "content-encoding") encoding ++
  opt (bs "content-range") range ++ opt (bs "IC-CertificateExpression") (Some expr).
(** full certification of GET, covering the given request headers, no query
    parameter, and every response header *)
Definition get_expression (request_headers : list bytes) : cel := CelFull (mk_request_cert request_headers []) (HeaderExclusions []).
(** [x] is a response for GET of [url] with this status, body and headers, certified at [p] *)
Definition prepared (H : bytes -> bytes) (uri_query : bytes -> option (option bytes)) (x : certified) (p : cert_path) (url : bytes)
    (status : N) (body : bytes) (hs : list (bytes * bytes)) (content_type encoding range : option bytes) (request_headers : list bytes) : Prop :=
  ca_response x = mk_response status (content_headers body hs content_type encoding range (print_cel (get_expression request_headers))) body /\
  en_path (ca_entry x) = p /\
  made H uri_query (get_expression request_headers) (mk_request (bs "GET") url [] []) (ca_response x) (en_certification (ca_entry x)).
(** The bytes of [content] from [b] to before [e], and the content-range text for them. *)
Definition range_header (b e total : N) : bytes := bs "bytes " ++ dec b ++ bs "-" ++ dec (e - 1) ++ bs "/" ++ dec total.

(** ** Histories *)
(** calls in [calls] put or take out this response *)
Definition history_written cs H uri_query glob (calls : list call) (f : bool) (k : key) (x : certified) : Prop :=
  exists c, In c calls /\ (call_puts cs H uri_query glob c f k x \/ call_drops cs H uri_query glob c f k x).
(** No configured header is one the router adds itself, or not a field name. *)
Definition plain_headers (hs : list (bytes * bytes)) : Prop :=
  no_header (bs "content-encoding") hs /\ no_header (bs "content-range") hs /\ no_pseudo hs.
Definition plain_config (c : asset_config) : Prop :=
  match c with ConfigFile _ _ hs _ _ _ | ConfigPattern _ _ hs _ => plain_headers hs | ConfigRedirect _ _ _ => True end.
Definition plain_call (c : call) : Prop :=
  match c with CallCertify _ _ cf | CallDelete _ _ cf => Forall plain_config cf | CallDeleteAll => True end.
(** The url does not use the reserved segments. *)
Definition clean_url (u : bytes) : Prop := ~ In (bs "<$>") (request_parts u) /\ ~ In (bs "<*>") (request_parts u).
(** A router: created with a tree that may already hold entries, then
    calls on it, and operations of others on the shared tree. *)
Inductive reachable cs H uri_query glob : router -> Prop :=
| ReachStart ops t : http_run H ops = Some t -> reachable cs H uri_query glob (router_with t)
| ReachCall st c : reachable cs H uri_query glob st -> any_order c -> reachable cs H uri_query glob (fst (run_call cs H uri_query glob c st))
| ReachOther st o t : reachable cs H uri_query glob st -> nstep H (r_tree st) (http_nop o) = Some t ->
    reachable cs H uri_query glob (mk_router t (r_responses st) (r_fallbacks st)).
(** Inputs without the errors the router reports: patterns compile, urls parse, no
    configured header is the certificate expression header. *)
Definition parses (uri_query : bytes -> option (option bytes)) (u : bytes) : Prop := exists q, uri_query u = Some q.
Definition valid_config (uri_query : bytes -> option (option bytes)) (glob : bytes -> option (bytes -> bool)) (c : asset_config) : Prop :=
  match c with
  | ConfigFile _ _ hs _ als _ => no_header (bs "IC-CertificateExpression") hs /\ Forall (parses uri_query) als
  | ConfigPattern p _ hs _ => no_header (bs "IC-CertificateExpression") hs /\ exists m, glob p = Some m
  | ConfigRedirect from _ _ => parses uri_query from
  end.
Definition valid_input (uri_query : bytes -> option (option bytes)) (glob : bytes -> option (bytes -> bool)) (assets : list asset) (configs : list asset_config) : Prop :=
  Forall (fun a => parses uri_query (as_url a)) assets /\ Forall (valid_config uri_query glob) configs.
(** The responses configured for assets: status, body and headers of each. *)
Inductive configured cs H uri_query glob (assets : list asset) (configs : list asset_config) : bool -> key -> certified -> Prop :=
| ConfiguredStatic cfgs a c enc u x : normalize_all glob configs = Some cfgs -> variant assets cfgs a c enc -> u = as_url a \/ In u (aliases_of c) ->
    prepared H uri_query x (PExact u) u 200 (as_content a) (headers_of c) (content_type_of c) (encoding_str enc) None [] ->
    configured cs H uri_query glob assets configs false (mk_key u (encoding_str enc) None) x
| ConfiguredChunk cfgs a c enc u i before body after x : normalize_all glob configs = Some cfgs -> variant assets cfgs a c enc -> u = as_url a \/ In u (aliases_of c) ->
    (* the chunk is one of the pieces of [cs] bytes, the last of which may be shorter *)
    as_content a = before ++ body ++ after -> N.of_nat (length before) = i * cs ->
    (N.of_nat (length body) = cs \/ after = [] /\ 0 < N.of_nat (length body) < cs) -> cs < N.of_nat (length (as_content a)) ->
    prepared H uri_query x (PExact u) u 206 body (headers_of c) (content_type_of c) (encoding_str enc)
      (Some (range_header (i * cs) (i * cs + N.of_nat (length body)) (N.of_nat (length (as_content a))))) [bs "range"] ->
    configured cs H uri_query glob assets configs false (mk_key u (encoding_str enc) (Some (i * cs))) x
| ConfiguredFallback cfgs a c enc fb x : normalize_all glob configs = Some cfgs -> variant assets cfgs a c enc -> In fb (fallbacks_of c) ->
    prepared H uri_query x (PWildcard (fb_scope fb)) (as_url a) (match fb_status fb with Some s => s | None => 200 end) (as_content a)
      (headers_of c) (content_type_of c) (encoding_str enc) None [] ->
    configured cs H uri_query glob assets configs true (mk_key (fb_scope fb) (encoding_str enc) None) x
| ConfiguredRedirect from to kind x : In (ConfigRedirect from to kind) configs ->
    prepared H uri_query x (PExact from) from (match kind with Permanent => 301 | Temporary => 307 end) [] [(bs "location", to)] None None None [] ->
    configured cs H uri_query glob assets configs false (mk_key from None None) x.
