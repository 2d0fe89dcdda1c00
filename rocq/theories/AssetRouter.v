(** Model of /repo/packages/ic-asset-certification/src/{asset,asset_config,types,asset_router}.rs.

    [usize] numbers are [N]; lengths of byte strings are below 2^31 on the
    32-bit target and below 2^63 on 64-bit ones, so [range_begin + ASSET_CHUNK_SIZE]
    does not overflow (range_begin is below the length of the content).
    The chunk size is a parameter [cs] ([asset_chunk_size] in the code). A HashMap
    is an association list with distinct keys; where the code iterates over one, the order is a
    parameter.  [RefCell] borrows are statically nested here and cannot fail. *)
From Coq Require Import List Arith NArith Lia Bool.
From Coq Require Decimal DecimalN.
From Verif Require Import Bytes Text HashTree RbTree Nested Cbor HttpTypes HttpHash Cel V2 Header Verify HttpTree.
Import ListNotations.
Local Open Scope N_scope.

(** asset_router.rs:129 *)
Definition asset_chunk_size : N := 2000000.

(** [usize::to_string] *)
Fixpoint uint_bytes (u : Decimal.uint) : bytes :=
  match u with
  | Decimal.Nil => []
  | Decimal.D0 r => x30 :: uint_bytes r | Decimal.D1 r => x31 :: uint_bytes r | Decimal.D2 r => x32 :: uint_bytes r
  | Decimal.D3 r => x33 :: uint_bytes r | Decimal.D4 r => x34 :: uint_bytes r | Decimal.D5 r => x35 :: uint_bytes r
  | Decimal.D6 r => x36 :: uint_bytes r | Decimal.D7 r => x37 :: uint_bytes r | Decimal.D8 r => x38 :: uint_bytes r
  | Decimal.D9 r => x39 :: uint_bytes r
  end.
Definition dec (n : N) : bytes := uint_bytes (N.to_uint n).

(** [str::parse::<usize>]: an optional '+', then at least one decimal digit; every
    intermediate value must be below [umod] *)
Fixpoint digits_below (umod : N) (s : bytes) (acc : N) : option N :=
  match s with
  | [] => Some acc
  | b :: r => match digit b with
              | None => None
              | Some d => if acc * 10 + d <? umod then digits_below umod r (acc * 10 + d) else None
              end
  end.
Definition parse_usize (umod : N) (s : bytes) : option N :=
  let s' := drop_opt "+" s in
  match s' with [] => None | _ => digits_below umod s' 0 end.

(** asset_router.rs:135-168 [parse_range_header_str]; [None] is any of its errors.
    [trim_start_matches] removes the prefix as often as it occurs. *)
Definition parse_range (umod : N) (range_str : bytes) : option (N * option N) :=
  let s := trim range_str in
  match strip_prefix (bs "bytes=") s with
  | None => None
  | Some _ =>
      match split_on "-" (trim_with [bs "bytes="] (length s) s) with
      | [b; e] =>
          match parse_usize umod b with
          | None => None
          | Some rb =>
              match (match e with
                     | [] => Some None
                     | _ => match parse_usize umod e with Some re => Some (Some re) | None => None end
                     end) with
              | None => None
              | Some re => if match re with Some x => x | None => umod - 1 end <? rb then None else Some (rb, re)
              end
          end
      | _ => None
      end
  end.

(** asset.rs:32-36 [Asset], 42-50 [Asset::new], 53-59 [path_to_url] *)
Record asset := mk_asset { as_path : bytes; as_url : bytes; as_content : bytes }.
Definition path_to_url (p : bytes) : bytes :=
  match strip_prefix (bs "/") p with Some _ => p | None => bs "/" ++ p end.
Definition asset_new (path content : bytes) : asset := mk_asset path (path_to_url path) content.

(** asset_config.rs:420-435 [AssetEncoding], 504-517 its [Display] *)
Inductive encoding := Identity | Brotli | Zstd | Gzip | Deflate.
Definition encoding_name (e : encoding) : bytes :=
  match e with
  | Identity => bs "identity" | Brotli => bs "br" | Zstd => bs "zstd" | Gzip => bs "gzip" | Deflate => bs "deflate"
  end.
(** asset_config.rs:376-386 [AssetFallbackConfig], 392-414 [AssetRedirectKind], 182-366 [AssetConfig] *)
Record fallback_config := mk_fallback { fb_scope : bytes; fb_status : option N }.
Inductive redirect_kind := Permanent | Temporary.
Inductive asset_config :=
| ConfigFile (path : bytes) (content_type : option bytes) (headers : list (bytes * bytes))
    (fallback_for : list fallback_config) (aliased_by : list bytes) (encodings : list (encoding * bytes))
| ConfigPattern (pattern : bytes) (content_type : option bytes) (headers : list (bytes * bytes)) (encodings : list (encoding * bytes))
| ConfigRedirect (from to : bytes) (kind : redirect_kind).
(** asset_config.rs:519-539 [NormalizedAssetConfig]; a compiled glob is the function it computes *)
Inductive config :=
| NFile (path : bytes) (content_type : option bytes) (headers : list (bytes * bytes))
    (fallback_for : list fallback_config) (aliased_by : list bytes) (encodings : list (encoding * bytes))
| NPattern (pattern : bytes -> bool) (content_type : option bytes) (headers : list (bytes * bytes)) (encodings : list (encoding * bytes))
| NRedirect (from to : bytes) (kind : redirect_kind).
(** asset_config.rs:580-586 [matches_asset] *)
Definition matches_asset (c : config) (a : asset) : bool :=
  match c with
  | NFile p _ _ _ _ _ => bytes_eqb p (as_path a)
  | NPattern f _ _ _ => f (as_path a)
  | NRedirect _ _ _ => false
  end.

(** types.rs:10-32 [RequestKey] *)
Record key := mk_key { k_path : bytes; k_encoding : option bytes; k_range : option N }.
Definition opt_eqb {A} (f : A -> A -> bool) (x y : option A) : bool :=
  match x, y with Some a, Some b => f a b | None, None => true | _, _ => false end.
Definition key_eqb (x y : key) : bool :=
  bytes_eqb (k_path x) (k_path y) && opt_eqb bytes_eqb (k_encoding x) (k_encoding y) && opt_eqb N.eqb (k_range x) (k_range y).
(** types.rs:3-8 [CertifiedAssetResponse] *)
Record certified := mk_certified { ca_response : response; ca_entry : entry }.

(** std HashMap: [get], [insert], [remove] *)
Section Map.
  Context {K V : Type} (eqb : K -> K -> bool).
  Fixpoint m_get (k : K) (m : list (K * V)) : option V :=
    match m with [] => None | (x, v) :: r => if eqb k x then Some v else m_get k r end.
  Definition m_remove (k : K) (m : list (K * V)) : list (K * V) := filter (fun x => negb (eqb k (fst x))) m.
  Definition m_insert (k : K) (v : V) (m : list (K * V)) : list (K * V) := (k, v) :: m_remove k m.
End Map.

(** asset_router.rs:115-119 [AssetRouter] *)
Definition store := list (key * certified).
Record router := mk_router { r_tree : ntree; r_responses : store; r_fallbacks : store }.
(** asset_router.rs:172-189 [new], [with_tree] *)
Definition router_with (t : ntree) : router := mk_router t [] [].
Definition router_new : router := router_with ndefault.

(** asset_router.rs:980-1002 [default_encoding_quality], times ten *)
Definition encoding_quality (e : bytes) : N :=
  if eq_nocase e (bs "br") then 10
  else if eq_nocase e (bs "zstd") then 9
  else if eq_nocase e (bs "gzip") then 8
  else if eq_nocase e (bs "deflate") then 7
  else if eq_nocase e (bs "identity") then 5
  else 6.
(** asset_router.rs:960-978 [prioritized_encodings]; [sort] is [sort_unstable_by]
    with this comparison: any permutation in descending quality.  [split(';')] always has a first element. *)
Definition prioritized_encodings (sort : list (bytes * N) -> list (bytes * N)) (s : bytes) : list bytes :=
  map fst (sort (map (fun e => let n := trim (match split_on ";" e with x :: _ => x | [] => [] end) in (n, encoding_quality n)) (split_on "," s))).
(** asset_router.rs:938-945, 947-958: the first header of a name.  [to_lowercase] is ASCII here: no
    character outside ASCII lower-cases to a letter of the names compared with. *)
Fixpoint first_header (name : bytes) (hs : list (bytes * bytes)) : option bytes :=
  match hs with [] => None | (n, v) :: r => if bytes_eqb (lower n) name then Some v else first_header name r end.
Definition get_preferred_encodings (sort : list (bytes * N) -> list (bytes * N)) (rq : request) : list bytes :=
  match first_header (bs "accept-encoding") (rq_headers rq) with
  | Some v => prioritized_encodings sort v
  | None => []
  end.
(** asset_router.rs:191-199 [maybe_get_range_begin] *)
Definition maybe_get_range_begin (umod : N) (rq : request) : out (option N) :=
  match first_header (bs "range") (rq_headers rq) with
  | Some v => match parse_range umod v with Some (b, _) => OOk (Some b) | None => OErr end
  | None => OOk None
  end.

Section Router.
  (** chunk size, hash, URL parsing, globset: [None] is a malformed pattern *)
  Variables (cs : N) (H : bytes -> bytes) (uri_path : bytes -> option bytes) (uri_query : bytes -> option (option bytes))
            (glob : bytes -> option (bytes -> bool)) (umod : N).

  (** asset_router.rs:889-918 [get_encoded_asset] *)
  Fixpoint get_encoded_asset (m : store) (preferred : list bytes) (url : bytes) (range : option N) : option certified :=
    match preferred with
    | [] => None
    | e :: r =>
        match m_get key_eqb (mk_key url (Some e) range) m with
        | Some c =>
            if cs <? N.of_nat (length (rs_body (ca_response c)))
            then m_get key_eqb (mk_key url (Some e) (Some 0)) m
            else Some c
        | None => get_encoded_asset m r url range
        end
    end.
  (** asset_router.rs:920-936 [get_encoded_fallback_asset] *)
  Fixpoint get_encoded_fallback (m : store) (preferred : list bytes) (scope : bytes) : option certified :=
    match preferred with
    | [] => None
    | e :: r =>
        match m_get key_eqb (mk_key scope (Some e) None) m with
        | Some c => Some c
        | None => get_encoded_fallback m r scope
        end
    end.
  (** asset_router.rs:424-431 and 435-444: one scope *)
  Definition fallback_at (m : store) (preferred : list bytes) (scope : bytes) : option certified :=
    match get_encoded_fallback m preferred scope with
    | Some c => Some c
    | None => m_get key_eqb (mk_key scope None None) m
    end.
  (** asset_router.rs:417-450: the loop over [url_scopes], given reversed *)
  Fixpoint fallback_loop (m : store) (preferred : list bytes) (rev_scopes : list bytes) : option certified :=
    match rev_scopes with
    | [] => None
    | _ :: r =>
        let scope := join (bs "/") (rev rev_scopes) in
        match fallback_at m preferred (scope ++ bs "/") with
        | Some c => Some c
        | None =>
            match fallback_at m preferred scope with
            | Some c => Some c
            | None => fallback_loop m preferred r
            end
        end
    end.
  (** asset_router.rs:394-458 [get_asset_for_request]; the bool tells a fallback *)
  Definition get_asset_for_request (st : router) (path : bytes) (preferred : list bytes) (range : option N) : option (bool * certified) :=
    let fallback := option_map (pair true) (fallback_loop (r_fallbacks st) preferred (tl (rev (split_on "/" path)))) in
    match get_encoded_asset (r_responses st) preferred path range with
    | Some c => Some (false, c)
    | None =>
        match m_get key_eqb (mk_key path None range) (r_responses st) with
        | Some c =>
            if cs <? N.of_nat (length (rs_body (ca_response c))) then
              match m_get key_eqb (mk_key path None (Some 0)) (r_responses st) with
              | Some c0 => Some (false, c0)
              | None => fallback
              end
            else Some (false, c)
        | None => fallback
        end
    end.

  (** asset_router.rs:220-245 [serve_asset] *)
  Definition serve_asset (sort : list (bytes * N) -> list (bytes * N)) (st : router) (data_certificate : bytes) (rq : request) : out response :=
    let preferred := get_preferred_encodings sort rq in
    ok path <- get_path uri_path rq;
    ok range <- maybe_get_range_begin umod rq;
    match get_asset_for_request st path preferred range with
    | None => OErr
    | Some (_, c) =>
        ok w <- http_witness H (r_tree st) (ca_entry c) path;
        OOk (add_v2_certificate_header data_certificate (ca_response c) w (expr_path (en_path (ca_entry c))))
    end.

  (** asset_router.rs:852-887 [prepare_response_and_certification] *)
  Definition prepare_response (url : bytes) (status : N) (body : bytes) (additional : list (bytes * bytes))
      (request_headers : list bytes) : option (response * certification) :=
    let qc := mk_request_cert request_headers [] in
    let rc := HeaderExclusions [] in
    let headers := (bs "content-length", dec (N.of_nat (length body))) :: additional ++
                   [(cert_expr_header_name, print_cel (CelFull qc rc))] in
    let rq := mk_request (bs "GET") url [] [] in
    let rs := mk_response status headers body in
    match certify_full H uri_query qc rc rq rs None with
    | Some c => Some (rs, c)
    | None => None
    end.
  (** slice [range_begin..range_end + 1] *)
  Definition slice (from to : N) (s : bytes) : bytes := firstn (N.to_nat (to - from)) (skipn (N.to_nat from) s).
  (** asset_router.rs:809-850 [prepare_asset_response_and_certification] *)
  Definition prepare_asset_response (a : asset) (additional : list (bytes * bytes)) (content_type : option bytes)
      (enc : option encoding) (range : option N) (status : option N) : option (response * certification) :=
    let headers := additional ++
      match content_type with Some t => [(bs "content-type", t)] | None => [] end ++
      match enc with Some e => [(bs "content-encoding", encoding_name e)] | None => [] end in
    match range with
    | Some b =>
        let total := N.of_nat (length (as_content a)) in
        let e := N.min (b + cs) total - 1 in
        prepare_response (as_url a) 206 (slice b (e + 1) (as_content a))
          (headers ++ [(bs "content-range", bs "bytes " ++ dec b ++ bs "-" ++ dec e ++ bs "/" ++ dec total)])
          [bs "range"]
    | None => prepare_response (as_url a) (match status with Some s => s | None => 200 end) (as_content a) headers []
    end.
  (** asset_router.rs:647-672 [prepare_static_asset] *)
  Definition prepare_static (a : asset) (content_type : option bytes) (additional : list (bytes * bytes))
      (enc : option encoding) (range : option N) : option certified :=
    match prepare_asset_response a additional content_type enc range None with
    | Some (rs, c) => Some (mk_certified rs (mk_entry (PExact (as_url a)) c))
    | None => None
    end.
  (** asset_router.rs:723-748 [prepare_fallback_asset] *)
  Definition prepare_fallback (a : asset) (additional : list (bytes * bytes)) (content_type : option bytes)
      (fb : fallback_config) (enc : option encoding) : option certified :=
    match prepare_asset_response a additional content_type enc None (fb_status fb) with
    | Some (rs, c) => Some (mk_certified rs (mk_entry (PWildcard (fb_scope fb)) c))
    | None => None
    end.
  (** asset_router.rs:780-807 [prepare_redirect] *)
  Definition prepare_redirect (from to : bytes) (kind : redirect_kind) : option certified :=
    match prepare_response from (match kind with Permanent => 301 | Temporary => 307 end) [] [(bs "location", to)] [] with
    | Some (rs, c) => Some (mk_certified rs (mk_entry (PExact from) c))
    | None => None
    end.

  (** A method on [&mut self] returning a Result: the state afterwards, also when it fails. *)
  Definition act := router -> router * out unit.
  Definition done : act := fun st => (st, OOk tt).
  Definition seq (a b : act) : act := fun st => let (st1, o) := a st in match o with OOk _ => b st1 | _ => (st1, o) end.
  Fixpoint each {A} (f : A -> act) (l : list A) : act := match l with [] => done | x :: r => seq (f x) (each f r) end.
  (** [self.tree.borrow_mut().insert/delete] *)
  Definition tree_act (o : http_op) : act := fun st =>
    match nstep H (r_tree st) (http_nop o) with
    | Some t => (mk_router t (r_responses st) (r_fallbacks st), OOk tt)
    | None => (st, OPanic)
    end.
  Definition on_responses (f : store -> store) : act := fun st => (mk_router (r_tree st) (f (r_responses st)) (r_fallbacks st), OOk tt).
  Definition on_fallbacks (f : store -> store) : act := fun st => (mk_router (r_tree st) (r_responses st) (f (r_fallbacks st)), OOk tt).
  Definition attempt {A} (o : option A) (f : A -> act) : act := match o with Some a => f a | None => fun st => (st, OErr) end.
  Definition encoding_str (e : option encoding) : option bytes := option_map encoding_name e.

  (** the values [range_begin] takes in [while range_begin < len { ...; range_begin += ASSET_CHUNK_SIZE }];
      [len + 1] rounds are enough for a positive chunk size *)
  Fixpoint range_begins_f (fuel : nat) (b len : N) : list N :=
    match fuel with O => [] | S f => if b <? len then b :: range_begins_f f (b + cs) len else [] end.
  Definition range_begins (len : N) : list N := range_begins_f (S (N.to_nat len)) 0 len.

  (** asset_router.rs:576-614 [insert_static_asset] *)
  Definition insert_static (a : asset) (content_type : option bytes) (additional : list (bytes * bytes)) (enc : option encoding) : act :=
    let insert_one range :=
      attempt (prepare_static a content_type additional enc range) (fun c =>
        seq (tree_act (HInsert (ca_entry c)))
            (on_responses (m_insert key_eqb (mk_key (as_url a) (encoding_str enc) range) c))) in
    let total := N.of_nat (length (as_content a)) in
    seq (if cs <? total then each (fun b => insert_one (Some b)) (range_begins total) else done) (insert_one None).
  (** asset_router.rs:616-645 [delete_static_asset] *)
  Definition delete_static (a : asset) (content_type : option bytes) (additional : list (bytes * bytes)) (enc : option encoding) : act :=
    attempt (prepare_static a content_type additional enc None) (fun c =>
      seq (tree_act (HDelete (ca_entry c)))
      (seq (on_responses (m_remove key_eqb (mk_key (as_url a) (encoding_str enc) None)))
           (let len := N.of_nat (length (rs_body (ca_response c))) in
            if cs <? len
            then each (fun b => on_responses (m_remove key_eqb (mk_key (as_url a) (encoding_str enc) (Some b)))) (range_begins len)
            else done))).
  (** asset_router.rs:674-696 [insert_fallback_asset], 698-721 [delete_fallback_asset] *)
  Definition insert_fallback (a : asset) (content_type : option bytes) (additional : list (bytes * bytes)) (fb : fallback_config) (enc : option encoding) : act :=
    attempt (prepare_fallback a additional content_type fb enc) (fun c =>
      seq (tree_act (HInsert (ca_entry c))) (on_fallbacks (m_insert key_eqb (mk_key (fb_scope fb) (encoding_str enc) None) c))).
  Definition delete_fallback (a : asset) (content_type : option bytes) (additional : list (bytes * bytes)) (fb : fallback_config) (enc : option encoding) : act :=
    attempt (prepare_fallback a additional content_type fb enc) (fun c =>
      seq (tree_act (HDelete (ca_entry c))) (on_fallbacks (m_remove key_eqb (mk_key (fb_scope fb) (encoding_str enc) None)))).
  (** asset_router.rs:750-764 [insert_redirect], 766-778 [delete_redirect] *)
  Definition insert_redirect (from to : bytes) (kind : redirect_kind) : act :=
    attempt (prepare_redirect from to kind) (fun c =>
      seq (tree_act (HInsert (ca_entry c))) (on_responses (m_insert key_eqb (mk_key from None None) c))).
  Definition delete_redirect (from to : bytes) (kind : redirect_kind) : act :=
    attempt (prepare_redirect from to kind) (fun c =>
      seq (tree_act (HDelete (ca_entry c))) (on_responses (m_remove key_eqb (mk_key from None None)))).

  Definition aliased (a : asset) (u : bytes) : asset := mk_asset (as_path a) u (as_content a).
  (** asset_router.rs:460-516 [certify_asset_impl], 518-574 [delete_asset_impl] *)
  Definition certify_asset (a : asset) (c : option config) (enc : option encoding) : act :=
    match c with
    | Some (NPattern _ ct hs _) => insert_static a ct hs enc
    | Some (NFile _ ct hs fbs als _) =>
        seq (insert_static a ct hs enc)
        (seq (each (fun fb => insert_fallback a ct hs fb enc) fbs)
             (each (fun u => insert_static (aliased a u) ct hs enc) als))
    | _ => insert_static a None [] enc
    end.
  Definition delete_asset (a : asset) (c : option config) (enc : option encoding) : act :=
    match c with
    | Some (NPattern _ ct hs _) => delete_static a ct hs enc
    | Some (NFile _ ct hs fbs als _) =>
        seq (delete_static a ct hs enc)
        (seq (each (fun fb => delete_fallback a ct hs fb enc) fbs)
             (each (fun u => delete_static (aliased a u) ct hs enc) als))
    | _ => delete_static a None [] enc
    end.

  (** asset_config.rs:541-577 [TryFrom<AssetConfig>] *)
  Definition normalize (c : asset_config) : option config :=
    match c with
    | ConfigFile p ct hs fbs als encs => Some (NFile p ct hs fbs als encs)
    | ConfigPattern p ct hs encs => match glob p with Some m => Some (NPattern m ct hs encs) | None => None end
    | ConfigRedirect f t k => Some (NRedirect f t k)
    end.
  Fixpoint normalize_all (l : list asset_config) : option (list config) :=
    match l with
    | [] => Some []
    | c :: r => match normalize c, normalize_all r with Some n, Some ns => Some (n :: ns) | _, _ => None end
    end.
  (** asset_router.rs:286-289: [collect] into a HashMap, the last asset of a path wins *)
  Definition asset_map (l : list asset) : list (bytes * asset) :=
    fold_left (fun m a => m_insert bytes_eqb (as_path a) a m) l [].
  Definition encodings_of (c : option config) : list (encoding * bytes) :=
    match c with Some (NFile _ _ _ _ _ e) => e | Some (NPattern _ _ _ e) => e | _ => [] end.
  (** asset_router.rs:291-312, 345-366: one asset of the map and its encoded variants *)
  Definition asset_acts (f : asset -> option config -> option encoding -> act) (m : list (bytes * asset)) (cfgs : list config) (a : asset) : act :=
    let c := find (fun x => matches_asset x a) cfgs in
    seq (each (fun x => match m_get bytes_eqb (as_path a ++ snd x) m with
                        | Some ea => f (aliased ea (as_url a)) c (Some (fst x))
                        | None => done
                        end) (encodings_of c))
        (f a c None).
  (** asset_router.rs:276-320 [certify_assets]; [order] is the iteration order of the map's values *)
  Definition certify_assets (order : list asset -> list asset) (assets : list asset) (configs : list asset_config) : act :=
    attempt (normalize_all configs) (fun cfgs =>
      let m := asset_map assets in
      seq (each (asset_acts certify_asset m cfgs) (order (map snd m)))
          (each (fun c => match c with NRedirect f t k => insert_redirect f t k | _ => done end) cfgs)).
  (** asset_router.rs:330-376 [delete_assets] *)
  Definition delete_assets (order : list asset -> list asset) (assets : list asset) (configs : list asset_config) : act :=
    attempt (normalize_all configs) (fun cfgs =>
      let m := asset_map assets in
      seq (each (asset_acts delete_asset m cfgs) (order (map snd m)))
          (each (fun c => match c with NRedirect f t k => delete_redirect f t k | _ => done end) cfgs)).
  (** asset_router.rs:382-386 [delete_all_assets] *)
  Definition delete_all_assets : act := fun st => (mk_router ndefault [] [], OOk tt).
  (** asset_router.rs:390-392 [root_hash] *)
  Definition router_root_hash (st : router) : bytes := http_root_hash H (r_tree st).

  (** A history of calls on one router; a failing call leaves what it did before failing. *)
  Inductive call :=
  | CallCertify (order : list asset -> list asset) (assets : list asset) (configs : list asset_config)
  | CallDelete (order : list asset -> list asset) (assets : list asset) (configs : list asset_config)
  | CallDeleteAll.
  Definition run_call (c : call) : act :=
    match c with
    | CallCertify o a c => certify_assets o a c
    | CallDelete o a c => delete_assets o a c
    | CallDeleteAll => delete_all_assets
    end.
  Fixpoint run_calls (cs : list call) (st : router) : router :=
    match cs with [] => st | c :: r => run_calls r (fst (run_call c st)) end.
End Router.
