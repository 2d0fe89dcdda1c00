(** Model of the example canister
    /repo/examples/http-certification/json-api/src/backend/src/{lib.rs,types.rs}.
    A trap ([unwrap], [expect], [panic!]) is [None]; the caller of an update method then keeps the
    old state, as the IC does.  [serde_json::to_vec] is written out for the types of types.rs;
    [serde_json::from_slice] is a pair of parameters.  The two matchit routers are written as route
    tables with the matching rules of matchit 0.8.  The iteration order of [TODO_ITEMS] is a parameter of
    each call.  FULL_CEL_EXPRS and RESPONSE_ONLY_CEL_EXPRS never change after [init]: they are constants here. *)
From Coq Require Import List NArith Bool.
From Verif Require Import Bytes Text Nested Cbor HttpTypes HttpHash Cel V2 Verify HttpTree AssetRouter.
Import ListNotations.
Local Open Scope N_scope.

(** types.rs:5-10 [TodoItem] *)
Record todo := mk_todo { td_id : N; td_title : bytes; td_completed : bool }.

(** ** serde_json for the types of types.rs *)
Definition hex_char (n : N) : byte := nth (N.to_nat n) (bs "0123456789abcdef") x30.
(** serde_json's string escapes: two-character ones, \u00XX for other control characters *)
Definition json_escape (b : byte) : bytes :=
  match b with
  | x08 => bs "\b" | x09 => bs "\t" | x0a => bs "\n" | x0c => bs "\f" | x0d => bs "\r"
  | x22 => x5c :: [x22] | x5c => bs "\\"
  | _ => if b2n b <? 32 then bs "\u00" ++ [hex_char (b2n b / 16); hex_char (b2n b mod 16)] else [b]
  end.
Definition json_string (s : bytes) : bytes := x22 :: flat_map json_escape s ++ [x22].
Definition quoted (s : bytes) : bytes := x22 :: s ++ [x22].
(** types.rs:5-10, derived [Serialize] *)
Definition json_todo (t : todo) : bytes :=
  bs "{" ++ quoted (bs "id") ++ bs ":" ++ dec (td_id t) ++ bs "," ++ quoted (bs "title") ++ bs ":" ++ json_string (td_title t) ++
  bs "," ++ quoted (bs "completed") ++ bs ":" ++ (if td_completed t then bs "true" else bs "false") ++ bs "}".
Definition json_list (l : list todo) : bytes := bs "[" ++ join (bs ",") (map json_todo l) ++ bs "]".
(** types.rs:12-18, :21-23 [ApiResponse::Ok], :37-39 [encode] *)
Definition json_ok (data : bytes) : bytes := bs "{" ++ quoted (bs "ok") ++ bs ":{" ++ quoted (bs "data") ++ bs ":" ++ data ++ bs "}}".
(** types.rs:25-35 [not_found], [not_allowed], [err] *)
Definition json_err (code : N) (message : bytes) : bytes :=
  bs "{" ++ quoted (bs "err") ++ bs ":{" ++ quoted (bs "code") ++ bs ":" ++ dec code ++ bs "," ++ quoted (bs "message") ++ bs ":" ++ json_string message ++ bs "}}".

(** ** State: lib.rs:76-101 *)
(** lib.rs:76-80 [CertifiedHttpResponse] *)
Record cresp := mk_cresp { cr_response : response; cr_certification : certification }.
(** lib.rs:82-101; [ap_data] is the argument of the last [set_certified_data] *)
Record api := mk_api { ap_next : N; ap_items : list (N * todo); ap_tree : ntree;
  ap_fallbacks : list (bytes * cresp); ap_responses : list ((bytes * bytes) * cresp); ap_data : option bytes }.
Definition api_default : api := mk_api 0 [] ndefault [] [] None.

(** lib.rs:103-111 *)
Definition todos_path : bytes := bs "/todos".
Definition not_found_path : bytes := [].
Definition todos_tree_path : cert_path := PExact todos_path.
Definition not_found_tree_path : cert_path := PWildcard not_found_path.

(** lib.rs:115-169 [prepare_cel_exprs] *)
Definition todo_request_cert : request_cert := mk_request_cert [] [].
Definition all_headers : response_cert := HeaderExclusions [].
Definition full_cel_exprs : list (bytes * (request_cert * response_cert)) := [(todos_path, (todo_request_cert, all_headers))].
Definition response_only_cel_exprs : list (bytes * response_cert) := [(not_found_path, all_headers)].

(** lib.rs:477-496 [create_response] *)
Definition api_headers : list (bytes * bytes) :=
  [(bs "content-type", bs "application/json"); (bs "strict-transport-security", bs "max-age=31536000; includeSubDomains");
   (bs "x-content-type-options", bs "nosniff"); (bs "referrer-policy", bs "no-referrer"); (bs "cache-control", bs "no-store, max-age=0");
   (bs "pragma", bs "no-cache")].
Definition create_response (status : N) (body : bytes) : response := mk_response status api_headers body.

Definition pair_eqb (a b : bytes * bytes) : bool := bytes_eqb (fst a) (fst b) && bytes_eqb (snd a) (snd b).
(** the methods of the [http] crate are ASCII *)
Definition upper_byte (b : byte) : byte := if (97 <=? b2n b) && (b2n b <=? 122) then n2b (b2n b - 32) else b.
Definition upper (s : bytes) : bytes := map upper_byte s.

(** ** Routes *)
(** lib.rs:308-340 route handlers and patterns: a literal path; a literal and a parameter (one
    non-empty segment); a literal and a catch-all (a non-empty rest) *)
Inductive pattern := Literal (p : bytes) | OneSegment (p : bytes) | Rest (p : bytes).
Fixpoint strip_prefix (p s : bytes) : option bytes :=
  match p, s with
  | [], _ => Some s
  | x :: p', y :: s' => if byte_eqb x y then strip_prefix p' s' else None
  | _ :: _, [] => None
  end.
(** matchit::Router::at for a router with the given route; [Some] with the parameter, if it matches *)
Definition pattern_match (r : pattern) (path : bytes) : option bytes :=
  match r with
  | Literal p => if bytes_eqb p path then Some [] else None
  | OneSegment p => match strip_prefix p path with
                    | Some (b :: s) => if existsb (byte_eqb "/") (b :: s) then None else Some (b :: s)
                    | _ => None
                    end
  | Rest p => match strip_prefix p path with Some (b :: s) => Some (b :: s) | _ => None end
  end.
Inductive query_route := RouteUpgrade | RouteQuery.
Inductive update_route := RouteCreate | RouteUpdate | RouteDelete | RouteNone.
Definition query_methods : list bytes := [bs "GET"; bs "HEAD"; bs "PUT"; bs "OPTIONS"; bs "TRACE"; bs "CONNECT"].
(** lib.rs:308-319 [prepare_query_handlers] *)
Definition query_routes : list (bytes * (pattern * query_route)) :=
  [(bs "POST", (Literal (bs "/todos"), RouteUpgrade)); (bs "PATCH", (OneSegment (bs "/todos/"), RouteUpgrade)); (bs "DELETE", (OneSegment (bs "/todos/"), RouteUpgrade))] ++
  map (fun m => (m, (Rest (bs "/"), RouteQuery))) query_methods.
(** lib.rs:329-340 [prepare_update_handlers] *)
Definition update_routes : list (bytes * (pattern * update_route)) :=
  [(bs "POST", (Literal todos_path, RouteCreate)); (bs "PATCH", (OneSegment (bs "/todos/"), RouteUpdate)); (bs "DELETE", (OneSegment (bs "/todos/"), RouteDelete))] ++
  map (fun m => (m, (Rest (bs "/"), RouteNone))) query_methods.
(** lib.rs:48-56, :63-71: the method's router, then the match; [None]: one of the two [unwrap]s traps *)
Definition route {A} (routes : list (bytes * (pattern * A))) (method path : bytes) : option (A * bytes) :=
  match m_get bytes_eqb (upper method) routes with
  | None => None
  | Some (p, h) => option_map (fun x => (h, x)) (pattern_match p path)
  end.

Section Api.
  Variables (H : bytes -> bytes) (uri_path : bytes -> option bytes) (uri_query : bytes -> option (option bytes)).
  (** [serde_json::from_slice] to [CreateTodoItemRequest] (its title), [UpdateTodoItemRequest] (title, completed); [None]: an error *)
  Variables (parse_create : bytes -> option bytes) (parse_update : bytes -> option (option bytes * option bool)).
  (** whether the build checks for arithmetic overflow *)
  Variable checked : bool.

  Definition trap_of {A} (o : out A) : option A := match o with OOk x => Some x | _ => None end.
  Notation "'let?' x := a 'in' b" := (match a with None => None | Some x => b end) (at level 200, x name, a at level 100, b at level 200).

  (** lib.rs:250-304 [certify_response] *)
  Definition certify_response (rq : request) (rs : response) (tree_path : cert_path) (st : api) : option api :=
    let? request_path := trap_of (get_path uri_path rq) in
    let key := (rq_method rq, request_path) in
    let existing := m_get pair_eqb key (ap_responses st) in
    let responses := m_remove pair_eqb key (ap_responses st) in
    let? tree := match existing with
                 | Some e => ndelete H (entry_tree_path (mk_entry tree_path (cr_certification e))) (ap_tree st)
                 | None => Some (ap_tree st)
                 end in
    let? ce := m_get bytes_eqb request_path full_cel_exprs in
    let rs := add_header rs (cert_expr_header_name, print_cel (CelFull (fst ce) (snd ce))) in
    let? certification := certify_full H uri_query (fst ce) (snd ce) rq rs None in
    let responses := m_insert pair_eqb key (mk_cresp rs certification) responses in
    let? tree := ninsert H (entry_tree_path (mk_entry tree_path certification)) [] tree in
    Some (mk_api (ap_next st) (ap_items st) tree (ap_fallbacks st) responses (Some (http_root_hash H tree))).

  (** lib.rs:171-186 [certify_list_todos_response] *)
  Definition list_body (l : list todo) : bytes := json_ok (json_list l).
  Definition certify_list_todos (order : list (N * todo) -> list (N * todo)) (st : api) : option api :=
    certify_response (mk_request (bs "GET") todos_path [] []) (create_response 200 (list_body (map snd (order (ap_items st))))) todos_tree_path st.
  (** lib.rs:188-209 [certify_not_allowed_todo_responses] *)
  Definition not_allowed_methods : list bytes := [bs "HEAD"; bs "PUT"; bs "PATCH"; bs "OPTIONS"; bs "TRACE"; bs "CONNECT"].
  Definition not_allowed_response : response := create_response 405 (json_err 405 (bs "Method not allowed")).
  Fixpoint certify_not_allowed (methods : list bytes) (st : api) : option api :=
    match methods with
    | [] => Some st
    | m :: r => let? st := certify_response (mk_request m todos_path [] []) not_allowed_response todos_tree_path st in certify_not_allowed r st
    end.
  (** lib.rs:211-248 [certify_not_found_response] *)
  Definition not_found_response : response := create_response 404 (json_err 404 (bs "Not found")).
  Definition certify_not_found (st : api) : option api :=
    let? rc := m_get bytes_eqb not_found_path response_only_cel_exprs in
    let rs := add_header not_found_response (cert_expr_header_name, print_cel (CelResponseOnly rc)) in
    let? certification := certify_response_only H rc rs None in
    let? tree := ninsert H (entry_tree_path (mk_entry (PWildcard not_found_path) certification)) [] (ap_tree st) in
    Some (mk_api (ap_next st) (ap_items st) tree (m_insert bytes_eqb not_found_path (mk_cresp rs certification) (ap_fallbacks st)) (ap_responses st) (Some (http_root_hash H tree))).
  (** lib.rs:22-41 [init], [post_upgrade]: both run on fresh thread-locals *)
  Definition init (order : list (N * todo) -> list (N * todo)) : option api :=
    let? st := certify_list_todos order api_default in
    let? st := certify_not_allowed not_allowed_methods st in
    certify_not_found st.

  (** lib.rs:350-393 [query_handler] *)
  Definition query_handler (st : api) (data_certificate : bytes) (rq : request) : option response :=
    let? request_path := trap_of (get_path uri_path rq) in
    let? found := match m_get pair_eqb (rq_method rq, request_path) (ap_responses st) with
                  | Some c => Some (PExact request_path, c)
                  | None => option_map (fun c => (not_found_tree_path, c)) (m_get bytes_eqb not_found_path (ap_fallbacks st))
                  end in
    let? witness := trap_of (http_witness H (ap_tree st) (mk_entry (fst found) (cr_certification (snd found))) request_path) in
    Some (add_v2_certificate_header data_certificate (cr_response (snd found)) witness (expr_path (fst found))).
  (** lib.rs:44-57 [http_request]; the response with its [upgrade] field (lib.rs:457-462
      [upgrade_to_update_call_handler]: the builder's defaults, status 200, no headers, no body) *)
  Definition http_request (st : api) (data_certificate : bytes) (rq : request) : option (response * option bool) :=
    let? path := trap_of (get_path uri_path rq) in
    match route query_routes (rq_method rq) path with
    | None => None
    | Some (RouteUpgrade, _) => Some (mk_response 200 [] [], Some true)
    | Some (RouteQuery, _) => option_map (fun rs => (rs, None)) (query_handler st data_certificate rq)
    end.

  Definition with_items (st : api) (next : N) (items : list (N * todo)) : api :=
    mk_api next items (ap_tree st) (ap_fallbacks st) (ap_responses st) (ap_data st).
  (** lib.rs:395-420 [create_todo_item_handler] *)
  Definition create_handler (order : list (N * todo) -> list (N * todo)) (st : api) (rq : request) : option (api * response) :=
    let? title := parse_create (rq_body rq) in
    let id := ap_next st in
    let? next := if checked && (id + 1 =? 2 ^ 32) then None else Some ((id + 1) mod 2 ^ 32) in
    let item := mk_todo id title false in
    let? st := certify_list_todos order (with_items st next (m_insert N.eqb id item (ap_items st))) in
    Some (st, create_response 201 (json_ok (json_todo item))).
  (** lib.rs:422-442 [update_todo_item_handler] *)
  Definition update_handler (order : list (N * todo) -> list (N * todo)) (st : api) (rq : request) (param : bytes) : option (api * response) :=
    let? changes := parse_update (rq_body rq) in
    let? id := parse_usize (2 ^ 32) param in
    let? item := m_get N.eqb id (ap_items st) in
    let item := match fst changes with Some t => mk_todo (td_id item) t (td_completed item) | None => item end in
    let item := match snd changes with Some c => mk_todo (td_id item) (td_title item) c | None => item end in
    let? st := certify_list_todos order (with_items st (ap_next st) (m_insert N.eqb id item (ap_items st))) in
    Some (st, create_response 200 (json_ok (bs "null"))).
  (** lib.rs:444-455 [delete_todo_item_handler] *)
  Definition delete_handler (order : list (N * todo) -> list (N * todo)) (st : api) (param : bytes) : option (api * response) :=
    let? id := parse_usize (2 ^ 32) param in
    let? st := certify_list_todos order (with_items st (ap_next st) (m_remove N.eqb id (ap_items st))) in
    Some (st, create_response 204 (json_ok (bs "null"))).
  (** lib.rs:59-72 [http_request_update]; lib.rs:464-466 [no_update_call_handler] *)
  Definition http_request_update (order : list (N * todo) -> list (N * todo)) (st : api) (rq : request) : option (api * response) :=
    let? path := trap_of (get_path uri_path rq) in
    match route update_routes (rq_method rq) path with
    | None => None
    | Some (RouteCreate, _) => create_handler order st rq
    | Some (RouteUpdate, p) => update_handler order st rq p
    | Some (RouteDelete, p) => delete_handler order st p
    | Some (RouteNone, _) => Some (st, create_response 400 [])
    end.

  (** The calls that change the state: an update call, which a trap rolls back, or an upgrade, which
      starts from fresh thread-locals (and is rolled back too if it traps). *)
  Inductive event := Update (order : list (N * todo) -> list (N * todo)) (rq : request) | Upgrade (order : list (N * todo) -> list (N * todo)).
  Definition step (st : api) (e : event) : api :=
    match e with
    | Update order rq => match http_request_update order st rq with Some (s, _) => s | None => st end
    | Upgrade order => match init order with Some s => s | None => st end
    end.
  Definition run_events (events : list event) (st : api) : api := fold_left step events st.
End Api.
