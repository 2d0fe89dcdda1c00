(** Specification vocabulary for C87-C90: the todo list a history of calls leads to, and the
    responses that are correct for a request. *)
From Coq Require Import List NArith Bool Permutation.
From Verif Require Import Bytes HashTreeSpec HttpTypes HttpSpec Cel V2 Verify VerifySpec HttpTree HttpTreeSpec RangeSpec JsonApi.
Import ListNotations.
Local Open Scope N_scope.

(** A todo list: for each id a title and whether it is completed; and the id of the next one. *)
Record todos := mk_todos { next_id : N; item_at : N -> option (bytes * bool) }.
Definition no_todos : todos := mk_todos 0 (fun _ => None).
(** what a request asks for *)
Inductive wish := Create (title : bytes) | Change (id : N) (title : option bytes) (completed : option bool) | Remove (id : N).

Section Spec.
  Variables (uri_path : bytes -> option bytes) (parse_create : bytes -> option bytes) (parse_update : bytes -> option (option bytes * option bool)) (checked : bool).

  (** POST /todos with a title; PATCH /todos/<id> with changes; DELETE /todos/<id>.  Methods in any case. *)
  Definition item_path (rq : request) (id : N) : Prop :=
    exists s, path_of uri_path rq (bs "/todos/" ++ s) /\ number s id /\ id < 2 ^ 32.
  Definition asks (rq : request) (w : wish) : Prop :=
    match w with
    | Create t => same_name (rq_method rq) (bs "POST") /\ path_of uri_path rq (bs "/todos") /\ parse_create (rq_body rq) = Some t
    | Change id t c => same_name (rq_method rq) (bs "PATCH") /\ item_path rq id /\ parse_update (rq_body rq) = Some (t, c)
    | Remove id => same_name (rq_method rq) (bs "DELETE") /\ item_path rq id
    end.
  (** [s'] is [s] after the wish.  Ids are 32 bits wide; a build with overflow checks stops at the
      last one. *)
  Definition fulfils (w : wish) (s s' : todos) : Prop :=
    match w with
    | Create t => (checked = true -> next_id s + 1 < 2 ^ 32) /\ next_id s' = (next_id s + 1) mod 2 ^ 32 /\
        item_at s' (next_id s) = Some (t, false) /\ forall j, j <> next_id s -> item_at s' j = item_at s j
    | Change id t c => exists t0 c0, item_at s id = Some (t0, c0) /\ next_id s' = next_id s /\
        item_at s' id = Some (match t with Some x => x | None => t0 end, match c with Some x => x | None => c0 end) /\
        forall j, j <> id -> item_at s' j = item_at s j
    | Remove id => next_id s' = next_id s /\ item_at s' id = None /\ forall j, j <> id -> item_at s' j = item_at s j
    end.
  (** The todo list after a history: an upgrade empties it, an update does what it asks for, if that is possible. *)
  Inductive follows : list event -> todos -> Prop :=
  | FollowsStart : follows [] no_todos
  | FollowsUpgrade es s o : follows es s -> follows (es ++ [Upgrade o]) no_todos
  | FollowsUpdate es s s' o rq w : follows es s -> asks rq w -> fulfils w s s' -> follows (es ++ [Update o rq]) s'
  | FollowsNothing es s o rq : follows es s -> (forall w s', asks rq w -> ~ fulfils w s s') -> follows (es ++ [Update o rq]) s.
End Spec.

(** The list [l] shows exactly the items of [s], each once. *)
Definition shows (l : list todo) (s : todos) : Prop :=
  NoDup (map td_id l) /\ forall id t c, In (mk_todo id t c) l <-> item_at s id = Some (t, c).
(** HashMaps are iterated in some order. *)
Definition some_order (e : event) : Prop :=
  match e with Update o _ | Upgrade o => forall l, Permutation (o l) l end.

(** The responses of the api, before the certificate header is added. *)
Definition with_expression (rs : response) (ce : cel) : response :=
  mk_response (rs_status rs) (rs_headers rs ++ [(bs "IC-CertificateExpression", print_cel ce)]) (rs_body rs).
Definition todo_expression : cel := CelFull (mk_request_cert [] []) (HeaderExclusions []).
Definition fallback_expression : cel := CelResponseOnly (HeaderExclusions []).
(** every response is JSON, to be used over https and not to be cached *)
Definition answer (status : N) (body : bytes) : response :=
  mk_response status
    [(bs "content-type", bs "application/json"); (bs "strict-transport-security", bs "max-age=31536000; includeSubDomains");
     (bs "x-content-type-options", bs "nosniff"); (bs "referrer-policy", bs "no-referrer"); (bs "cache-control", bs "no-store, max-age=0");
     (bs "pragma", bs "no-cache")] body.
Definition listing (l : list todo) : response := with_expression (answer 200 (list_body l)) todo_expression.
Definition refusal : response := with_expression (answer 405 (json_err 405 (bs "Method not allowed"))) todo_expression.
Definition missing : response := with_expression (answer 404 (json_err 404 (bs "Not found"))) fallback_expression.
Definition refused : list bytes := [bs "HEAD"; bs "PUT"; bs "PATCH"; bs "OPTIONS"; bs "TRACE"; bs "CONNECT"].
(** a request without body and query *)
Definition plain_request (uri_query : bytes -> option (option bytes)) (rq : request) : Prop := rq_body rq = [] /\ uri_query (rq_url rq) = Some None.
(** [rs] is what the api is to answer: for the path /todos the list to a GET, a refusal to some
    other methods, both to requests without body and query; for every other path that nothing is there. *)
Inductive correct (uri_query : bytes -> option (option bytes)) (s : todos) (rq : request) (path : bytes) : response -> Prop :=
| CorrectList l : request_parts path = [bs "todos"] -> rq_method rq = bs "GET" -> plain_request uri_query rq -> shows l s ->
    correct uri_query s rq path (listing l)
| CorrectRefusal : request_parts path = [bs "todos"] -> In (rq_method rq) refused -> plain_request uri_query rq ->
    correct uri_query s rq path refusal
| CorrectMissing : request_parts path <> [bs "todos"] -> correct uri_query s rq path missing.
(** a response with its certificate header *)
Definition with_certificate (rs : response) (v : bytes) : response := mk_response (rs_status rs) (rs_headers rs ++ [(bs "IC-Certificate", v)]) (rs_body rs).
(** the methods whose requests the canister's query router passes on *)
Definition queried (m : bytes) : Prop := Exists (same_name m) [bs "GET"; bs "HEAD"; bs "PUT"; bs "OPTIONS"; bs "TRACE"; bs "CONNECT"].
(** The answers to update calls: what was created, or "ok"; status 400 for queries sent as updates.
    A call that can do nothing else is not answered (it traps). *)
Definition reply (w : wish) (s : todos) : response :=
  match w with
  | Create t => answer 201 (json_ok (json_todo (mk_todo (next_id s) t false)))
  | Change _ _ _ => answer 200 (json_ok (bs "null"))
  | Remove _ => answer 204 (json_ok (bs "null"))
  end.
Definition no_update : response := answer 400 [].
(** a collision among the messages hashed for two of the requests that are certified *)
Definition methods_collide (H : bytes -> bytes) : Prop :=
  exists m m', In m (bs "GET" :: refused) /\ In m' (bs "GET" :: refused) /\ m <> m' /\
    collision H (request_messages H (mk_request m (bs "/todos") [] []) [] None) (request_messages H (mk_request m' (bs "/todos") [] []) [] None).
