(** Specification vocabulary for C145 and C146: what an error of the certification library says is wrong. *)
From Coq Require Import List NArith Bool.
From Verif Require Import Bytes Text HttpTypes HttpSpec Cel V2 Header HeaderSpec Verify VerifySpec HttpTree HttpTreeSpec AssetRouter AssetSpec RangeSpec Errors CanisterErrors.
Import ListNotations.
Local Open Scope N_scope.

(** the values of the headers called IC-CertificateExpression, in their order *)
Inductive expressions : list (bytes * bytes) -> list bytes -> Prop :=
| ex_nil : expressions [] []
| ex_take n v hs vs : same_name n (bs "IC-CertificateExpression") -> expressions hs vs -> expressions ((n, v) :: hs) (v :: vs)
| ex_skip n v hs vs : ~ same_name n (bs "IC-CertificateExpression") -> expressions hs vs -> expressions ((n, v) :: hs) vs.
(** what is wrong with those values when a response is certified with the expression [expr] *)
Definition expression_fault (expr : bytes) (values : list bytes) (e : canister_error) : Prop :=
  match e with
  | CertificateExpressionHeaderMissing x => x = expr /\ values = []
  | CertificateExpressionHeaderMismatch x v => x = expr /\ v <> expr /\ exists r, values = v :: r \/ values = expr :: v :: r
  | MultipleCertificateExpressionHeaders x => x = expr /\ exists r, values = expr :: expr :: r
  | _ => False
  end.

(** [v] is [t] between white space, and [t] neither starts nor ends with white space *)
Definition stripped (v t : bytes) : Prop :=
  padded v t /\ (forall w s, In w ws_chars -> t <> w ++ s) /\ (forall w s, In w ws_chars -> t <> s ++ w).
(** [r] is [s] without its plus sign, if it has one *)
Definition unsigned (s r : bytes) : Prop := s = bs "+" ++ r \/ s = r /\ forall u, s <> bs "+" ++ u.
Definition digits (ds : bytes) : Prop := Forall (fun d => 48 <= b2n d <= 57) ds.
(** what is wrong with the text of a number below [umod], read from left to right *)
Definition int_fault (umod : N) (s : bytes) (f : int_error) : Prop :=
  match f with
  | IntEmpty => s = []
  | IntInvalidDigit => s <> [] /\ exists r, unsigned s r /\
      (r = [] \/ exists ds c rest, r = ds ++ c :: rest /\ digits ds /\ ~ digits [c] /\ forall n, decimal ds n -> n < umod)
  | IntPosOverflow => exists ds rest n, unsigned s (ds ++ rest) /\ decimal ds n /\ umod <= n
  end.
(** the text of what is wrong with the value [v] of a Range header *)
Inductive range_fault (umod : N) (v : bytes) : bytes -> Prop :=
| not_bytes t : stripped v t -> (forall u, t <> bs "bytes=" ++ u) ->
    range_fault umod v (bs "Invalid Range header '" ++ v ++ bs "'")
| not_two_parts k u : stripped v (concat (repeat (bs "bytes=") (S k)) ++ u) -> (forall w, u <> bs "bytes=" ++ w) ->
    (forall b e, u = b ++ bs "-" ++ e -> In "-"%byte b \/ In "-"%byte e) ->
    range_fault umod v (bs "Invalid Range header '" ++ v ++ bs "'")
| bad_begin k b e f : stripped v (concat (repeat (bs "bytes=") (S k)) ++ b ++ bs "-" ++ e) -> (forall w, b <> bs "bytes=" ++ w) ->
    ~ In "-"%byte b -> ~ In "-"%byte e -> int_fault umod b f ->
    range_fault umod v (bs "Malformed range_begin in Range header '" ++ v ++ bs "': " ++ int_text f)
| bad_end k b e n f : stripped v (concat (repeat (bs "bytes=") (S k)) ++ b ++ bs "-" ++ e) ->
    ~ In "-"%byte e -> number b n -> n < umod -> e <> [] -> int_fault umod e f ->
    range_fault umod v (bs "Malformed range_end in Range header '" ++ v ++ bs "': " ++ int_text f)
| bad_order k b e n m : stripped v (concat (repeat (bs "bytes=") (S k)) ++ b ++ bs "-" ++ e) ->
    number b n -> number e m -> m < n < umod ->
    range_fault umod v (bs "Invalid values in Range header '" ++ v ++ bs "'").

(** the path of the request is not text *)
Definition path_not_text (uri_path : bytes -> option bytes) (rq : request) : Prop :=
  exists p, uri_path (rq_url rq) = Some p /\ forall path, ~ path_of uri_path rq path.

(** ** certify_assets and delete_assets *)
(** the headers configured by a configuration *)
Definition config_headers (c : asset_config) : list (bytes * bytes) :=
  match c with ConfigFile _ _ hs _ _ _ | ConfigPattern _ _ hs _ => hs | ConfigRedirect _ _ _ => [] end.
(** the urls of assets, aliases and redirects *)
Definition urls_named (assets : list asset) (configs : list asset_config) (u : bytes) : Prop :=
  (exists a, In a assets /\ u = as_url a) \/
  (exists p ct hs fbs als encs, In (ConfigFile p ct hs fbs als encs) configs /\ In u als) \/
  (exists to k, In (ConfigRedirect u to k) configs).
(** the first pattern that the globset library refuses *)
Definition first_bad_pattern (glob : bytes -> option (bytes -> bool)) (configs : list asset_config) (p : bytes) : Prop :=
  exists before ct hs encs after, configs = before ++ ConfigPattern p ct hs encs :: after /\ glob p = None /\
    forall p' ct' hs' encs', In (ConfigPattern p' ct' hs' encs') before -> glob p' <> None.
(** [v] is the value of a header called IC-CertificateExpression in the configurations *)
Definition configured_expression (configs : list asset_config) (v : bytes) : Prop :=
  exists c n, In c configs /\ In (n, v) (config_headers c) /\ same_name n (bs "IC-CertificateExpression").
(** the two expressions the router certifies with: for whole responses and for chunks *)
Definition router_expression (expr : bytes) : Prop := expr = print_cel (get_expression []) \/ expr = print_cel (get_expression [bs "range"]).
Definition input_fault (uri_query : bytes -> option (option bytes)) (glob : bytes -> option (bytes -> bool)) (assets : list asset) (configs : list asset_config) (e : asset_error) : Prop :=
  match e with
  | GlobsetError p => first_bad_pattern glob configs p
  | CertificationError (UrlError (MalformedUrl u)) => uri_query u = None /\ urls_named assets configs u
  | CertificationError (CertificateExpressionHeaderMismatch expected actual) =>
      router_expression expected /\ actual <> expected /\ configured_expression configs actual
  | CertificationError (MultipleCertificateExpressionHeaders expected) =>
      router_expression expected /\ configured_expression configs expected
  | _ => False
  end.
