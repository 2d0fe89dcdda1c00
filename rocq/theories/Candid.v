(** Model of how requests and responses travel in Candid:
    /repo/packages/ic-http-certification/src/http/http_request.rs:11-48 [MethodWrapper], 89-104, 640-652 (derives) and
    http_response.rs:10-43 [StatusCodeWrapper], 66-79, 494-503 (derives).
    Values are those of Candid's data model; their binary form and its type table (the candid crate)
    are not modelled.  A derived [Deserialize] takes the fields of a record by name, ignores
    others and fills an absent optional field with None. *)
From Coq Require Import List NArith Bool.
From Verif Require Import Bytes HttpTypes HttpBuild JsBindings.
Import ListNotations.
Local Open Scope N_scope.

(** [text], [nat16], [bool], [vec nat8], [vec], [opt] and [record]; the fields "0", "1" of a tuple are numbered *)
Inductive idl := IText (s : bytes) | INat16 (n : N) | IBool (b : bool) | IBlob (b : bytes) | IVec (l : list idl) | IOpt (o : option idl) | IRecord (fs : list (bytes * idl)).

Fixpoint field (k : bytes) (fs : list (bytes * idl)) : option idl :=
  match fs with [] => None | (n, v) :: r => if bytes_eqb n k then Some v else field k r end.

(** HeaderField = (String, String), header_field.rs *)
Definition ser_header (h : bytes * bytes) : idl := IRecord [(bs "0", IText (fst h)); (bs "1", IText (snd h))].
(** derived CandidType; http_request.rs:14-25: the method as text; http_response.rs:13-24: the status as nat16 *)
Definition ser_request (r : http_request) : idl :=
  IRecord [(bs "method", IText (hq_method r)); (bs "url", IText (hq_url r)); (bs "headers", IVec (map ser_header (hq_headers r))); (bs "body", IBlob (hq_body r));
           (bs "certificate_version", IOpt (option_map INat16 (hq_version r)))].
Definition ser_update_request (r : http_update_request) : idl :=
  IRecord [(bs "method", IText (uq_method r)); (bs "url", IText (uq_url r)); (bs "headers", IVec (map ser_header (uq_headers r))); (bs "body", IBlob (uq_body r))].
Definition ser_response (r : http_response) : idl :=
  IRecord [(bs "status_code", INat16 (hs_status r)); (bs "headers", IVec (map ser_header (hs_headers r))); (bs "body", IBlob (hs_body r));
           (bs "upgrade", IOpt (option_map IBool (hs_upgrade r)))].
Definition ser_update_response (r : http_update_response) : idl :=
  IRecord [(bs "status_code", INat16 (us_status r)); (bs "headers", IVec (map ser_header (us_headers r))); (bs "body", IBlob (us_body r))].

Section De.
  (** [method_ok]: http::Method::from_str accepts the string *)
  Variable method_ok : bytes -> bool.
  Notation "'let?' x := a 'in' b" := (match a with None => None | Some x => b end) (at level 200, x name, a at level 100, b at level 200).
  Definition de_text (v : idl) : option bytes := match v with IText s => Some s | _ => None end.
  Definition de_nat16 (v : idl) : option N := match v with INat16 n => Some n | _ => None end.
  Definition de_bool (v : idl) : option bool := match v with IBool b => Some b | _ => None end.
  Definition de_blob (v : idl) : option bytes := match v with IBlob b => Some b | _ => None end.
  Definition de_header (v : idl) : option (bytes * bytes) :=
    match v with
    | IRecord fs => let? a := field (bs "0") fs in let? b := field (bs "1") fs in let? a := de_text a in let? b := de_text b in Some (a, b)
    | _ => None
    end.
  Fixpoint de_each (l : list idl) : option (list (bytes * bytes)) :=
    match l with [] => Some [] | v :: r => let? h := de_header v in let? t := de_each r in Some (h :: t) end.
  Definition de_headers (v : idl) : option (list (bytes * bytes)) := match v with IVec l => de_each l | _ => None end.
  (** an absent optional field is None *)
  Definition de_opt {A} (de : idl -> option A) (o : option idl) : option (option A) :=
    match o with
    | None => Some None
    | Some (IOpt None) => Some None
    | Some (IOpt (Some v)) => let? a := de v in Some (Some a)
    | Some _ => None
    end.
  (** http_request.rs:27-38 *)
  Definition de_method (v : idl) : option bytes := let? m := de_text v in if method_ok m then Some m else None.
  (** http_response.rs:26-37 *)
  Definition de_status (v : idl) : option N := let? n := de_nat16 v in if status_ok n then Some n else None.
  Definition de_request (v : idl) : option http_request :=
    match v with
    | IRecord fs =>
        let? m := field (bs "method") fs in let? u := field (bs "url") fs in let? hs := field (bs "headers") fs in let? b := field (bs "body") fs in
        let? m := de_method m in let? u := de_text u in let? hs := de_headers hs in let? b := de_blob b in
        let? cv := de_opt de_nat16 (field (bs "certificate_version") fs) in
        Some (mk_http_request m u hs b cv)
    | _ => None
    end.
  Definition de_update_request (v : idl) : option http_update_request :=
    match v with
    | IRecord fs =>
        let? m := field (bs "method") fs in let? u := field (bs "url") fs in let? hs := field (bs "headers") fs in let? b := field (bs "body") fs in
        let? m := de_method m in let? u := de_text u in let? hs := de_headers hs in let? b := de_blob b in
        Some (mk_http_update_request m u hs b)
    | _ => None
    end.
  Definition de_response (v : idl) : option http_response :=
    match v with
    | IRecord fs =>
        let? s := field (bs "status_code") fs in let? hs := field (bs "headers") fs in let? b := field (bs "body") fs in
        let? s := de_status s in let? hs := de_headers hs in let? b := de_blob b in
        let? up := de_opt de_bool (field (bs "upgrade") fs) in
        Some (mk_http_response s hs b up)
    | _ => None
    end.
  Definition de_update_response (v : idl) : option http_update_response :=
    match v with
    | IRecord fs =>
        let? s := field (bs "status_code") fs in let? hs := field (bs "headers") fs in let? b := field (bs "body") fs in
        let? s := de_status s in let? hs := de_headers hs in let? b := de_blob b in
        Some (mk_http_update_response s hs b)
    | _ => None
    end.
End De.
