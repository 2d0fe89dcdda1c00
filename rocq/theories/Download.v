(** Specification vocabulary for C150: how a client downloads an asset in parts. *)
From Coq Require Import List NArith Bool.
From Verif Require Import Bytes HttpTypes Cbor AssetRouter AssetSpec ServeSpec.
Import ListNotations.
Local Open Scope N_scope.

(** The same request, for the bytes from [b] on. *)
Definition from_byte (rq : request) (b : N) : request :=
  mk_request (rq_method rq) (rq_url rq) ((bs "Range", bs "bytes=" ++ dec b ++ bs "-") :: rq_headers rq) (rq_body rq).
(** The response says that it has the bytes from [b] to before [e] of [total]. *)
Definition part (rs : response) (b e total : N) : Prop :=
  rs_status rs = 206 /\ first_value (bs "content-range") (rs_headers rs) (range_header b e total) /\ b < e <= total.
(** What the client gets by asking for the bytes from [b] on, then for those after the ones it
    got, until it has all [total] bytes. *)
Inductive rest_of (serve : request -> out response) (rq : request) : N -> N -> bytes -> Prop :=
| RestDone total : rest_of serve rq total total []
| RestMore b e total rs r : serve (from_byte rq b) = OOk rs -> part rs b e total -> rest_of serve rq e total r ->
    rest_of serve rq b total (rs_body rs ++ r).
(** The first request has no Range header. If its response is not partial, its body is all; otherwise the client goes on. *)
Inductive download (serve : request -> out response) (rq : request) : bytes -> Prop :=
| DownloadAtOnce rs : serve rq = OOk rs -> rs_status rs <> 206 -> download serve rq (rs_body rs)
| DownloadInParts rs e total r : serve rq = OOk rs -> part rs 0 e total -> rest_of serve rq e total r ->
    download serve rq (rs_body rs ++ r).
