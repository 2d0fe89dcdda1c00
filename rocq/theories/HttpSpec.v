(** Specification vocabulary for C25-C29, independent of the hashing code. *)
From Coq Require Import List Arith NArith Bool Permutation.
From Verif Require Import Bytes HashTreeSpec Text RiHash Leb128 HttpTypes HttpHash.
Import ListNotations.

(** Scalar values of a representation independent hash and the bytes each stands for. *)
Definition scalar (v : value) : Prop := match v with VArray _ => False | _ => True end.
Definition scalar_bytes (v : value) : bytes :=
  match v with VString s => s | VBytes s => s | VNumber n => leb_enc n | VArray _ => [] end.
(** a map seen as pairs of key and value bytes *)
Definition plain (m : list (bytes * value)) : list (bytes * bytes) :=
  map (fun kv => (fst kv, scalar_bytes (snd kv))) m.
(** every message hashed while hashing a map of scalars *)
Definition ri_messages (H : bytes -> bytes) (m : list (bytes * value)) : list bytes :=
  ri_msg H m :: flat_map (fun kv => [fst kv; scalar_bytes (snd kv)]) m.

(** Two header names are the same name: they agree up to ASCII case. *)
Definition same_name (a b : bytes) : Prop := Forall2 (fun x y => lower_byte x = lower_byte y) a b.
(** [name] is listed in [l], up to case. *)
Definition named_in (l : list bytes) (name : bytes) : Prop := exists x, In x l /\ same_name x name.
(** A header the certification covers. *)
Definition selected (c : response_cert) (name : bytes) : Prop :=
  match c with
  | CertifiedHeaders l => named_in l name
  | HeaderExclusions l => ~ named_in l name
  end.
Definition covered (c : response_cert) (name : bytes) : Prop :=
  ~ same_name name (bs "IC-Certificate") /\
  (same_name name (bs "IC-CertificateExpression") \/ selected c name).
(** [out] is the sublist of [hs] of the pairs satisfying P, in order, names lower-cased. *)
Inductive picks (P : bytes -> Prop) : list (bytes * bytes) -> list (bytes * bytes) -> Prop :=
| picks_nil : picks P [] []
| picks_take n v hs out : P n -> picks P hs out -> picks P ((n, v) :: hs) ((lower n, v) :: out)
| picks_skip n v hs out : ~ P n -> picks P hs out -> picks P ((n, v) :: hs) out.

(** No header name starts with ':' (true of every HTTP field name, RFC 9110 5.6.2). *)
Definition no_pseudo (hs : list (bytes * bytes)) : Prop :=
  Forall (fun h => match fst h with b :: _ => b <> ":"%byte | [] => True end) hs.

(** Fragments of a query string, and those a certification covers. *)
Definition fragment_name (f name : bytes) : Prop := ~ In "="%byte name /\ (f = name \/ exists v, f = name ++ "="%byte :: v).
Definition fragment_covered (c : request_cert) (f : bytes) : Prop := exists name, fragment_name f name /\ named_in (rc_query c) name.
Inductive picks_fragments (P : bytes -> Prop) : list bytes -> list bytes -> Prop :=
| pf_nil : picks_fragments P [] []
| pf_take f fs out : P f -> picks_fragments P fs out -> picks_fragments P (f :: fs) (f :: out)
| pf_skip f fs out : ~ P f -> picks_fragments P fs out -> picks_fragments P (f :: fs) out.
(** [fs] are the fragments of query [q]: the pieces between ampersands. *)
Definition fragments (q : bytes) (fs : list bytes) : Prop :=
  fs <> [] /\ q = join ["&"%byte] fs /\ Forall (fun f => ~ In "&"%byte f) fs.

(** The messages hashed while hashing a response with covered headers [hs], a
    request with covered headers [hs] and covered query fragments [fs]. *)
Definition response_messages (H : bytes -> bytes) (r : response) (hs : list (bytes * bytes)) : list bytes :=
  let m := map (fun h => (fst h, VString (snd h))) hs ++ [(bs ":ic-cert-status", VNumber (rs_status r))] in
  (ri_hash H m ++ H (rs_body r)) :: rs_body r :: ri_messages H m.
Definition request_messages (H : bytes -> bytes) (r : request) (hs : list (bytes * bytes)) (fs : option (list bytes)) : list bytes :=
  let m := map (fun h => (fst h, VString (snd h))) hs ++ [(bs ":ic-cert-method", VString (rq_method r))] ++
           match fs with Some l => [(bs ":ic-cert-query", VString (join ["&"%byte] l))] | None => [] end in
  (ri_hash H m ++ H (rq_body r)) :: rq_body r :: ri_messages H m.
(** The covered fragments of a request's query, if it has a query. *)
Definition covered_query (c : request_cert) (q : option bytes) (out : option (list bytes)) : Prop :=
  match q, out with
  | None, None => True
  | Some q, Some l => exists fs, fragments q fs /\ picks_fragments (fragment_covered c) fs l
  | _, _ => False
  end.
(** The certificate header of a response: the value of the last header of that name. *)
Definition certificate_of (hs : list (bytes * bytes)) (o : option bytes) : Prop :=
  match o with
  | None => Forall (fun h => ~ same_name (fst h) (bs "IC-Certificate")) hs
  | Some v => exists a n b, hs = a ++ (n, v) :: b /\ same_name n (bs "IC-Certificate") /\
      Forall (fun h => ~ same_name (fst h) (bs "IC-Certificate")) b
  end.
(** Certifications that differ only in the case of header names. *)
Definition same_response_cert (c c' : response_cert) : Prop :=
  match c, c' with
  | CertifiedHeaders l, CertifiedHeaders l' => Forall2 same_name l l'
  | HeaderExclusions l, HeaderExclusions l' => Forall2 same_name l l'
  | _, _ => False
  end.
