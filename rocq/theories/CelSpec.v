(** Specification vocabulary for C30-C33. *)
From Coq Require Import List NArith Bool.
From Verif Require Import Bytes HttpTypes Cel.
Import ListNotations.

(** White space: space, tab, CR, LF. *)
Definition ws (s : bytes) : Prop := Forall (fun b => In b [x20; x09; x0d; x0a]) s.
(** [spaced ts s]: [s] consists of the tokens [ts] with arbitrary white space
    before, between and after them. *)
Inductive spaced : list bytes -> bytes -> Prop :=
| spaced_nil w : ws w -> spaced [] w
| spaced_cons w t ts s : ws w -> spaced ts s -> spaced (t :: ts) (w ++ t ++ s).

(** The tokens of a CEL expression: identifiers, punctuation, quoted names. *)
Fixpoint name_tokens (l : list bytes) : list bytes :=
  match l with
  | [] => []
  | [n] => [quote ++ n ++ quote]
  | n :: r => (quote ++ n ++ quote) :: bs "," :: name_tokens r
  end.
Definition response_tokens (c : response_cert) : list bytes :=
  let (k, l) := match c with
    | CertifiedHeaders l => (bs "certified_response_headers", l)
    | HeaderExclusions l => (bs "response_header_exclusions", l) end in
  [bs "response_certification"; bs ":"; bs "ResponseCertification"; bs "{"; k; bs ":"; bs "ResponseHeaderList"; bs "{"; bs "headers"; bs ":"; bs "["]
  ++ name_tokens l ++ [bs "]"; bs "}"; bs "}"].
Definition request_tokens (c : request_cert) : list bytes :=
  [bs "request_certification"; bs ":"; bs "RequestCertification"; bs "{"; bs "certified_request_headers"; bs ":"; bs "["]
  ++ name_tokens (rc_headers c) ++ [bs "]"; bs ","; bs "certified_query_parameters"; bs ":"; bs "["]
  ++ name_tokens (rc_query c) ++ [bs "]"; bs "}"].
Definition tokens (e : cel) : list bytes :=
  [bs "default_certification"; bs "("; bs "ValidationArgs"; bs "{"] ++
  match e with
  | CelSkip => [bs "no_certification"; bs ":"; bs "Empty"; bs "{"; bs "}"]
  | CelResponseOnly rs =>
      [bs "certification"; bs ":"; bs "Certification"; bs "{"; bs "no_request_certification"; bs ":"; bs "Empty"; bs "{"; bs "}"; bs ","]
      ++ response_tokens rs ++ [bs "}"]
  | CelFull rq rs =>
      [bs "certification"; bs ":"; bs "Certification"; bs "{"] ++ request_tokens rq ++ [bs ","] ++ response_tokens rs ++ [bs "}"]
  end ++ [bs "}"; bs ")"].

(** All names occurring in an expression. *)
Definition cel_names (e : cel) : list bytes :=
  let rs c := match c with CertifiedHeaders l => l | HeaderExclusions l => l end in
  match e with
  | CelSkip => []
  | CelResponseOnly c => rs c
  | CelFull r c => rc_headers r ++ rc_query r ++ rs c
  end.
(** Letters, digits and '-' *)
Definition plain_char (b : byte) : Prop :=
  let n := b2n b in (48 <= n <= 57 \/ 65 <= n <= 90 \/ 97 <= n <= 122 \/ n = 45)%N.
Definition plain_name (s : bytes) : Prop := Forall plain_char s.
(** RFC 9110 5.6.2: token = 1*tchar *)
Definition tchar (b : byte) : Prop :=
  let n := b2n b in
  (48 <= n <= 57 \/ 65 <= n <= 90 \/ 97 <= n <= 122)%N \/ In b (bs "!#$%&'*+-.^_`|~").
Definition token (s : bytes) : Prop := s <> [] /\ Forall tchar s.

(** ** What an abstract syntax tree says *)
(** No object has two properties of the same name. *)
Fixpoint distinct_keys (v : cv) : Prop :=
  match v with
  | CvString _ => True
  | CvArray l => (fix go l := match l with [] => True | x :: r => distinct_keys x /\ go r end) l
  | CvFunction _ l => (fix go l := match l with [] => True | x :: r => distinct_keys x /\ go r end) l
  | CvObject _ m => NoDup (map fst m) /\ (fix go m := match m with [] => True | x :: r => distinct_keys (snd x) /\ go r end) m
  end.
Definition has (m : list (bytes * cv)) (k : bytes) : Prop := In k (map fst m).
Definition string_list (v : cv) (l : list bytes) : Prop := v = CvArray (map CvString l).
Definition one_of (A B : Prop) : Prop := (A /\ ~ B) \/ (B /\ ~ A).
(** [k] is a property of [m] of the form [ResponseHeaderList{headers:[l]}]. *)
Definition header_list (m : list (bytes * cv)) (k : bytes) (l : list bytes) : Prop :=
  exists lm h, In (k, CvObject (bs "ResponseHeaderList") lm) m /\ In (bs "headers", h) lm /\ string_list h l.
