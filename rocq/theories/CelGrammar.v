(** The language of certification expressions, as a grammar (specification for
    C122), written down independently of the parser. *)
From Coq Require Import List NArith Bool String.
From Verif Require Import Bytes Utf8Spec HttpTypes Cel CelSpec.
Import ListNotations.
Local Open Scope list_scope.

(** Characters of names.  The code casts a character to [u8] before asking
    whether it is a letter or digit, so only its low eight bits count. *)
Definition letter_or_digit (n : N) : Prop := (48 <= n <= 57 \/ 65 <= n <= 90 \/ 97 <= n <= 122)%N.
Definition key_char (c : N) : Prop := c = 95%N \/ letter_or_digit (c mod 256).
Definition name_char (c : N) : Prop := c = 45%N \/ letter_or_digit (c mod 256).
(** a (possibly empty) identifier, and the inside of a string literal *)
Definition key (s : bytes) : Prop := exists cs, utf8_text cs s /\ Forall key_char cs.
Definition name (s : bytes) : Prop := exists cs, utf8_text cs s /\ Forall name_char cs.

(** [expr t v]: the text [t] is an expression with value [v]:
<<
    expr   ::= ws '"' name ws '"'  |  ws '[' items ws ']'
             | ws key ws '(' items ws ')'  |  ws key ws '{' fields ws '}'
    items  ::= (nothing)  |  expr (ws ',' expr)*
    fields ::= (nothing)  |  field (ws ',' field)*
    field  ::= ws key ws ':' expr
>>
    The value of an object is that of its fields, collected. *)
Inductive expr : bytes -> cv -> Prop :=
| x_string w n w' : ws w -> name n -> ws w' -> expr (w ++ quote ++ n ++ w' ++ quote) (CvString n)
| x_array w b vs w' : ws w -> items b vs -> ws w' -> expr (w ++ bs "[" ++ b ++ w' ++ bs "]") (CvArray vs)
| x_function w n w1 b vs w' : ws w -> key n -> ws w1 -> items b vs -> ws w' ->
    expr (w ++ n ++ w1 ++ bs "(" ++ b ++ w' ++ bs ")") (CvFunction n vs)
| x_object w n w1 b kvs w' : ws w -> key n -> ws w1 -> fields b kvs -> ws w' ->
    expr (w ++ n ++ w1 ++ bs "{" ++ b ++ w' ++ bs "}") (CvObject n (collect kvs))
with items : bytes -> list cv -> Prop :=
| i_none : items [] []
| i_some t v b vs : expr t v -> more b vs -> items (t ++ b) (v :: vs)
with more : bytes -> list cv -> Prop :=
| m_none : more [] []
| m_some w t v b vs : ws w -> expr t v -> more b vs -> more (w ++ bs "," ++ t ++ b) (v :: vs)
with fields : bytes -> list (bytes * cv) -> Prop :=
| f_none : fields [] []
| f_some w k w1 t v b kvs : ws w -> key k -> ws w1 -> expr t v -> fmore b kvs ->
    fields (w ++ k ++ w1 ++ bs ":" ++ t ++ b) ((k, v) :: kvs)
with fmore : bytes -> list (bytes * cv) -> Prop :=
| fm_none : fmore [] []
| fm_some w0 w k w1 t v b kvs : ws w0 -> ws w -> key k -> ws w1 -> expr t v -> fmore b kvs ->
    fmore (w0 ++ bs "," ++ w ++ k ++ w1 ++ bs ":" ++ t ++ b) ((k, v) :: kvs).

(** Collecting fields: every key once, and the last value given for it counts. *)
Definition last_value (kvs : list (bytes * cv)) (k : bytes) (v : cv) : Prop :=
  exists a b, kvs = a ++ (k, v) :: b /\ ~ In k (map fst b).

(** What an expression means.  [field m k v]: the object's field [k] is [v]. *)
Definition field (m : list (bytes * cv)) (k : string) (v : cv) : Prop := In (bs k, v) m.
Definition no_field (m : list (bytes * cv)) (k : string) : Prop := ~ In (bs k) (map fst m).
Definition some_field (m : list (bytes * cv)) (k : string) : Prop := In (bs k) (map fst m).
(** a response header list: absent, present without its [headers], or a list *)
Inductive hlist (m : list (bytes * cv)) (k : string) : option (list bytes) -> Prop :=
| hl_absent : no_field m k -> hlist m k None
| hl_empty lm : field m k (CvObject (bs "ResponseHeaderList") lm) -> no_field lm "headers" -> hlist m k None
| hl_list lm l : field m k (CvObject (bs "ResponseHeaderList") lm) -> field lm "headers" (CvArray (map CvString l)) -> hlist m k (Some l).
Inductive response_means (m : list (bytes * cv)) : response_cert -> Prop :=
| rm_headers rm l : field m "response_certification" (CvObject (bs "ResponseCertification") rm) ->
    hlist rm "certified_response_headers" (Some l) -> hlist rm "response_header_exclusions" None -> response_means m (CertifiedHeaders l)
| rm_exclusions rm l : field m "response_certification" (CvObject (bs "ResponseCertification") rm) ->
    hlist rm "certified_response_headers" None -> hlist rm "response_header_exclusions" (Some l) -> response_means m (HeaderExclusions l).
Inductive means : cv -> cel -> Prop :=
| means_skip m rest : some_field m "no_certification" -> no_field m "certification" ->
    means (CvFunction (bs "default_certification") (CvObject (bs "ValidationArgs") m :: rest)) CelSkip
| means_response_only m rest cm rs : no_field m "no_certification" -> field m "certification" (CvObject (bs "Certification") cm) ->
    some_field cm "no_request_certification" -> no_field cm "request_certification" -> response_means cm rs ->
    means (CvFunction (bs "default_certification") (CvObject (bs "ValidationArgs") m :: rest)) (CelResponseOnly rs)
| means_full m rest cm qm hs qs rs : no_field m "no_certification" -> field m "certification" (CvObject (bs "Certification") cm) ->
    no_field cm "no_request_certification" -> field cm "request_certification" (CvObject (bs "RequestCertification") qm) ->
    field qm "certified_request_headers" (CvArray (map CvString hs)) ->
    field qm "certified_query_parameters" (CvArray (map CvString qs)) -> response_means cm rs ->
    means (CvFunction (bs "default_certification") (CvObject (bs "ValidationArgs") m :: rest)) (CelFull (mk_request_cert hs qs) rs).
