(** Specification for C141 and C142: what is wrong with a certification expression, and the error for it
    (the documentation of CelParserError, /repo/packages/ic-response-verification/src/cel/error.rs). *)
From Coq Require Import List NArith Bool String.
From Verif Require Import Bytes HttpTypes Cel CelGrammar CelErrors.
Import ListNotations.
Local Open Scope list_scope.

(** [v] should be an object called [name], and is not *)
Inductive object_fault (v : cv) (name : string) : cel_error -> Prop :=
| object_other_type : (forall n m, v <> CvObject n m) -> object_fault v name (UnexpectedNodeType (bs name) (bs "Object") v)
| object_other_name n m : v = CvObject n m -> n <> bs name -> object_fault v name (UnexpectedNodeName (bs "Object") (bs name) n).
(** [v], which is for [name], should be an array of strings, and is not; the array is shown, not the element *)
Inductive list_fault (v : cv) (name : string) : cel_error -> Prop :=
| list_other_type : (forall l, v <> CvArray l) -> list_fault v name (UnexpectedNodeType (bs name) (bs "Array") v)
| list_element l x : v = CvArray l -> In x l -> (forall s, x <> CvString s) -> list_fault v name (UnexpectedNodeType (bs name) (bs "String") v).
(** the field [k] of [m], if any, should be a ResponseHeaderList whose [headers], if any, are strings *)
Inductive hlist_fault (m : list (bytes * cv)) (k : string) : cel_error -> Prop :=
| hlist_object v e : field m k v -> object_fault v "ResponseHeaderList" e -> hlist_fault m k e
| hlist_list lm h e : field m k (CvObject (bs "ResponseHeaderList") lm) -> field lm "headers" h -> list_fault h k e -> hlist_fault m k e.

(** [cm]: the fields of the Certification object *)
Inductive request_fault (cm : list (bytes * cv)) : cel_error -> Prop :=
| request_both : some_field cm "no_request_certification" -> some_field cm "request_certification" -> request_fault cm ExtraneousRequestCertificationProperty
| request_neither : no_field cm "no_request_certification" -> no_field cm "request_certification" -> request_fault cm MissingRequestCertificationProperty
| request_object v e : no_field cm "no_request_certification" -> field cm "request_certification" v -> object_fault v "RequestCertification" e -> request_fault cm e
| request_no_headers qm : no_field cm "no_request_certification" -> field cm "request_certification" (CvObject (bs "RequestCertification") qm) ->
    no_field qm "certified_request_headers" -> request_fault cm (MissingObjectProperty (bs "RequestCertification") (bs "certified_request_headers"))
| request_headers qm h e : no_field cm "no_request_certification" -> field cm "request_certification" (CvObject (bs "RequestCertification") qm) ->
    field qm "certified_request_headers" h -> list_fault h "certified_request_headers" e -> request_fault cm e
| request_no_query qm hs : no_field cm "no_request_certification" -> field cm "request_certification" (CvObject (bs "RequestCertification") qm) ->
    field qm "certified_request_headers" (CvArray (map CvString hs)) ->
    no_field qm "certified_query_parameters" -> request_fault cm (MissingObjectProperty (bs "RequestCertification") (bs "certified_query_parameters"))
| request_query qm hs q e : no_field cm "no_request_certification" -> field cm "request_certification" (CvObject (bs "RequestCertification") qm) ->
    field qm "certified_request_headers" (CvArray (map CvString hs)) ->
    field qm "certified_query_parameters" q -> list_fault q "certified_query_parameters" e -> request_fault cm e.
(** the request part is right *)
Inductive request_fine (cm : list (bytes * cv)) : Prop :=
| fine_none : some_field cm "no_request_certification" -> no_field cm "request_certification" -> request_fine cm
| fine_lists qm hs qs : no_field cm "no_request_certification" -> field cm "request_certification" (CvObject (bs "RequestCertification") qm) ->
    field qm "certified_request_headers" (CvArray (map CvString hs)) -> field qm "certified_query_parameters" (CvArray (map CvString qs)) -> request_fine cm.
(** The first of these errors names another object than the one that lacks the property (C142). *)
Inductive response_fault (cm : list (bytes * cv)) : cel_error -> Prop :=
| response_none : no_field cm "response_certification" -> response_fault cm (MissingObjectProperty (bs "RequestCertification") (bs "response_certification"))
| response_object v e : field cm "response_certification" v -> object_fault v "ResponseCertification" e -> response_fault cm e
| response_headers rm e : field cm "response_certification" (CvObject (bs "ResponseCertification") rm) ->
    hlist_fault rm "certified_response_headers" e -> response_fault cm e
| response_exclusions rm o e : field cm "response_certification" (CvObject (bs "ResponseCertification") rm) ->
    hlist rm "certified_response_headers" o -> hlist_fault rm "response_header_exclusions" e -> response_fault cm e
| response_both rm l l' : field cm "response_certification" (CvObject (bs "ResponseCertification") rm) ->
    hlist rm "certified_response_headers" (Some l) -> hlist rm "response_header_exclusions" (Some l') -> response_fault cm ExtraneousResponseCertificationProperty
| response_neither rm : field cm "response_certification" (CvObject (bs "ResponseCertification") rm) ->
    hlist rm "certified_response_headers" None -> hlist rm "response_header_exclusions" None -> response_fault cm MissingResponseCertificationProperty.

(** what is wrong with an expression that is well formed *)
Inductive cel_fault : cv -> cel_error -> Prop :=
| no_function v : (forall n l, v <> CvFunction n l) -> cel_fault v (UnexpectedNodeType (bs "default_certification") (bs "Function") v)
| other_function n l : n <> bs "default_certification" -> cel_fault (CvFunction n l) (UnexpectedNodeName (bs "Function") (bs "default_certification") n)
| no_argument : cel_fault (CvFunction (bs "default_certification") []) (MissingFunctionParameter (bs "default_certification") (bs "Object") (bs "ValidationArgs") 0)
| argument x rest e : object_fault x "ValidationArgs" e -> cel_fault (CvFunction (bs "default_certification") (x :: rest)) e
| both_properties m rest : some_field m "no_certification" -> some_field m "certification" ->
    cel_fault (CvFunction (bs "default_certification") (CvObject (bs "ValidationArgs") m :: rest)) ExtraneousValidationArgsProperty
| neither_property m rest : no_field m "no_certification" -> no_field m "certification" ->
    cel_fault (CvFunction (bs "default_certification") (CvObject (bs "ValidationArgs") m :: rest)) MissingValidationArgsProperty
| certification_object m rest v e : no_field m "no_certification" -> field m "certification" v -> object_fault v "Certification" e ->
    cel_fault (CvFunction (bs "default_certification") (CvObject (bs "ValidationArgs") m :: rest)) e
| in_request m rest cm e : no_field m "no_certification" -> field m "certification" (CvObject (bs "Certification") cm) -> request_fault cm e ->
    cel_fault (CvFunction (bs "default_certification") (CvObject (bs "ValidationArgs") m :: rest)) e
| in_response m rest cm e : no_field m "no_certification" -> field m "certification" (CvObject (bs "Certification") cm) -> request_fine cm -> response_fault cm e ->
    cel_fault (CvFunction (bs "default_certification") (CvObject (bs "ValidationArgs") m :: rest)) e.
