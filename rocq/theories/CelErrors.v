(** Which error the CEL reader reports: the same code as the AST mapping of Cel.v, with the error values of
    /repo/packages/ic-response-verification/src/cel/error.rs:5-96.  (Cel.v has one error, [None]; Props_CelErrors.v
    proves that forgetting the error values here gives exactly that.)
    [found_type] is the [Debug] text of the value found, which depends on the iteration order of hash maps; here it is
    the value itself.  The text of nom's error in [CelSyntaxException] is left out. *)
From Coq Require Import List NArith Bool.
From Verif Require Import Bytes HttpTypes Cbor Cel Errors.
Import ListNotations.
Local Open Scope N_scope.

(** error.rs:5-96 [CelParserError] *)
Inductive cel_error :=
| UnrecognizedFunction (name : bytes)
| MissingFunctionParameter (function_name parameter_type parameter_name : bytes) (parameter_position : N)
| IncorrectFunctionParameterType (function_name parameter_name expected_parameter_type found_parameter_type : bytes) (parameter_position : N)
| UnexpectedNodeType (node_name expected_type : bytes) (found : cv)
| UnexpectedNodeName (node_type expected_name found_name : bytes)
| MissingObjectProperty (object_name expected_property_name : bytes)
| ExtraneousRequestCertificationProperty
| MissingRequestCertificationProperty
| ExtraneousResponseCertificationProperty
| MissingResponseCertificationProperty
| ExtraneousValidationArgsProperty
| MissingValidationArgsProperty
| CelSyntaxException.

Definition cres (A : Type) := res cel_error A.
(** [let Some(x) = o else { return Err(e) }] *)
Definition or_err {A} (o : option A) (e : cel_error) : cres A := match o with Some a => ROk a | None => RErr e end.

(** ast_mapping.rs:12-34 [validate_object] *)
Definition validate_object_e (v : cv) (name : bytes) : cres (list (bytes * cv)) :=
  match v with
  | CvObject n m => if bytes_eqb n name then ROk m else RErr (UnexpectedNodeName (bs "Object") name n)
  | _ => RErr (UnexpectedNodeType name (bs "Object") v)
  end.
(** ast_mapping.rs:36-57 [validate_function] *)
Definition validate_function_e (v : cv) (name : bytes) : cres (list cv) :=
  match v with
  | CvFunction n l => if bytes_eqb n name then ROk l else RErr (UnexpectedNodeName (bs "Function") name n)
  | _ => RErr (UnexpectedNodeType name (bs "Function") v)
  end.
(** ast_mapping.rs:71-83: the error for an element shows the array ([cel.to_string()]) *)
Fixpoint strings_e (name : bytes) (whole : cv) (l : list cv) : cres (list bytes) :=
  match l with
  | [] => ROk []
  | CvString s :: r => rok ss <- strings_e name whole r; ROk (s :: ss)
  | _ :: _ => RErr (UnexpectedNodeType name (bs "String") whole)
  end.
(** ast_mapping.rs:59-86 [validate_string_array] *)
Definition validate_string_array_e (v : cv) (name : bytes) : cres (list bytes) :=
  match v with
  | CvArray l => strings_e name v l
  | _ => RErr (UnexpectedNodeType name (bs "Array") v)
  end.
(** ast_mapping.rs:88-129 [validate_request_certification] *)
Definition validate_request_certification_e (m : list (bytes * cv)) : cres (option request_cert) :=
  match map_get (bs "no_request_certification") m, map_get (bs "request_certification") m with
  | Some _, Some _ => RErr ExtraneousRequestCertificationProperty
  | None, None => RErr MissingRequestCertificationProperty
  | Some _, None => ROk None
  | None, Some v =>
      rok rm <- validate_object_e v (bs "RequestCertification");
      rok h <- or_err (map_get (bs "certified_request_headers") rm) (MissingObjectProperty (bs "RequestCertification") (bs "certified_request_headers"));
      rok hs <- validate_string_array_e h (bs "certified_request_headers");
      rok q <- or_err (map_get (bs "certified_query_parameters") rm) (MissingObjectProperty (bs "RequestCertification") (bs "certified_query_parameters"));
      rok qs <- validate_string_array_e q (bs "certified_query_parameters");
      ROk (Some (mk_request_cert hs qs))
  end.
(** ast_mapping.rs:141-152, the closure [get_response_certification_headers] *)
Definition response_list_e (m : list (bytes * cv)) (name : bytes) : cres (option (list bytes)) :=
  match map_get name m with
  | None => ROk None
  | Some v =>
      rok lm <- validate_object_e v (bs "ResponseHeaderList");
      match map_get (bs "headers") lm with
      | None => ROk None
      | Some h => rok hs <- validate_string_array_e h name; ROk (Some hs)
      end
  end.
(** ast_mapping.rs:131-172 [validate_response_certification]; the object named in the first error is
    RequestCertification in the source too *)
Definition validate_response_certification_e (m : list (bytes * cv)) : cres response_cert :=
  rok v <- or_err (map_get (bs "response_certification") m) (MissingObjectProperty (bs "RequestCertification") (bs "response_certification"));
  rok rm <- validate_object_e v (bs "ResponseCertification");
  rok a <- response_list_e rm (bs "certified_response_headers");
  rok b <- response_list_e rm (bs "response_header_exclusions");
  match a, b with
  | Some _, Some _ => RErr ExtraneousResponseCertificationProperty
  | None, None => RErr MissingResponseCertificationProperty
  | Some l, None => ROk (CertifiedHeaders l)
  | None, Some l => ROk (HeaderExclusions l)
  end.
(** ast_mapping.rs:174-218 [map_cel_ast] *)
Definition map_cel_ast_e (v : cv) : cres cel :=
  rok l <- validate_function_e v (bs "default_certification");
  match l with
  | [] => RErr (MissingFunctionParameter (bs "default_certification") (bs "Object") (bs "ValidationArgs") 0)
  | arg :: _ =>
      rok m <- validate_object_e arg (bs "ValidationArgs");
      match map_get (bs "no_certification") m, map_get (bs "certification") m with
      | Some _, Some _ => RErr ExtraneousValidationArgsProperty
      | None, None => RErr MissingValidationArgsProperty
      | Some _, None => ROk CelSkip
      | None, Some c =>
          rok cm <- validate_object_e c (bs "Certification");
          rok rq <- validate_request_certification_e cm;
          rok rs <- validate_response_certification_e cm;
          match rq with
          | None => ROk (CelResponseOnly rs)
          | Some rq => ROk (CelFull rq rs)
          end
      end
  end.
(** parser.rs:163-170 [parse_cel_expression], then the mapping *)
Definition cel_of_text_e (s : bytes) : cres cel :=
  rok v <- or_err (parse_cel s) CelSyntaxException; map_cel_ast_e v.
