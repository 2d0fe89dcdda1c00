(** * Conformance of the model with the repository's own unit tests (HTTP crates)
    See Conform_Core.v: transcriptions of unit tests of /repo, run on the model by the
    kernel.  No claim of MANIFEST.json refers to them. *)
From Coq Require Import List NArith Bool String Strings.Byte.
From Verif Require Import Bytes Sha256 HashTree RiHash HttpTypes HttpHash Wildcard V2 HttpTree Cel Base64 Header Cbor Verify Errors Conform_Core.
Import ListNotations.
Local Open Scope string_scope.
Local Open Scope N_scope.
Local Notation umod := (2 ^ 64).
Local Notation cap := (2 ^ 32).
(** cel/fixtures.rs [remove_whitespace] (the texts are ASCII) *)
Definition remove_ws (s : string) : bytes :=
  filter (fun b => negb ((b2n b =? 32) || ((9 <=? b2n b) && (b2n b <=? 13)))) (bs s).

(** ** packages/ic-representation-independent-hash: lib.rs:30-47, representation_independent_hash.rs:60-208 *)
Example hash_text : sha256 (bs "Hello World!") = map n2b
  [127; 131; 177; 101; 127; 241; 252; 83; 185; 45; 193; 129; 72; 161; 214; 93; 252; 45;
   75; 31; 163; 214; 119; 40; 74; 221; 210; 0; 18; 109; 144; 105].
Proof. vm_compute. reflexivity. Qed.
Example hash_key_value_map :
  ri_hash sha256 [(bs "name", VString (bs "foo")); (bs "message", VString (bs "Hello World!")); (bs "answer", VNumber 42)]
  = unhex "b0c6f9191e37dceafdfc47fbfc7e9cc95f21c7b985c2f7ba5855015c2a8f13ac".
Proof. vm_compute. reflexivity. Qed.
Example handles_duplicate_keys :
  ri_hash sha256 [(bs "name", VString (bs "foo")); (bs "name", VString (bs "bar")); (bs "message", VString (bs "Hello World!"))]
  = unhex "435f77c9bdeca5dba4a4b8a34e4f732b4311f1fc252ec6d4e8ee475234b170f9".
Proof. vm_compute. reflexivity. Qed.
Example hash_bytes :
  ri_hash sha256 [(bs "bytes", VBytes [x01; x02; x03; x04])]
  = unhex "546729666d96a712bd94f902a0388e33f9a19a335c35bc3d95b0221a4a574455".
Proof. vm_compute. reflexivity. Qed.
Example hash_array_references :
  map (fun l => hash_value sha256 (VArray l))
    [[VString (bs "a")]; [VString (bs "a"); VString (bs "b")]; [VBytes ["a"%byte]; VString (bs "b")];
     [VArray [VString (bs "a")]]; [VArray [VString (bs "a"); VString (bs "b")]];
     [VArray [VString (bs "a"); VString (bs "b")]; VBytes ["a"%byte]]]
  = map unhex
    ["bf5d3affb73efd2ec6c36ad3112dd933efed63c4e1cbffcfa88e2759c144f2d8";
     "e5a01fee14e0ed5c48714f22180f25ad8365b53f9779f79dc4a3d7e93963f94a";
     "e5a01fee14e0ed5c48714f22180f25ad8365b53f9779f79dc4a3d7e93963f94a";
     "eb48bdfa15fc43dbea3aabb1ee847b6e69232c0f0d9705935e50d60cce77877f";
     "029fd80ca2dd66e7c527428fc148e812a9d99a5e41483f28892ef9013eee4a19";
     "aec3805593d9ec6df50da070597f73507050ce098b5518d0456876701ada7bb7"].
Proof. vm_compute. reflexivity. Qed.

(** ** packages/ic-http-certification/src/hash/request_hash.rs:85-175
    The URI parser is a parameter of the model; here it is the query component that the
    [http] crate finds in the four URLs of the tests. *)
Definition test_query (url : bytes) : option (option bytes) :=
  if bytes_eqb url (bs "https://ic0.app") then Some None
  else if bytes_eqb url (bs "https://ic0.app?q=hello+world&name=bar&name=foo&color=purple")
  then Some (Some (bs "q=hello+world&name=bar&name=foo&color=purple"))
  else Some (Some (bs "q=hello+world&name=foo&name=bar&color=purple")).
Definition test_request (uri : string) : request :=
  mk_request (bs "POST") (bs uri)
    [(bs "Accept-Language", bs "en"); (bs "Accept-Language", bs "en-US"); (bs "Host", bs "https://ic0.app")]
    [x00; x01; x02; x03; x04; x05; x06].
Example request_hash_without_query :
  request_hash sha256 test_query (test_request "https://ic0.app") (mk_request_cert [bs "host"] [])
  = Some (unhex "10796453466efb3e333891136b8a5931269f77e40ead9d437fcee94a02fa833c").
Proof. vm_compute. reflexivity. Qed.
Example request_hash_with_query :
  request_hash sha256 test_query (test_request "https://ic0.app?q=hello+world&name=foo&name=bar&color=purple")
    (mk_request_cert [bs "host"] [bs "q"; bs "name"])
  = Some (unhex "3ade1c9054f05bc8bcebd3fd7b884078a6e67c63e5ac4a639fa46a47f5a955c9").
Proof. vm_compute. reflexivity. Qed.

(** ** packages/ic-http-certification/src/hash/response_hash.rs:110-472 *)
Definition hello_world : bytes := map n2b [72; 101; 108; 108; 111; 32; 87; 111; 114; 108; 100; 33].
Definition exclusions_cel : bytes := bs "default_certification(ValidationArgs{certification:Certification{no_request_certification:Empty{},response_certification:ResponseCertification{response_header_exclusions:ResponseHeaderList{headers:[""Content-Security-Policy""]}}}})".
Definition certified_cel : bytes := bs "default_certification(ValidationArgs{certification:Certification{no_request_certification:Empty{},response_certification:ResponseCertification{certified_response_headers:ResponseHeaderList{headers:[""Accept-Encoding"",""Cache-Control""]}}}})".
Definition test_response (expr : bytes) : response :=
  mk_response 200
    [(bs "IC-Certificate", bs "certificate=:SGVsbG8gQ2VydGlmaWNhdGUh:,tree=:SGVsbG8gVHJlZSE=:");
     (bs "IC-CertificateExpression", expr); (bs "Accept-Encoding", bs "gzip"); (bs "Cache-Control", bs "no-cache");
     (bs "Cache-Control", bs "no-store"); (bs "Content-Security-Policy", bs "default-src 'self'")] hello_world.
Definition ae_cc : list bytes := [bs "Accept-Encoding"; bs "Cache-Control"].
Example response_with_certified_headers_without_excluded_headers :
  fst (filter_response_headers (test_response certified_cel) (CertifiedHeaders [bs "Accept-Encoding"]))
  = [(bs "ic-certificateexpression", certified_cel); (bs "accept-encoding", bs "gzip")].
Proof. vm_compute. reflexivity. Qed.
Example response_with_certified_headers :
  fst (filter_response_headers (test_response certified_cel) (CertifiedHeaders ae_cc))
  = [(bs "ic-certificateexpression", certified_cel); (bs "accept-encoding", bs "gzip");
     (bs "cache-control", bs "no-cache"); (bs "cache-control", bs "no-store")].
Proof. vm_compute. reflexivity. Qed.
Example response_hash_with_certified_headers :
  response_hash sha256 (test_response certified_cel) (CertifiedHeaders ae_cc) None
  = unhex "3393250e3cedc30408dcb7e8963898c3d7549b8a0b76496b82fdfeae99c2ac78".
Proof. vm_compute. reflexivity. Qed.
Example response_hash_with_header_exclusions :
  response_hash sha256 (test_response exclusions_cel) (HeaderExclusions ae_cc) None
  = unhex "a2ffb50ef8971650c2fb46c0a2788b7d5ac5a027d635175e8e06b419ce6c4cda".
Proof. vm_compute. reflexivity. Qed.
Example response_headers_hash_with_certified_headers :
  response_headers_hash sha256 200 (fst (filter_response_headers (test_response certified_cel) (CertifiedHeaders ae_cc)))
  = unhex "eac859a99d5bd7b71f46dbacecff4aaa0a7a7131802c136a77a76c8e018af5f7".
Proof. vm_compute. reflexivity. Qed.
Example response_hash_with_body_hash_override :
  response_hash sha256 (test_response certified_cel) (CertifiedHeaders ae_cc)
    (Some (unhex "5462fc394013080effc31d578ec3fff8b44cdf24738b38a77ce4afacbc93a7f5"))
  = unhex "1afc744a377cb8785d1078f53f9bbc9160d86b7a05f490e42c89366326eaef20".
Proof. vm_compute. reflexivity. Qed.

(** ** packages/ic-http-certification/src/utils/wildcard_paths.rs:60-275 *)
Definition abc : list bytes := [bs "a"; bs "b"; bs "c"].
Definition ms : list (list bytes) :=
  map (map bs) [["a"; "b"; "c"; "<*>"]; ["a"; "b"; ""; "<*>"]; ["a"; "b"; "<*>"]; ["a"; ""; "<*>"]; ["a"; "<*>"]; [""; "<*>"]].
Example test_more_specific_wildcards_for :
  map (fun p => more_specific_wildcards_for abc (map bs p))
      [["a"; "b"; "c"]; ["a"; "b"; ""]; ["a"; "b"]; ["a"; ""]; ["a"]; [""]; []; ["d"; "e"; "f"]]
  = map (fun n => Some (firstn n ms)) [0; 1; 2; 3; 4; 5; 6; 6]%nat.
Proof. vm_compute. reflexivity. Qed.

(** ** packages/ic-http-certification/src/tree/certification_tree_path.rs:148-235 *)
Definition path_cases : list (string * list string) :=
  [("", []); ("/", [""]); ("/foo", ["foo"]); ("foo", ["foo"]); ("/foo/", ["foo"; ""]); ("foo/", ["foo"; ""]);
   ("/foo/bar", ["foo"; "bar"]); ("foo/bar", ["foo"; "bar"]); ("/foo/bar/", ["foo"; "bar"; ""]); ("foo/bar/", ["foo"; "bar"; ""])].
Example exact_path_to_tree_path :
  map (fun c => path_tree_path (PExact (bs (fst c)))) path_cases = map (fun c => map bs (snd c ++ ["<$>"])%list) path_cases.
Proof. vm_compute. reflexivity. Qed.
Example wildcard_path_to_tree_path :
  map (fun c => path_tree_path (PWildcard (bs (fst c)))) path_cases = map (fun c => map bs (snd c ++ ["<*>"])%list) path_cases.
Proof. vm_compute. reflexivity. Qed.
Example exact_path_to_expr_path :
  map (fun c => expr_path (PExact (bs (fst c)))) path_cases = map (fun c => map bs ("http_expr" :: snd c ++ ["<$>"])%list) path_cases.
Proof. vm_compute. reflexivity. Qed.
Example wildcard_path_to_expr_path :
  map (fun c => expr_path (PWildcard (bs (fst c)))) path_cases = map (fun c => map bs ("http_expr" :: snd c ++ ["<*>"])%list) path_cases.
Proof. vm_compute. reflexivity. Qed.

(** ** packages/ic-http-certification/src/cel/create_cel_expr.rs:105-270 with cel/fixtures.rs *)
Example no_certification : print_cel (CelSkip) = remove_ws
  "default_certification(
            ValidationArgs {
                no_certification: Empty {}
            }
        )".
Proof. vm_compute. reflexivity. Qed.
Example no_request_response_inclusions : print_cel (CelResponseOnly (CertifiedHeaders (map bs ["Cache-Control"; "ETag"; "Content-Length"; "Content-Type"; "Content-Encoding"]))) = remove_ws
  "default_certification(
            ValidationArgs {
                certification: Certification {
                    no_request_certification: Empty {},
                    response_certification: ResponseCertification {
                        certified_response_headers: ResponseHeaderList {
                            headers: [
                                ""Cache-Control"",
                                ""ETag"",
                                ""Content-Length"",
                                ""Content-Type"",
                                ""Content-Encoding""
                            ]
                        }
                    }
                }
            }
        )".
Proof. vm_compute. reflexivity. Qed.
Example no_request_response_exclusions : print_cel (CelResponseOnly (HeaderExclusions (map bs ["Date"; "Cookie"; "Set-Cookie"]))) = remove_ws
  "default_certification(
            ValidationArgs {
                certification: Certification {
                    no_request_certification: Empty {},
                    response_certification: ResponseCertification {
                        response_header_exclusions: ResponseHeaderList {
                            headers: [
                                ""Date"",
                                ""Cookie"",
                                ""Set-Cookie""
                            ]
                        }
                    }
                }
            }
        )".
Proof. vm_compute. reflexivity. Qed.
Example no_request_empty_response_inclusions : print_cel (CelResponseOnly (CertifiedHeaders [])) = remove_ws
  "default_certification(
            ValidationArgs {
                certification: Certification {
                    no_request_certification: Empty {},
                    response_certification: ResponseCertification {
                        certified_response_headers: ResponseHeaderList {
                            headers: []
                        }
                    }
                }
            }
        )".
Proof. vm_compute. reflexivity. Qed.
Example no_request_empty_response_exclusions : print_cel (CelResponseOnly (HeaderExclusions [])) = remove_ws
  "default_certification(
            ValidationArgs {
                certification: Certification {
                    no_request_certification: Empty {},
                    response_certification: ResponseCertification {
                        response_header_exclusions: ResponseHeaderList {
                            headers: []
                        }
                    }
                }
            }
        )".
Proof. vm_compute. reflexivity. Qed.
Example include_request_response_header_inclusions : print_cel (CelFull (mk_request_cert (map bs ["Accept"; "Accept-Encoding"; "If-Match"]) (map bs ["foo"; "bar"; "baz"])) (CertifiedHeaders (map bs ["Cache-Control"; "ETag"; "Content-Length"; "Content-Type"; "Content-Encoding"]))) = remove_ws
  "default_certification(
            ValidationArgs {
                certification: Certification {
                    request_certification: RequestCertification {
                        certified_request_headers: [
                            ""Accept"",
                            ""Accept-Encoding"",
                            ""If-Match""
                        ],
                        certified_query_parameters: [
                            ""foo"",
                            ""bar"",
                            ""baz""
                        ]
                    },
                    response_certification: ResponseCertification {
                        certified_response_headers: ResponseHeaderList {
                            headers: [
                                ""Cache-Control"",
                                ""ETag"",
                                ""Content-Length"",
                                ""Content-Type"",
                                ""Content-Encoding""
                            ]
                        }
                    }
                }
            }
        )".
Proof. vm_compute. reflexivity. Qed.
Example include_request_response_header_exclusions : print_cel (CelFull (mk_request_cert (map bs ["Accept"; "Accept-Encoding"; "If-Match"]) (map bs ["foo"; "bar"; "baz"])) (HeaderExclusions (map bs ["Date"; "Cookie"; "Set-Cookie"]))) = remove_ws
  "default_certification(
            ValidationArgs {
                certification: Certification {
                    request_certification: RequestCertification {
                        certified_request_headers: [
                            ""Accept"",
                            ""Accept-Encoding"",
                            ""If-Match""
                        ],
                        certified_query_parameters: [
                            ""foo"",
                            ""bar"",
                            ""baz""
                        ]
                    },
                    response_certification: ResponseCertification {
                        response_header_exclusions: ResponseHeaderList {
                            headers: [
                                ""Date"",
                                ""Cookie"",
                                ""Set-Cookie""
                            ]
                        }
                    }
                }
            }
        )".
Proof. vm_compute. reflexivity. Qed.
Example include_request_empty_response_inclusions : print_cel (CelFull (mk_request_cert (map bs ["Accept"; "Accept-Encoding"; "If-Match"]) (map bs ["foo"; "bar"; "baz"])) (CertifiedHeaders [])) = remove_ws
  "default_certification(
            ValidationArgs {
                certification: Certification {
                    request_certification: RequestCertification {
                        certified_request_headers: [
                            ""Accept"",
                            ""Accept-Encoding"",
                            ""If-Match""
                        ],
                        certified_query_parameters: [
                            ""foo"",
                            ""bar"",
                            ""baz""
                        ]
                    },
                    response_certification: ResponseCertification {
                        certified_response_headers: ResponseHeaderList {
                            headers: []
                        }
                    }
                }
            }
        )".
Proof. vm_compute. reflexivity. Qed.
Example include_request_empty_response_exclusions : print_cel (CelFull (mk_request_cert (map bs ["Accept"; "Accept-Encoding"; "If-Match"]) (map bs ["foo"; "bar"; "baz"])) (HeaderExclusions [])) = remove_ws
  "default_certification(
            ValidationArgs {
                certification: Certification {
                    request_certification: RequestCertification {
                        certified_request_headers: [
                            ""Accept"",
                            ""Accept-Encoding"",
                            ""If-Match""
                        ],
                        certified_query_parameters: [
                            ""foo"",
                            ""bar"",
                            ""baz""
                        ]
                    },
                    response_certification: ResponseCertification {
                        response_header_exclusions: ResponseHeaderList {
                            headers: []
                        }
                    }
                }
            }
        )".
Proof. vm_compute. reflexivity. Qed.
Example empty_request_response_inclusions : print_cel (CelFull (mk_request_cert [] []) (CertifiedHeaders [])) = remove_ws
  "default_certification(
            ValidationArgs {
                certification: Certification {
                    request_certification: RequestCertification {
                        certified_request_headers: [],
                        certified_query_parameters: []
                    },
                    response_certification: ResponseCertification {
                        certified_response_headers: ResponseHeaderList {
                            headers: []
                        }
                    }
                }
            }
        )".
Proof. vm_compute. reflexivity. Qed.
Example empty_request_response_exclusions : print_cel (CelFull (mk_request_cert [] []) (HeaderExclusions [])) = remove_ws
  "default_certification(
            ValidationArgs {
                certification: Certification {
                    request_certification: RequestCertification {
                        certified_request_headers: [],
                        certified_query_parameters: []
                    },
                    response_certification: ResponseCertification {
                        response_header_exclusions: ResponseHeaderList {
                            headers: []
                        }
                    }
                }
            }
        )".
Proof. vm_compute. reflexivity. Qed.

(** ** packages/ic-response-verification/src/cel/tests.rs *)
Example parses_no_certification_expression :
  let text := "
        default_certification (
            ValidationArgs {
                no_certification: Empty { }
            }
        )
    " in
  (cel_of_text (bs text), cel_of_text (remove_ws text)) = (Some (CelSkip), Some (CelSkip)).
Proof. vm_compute. reflexivity. Qed.
Example parses_no_request_certification_expression :
  let text := "
        default_certification (
            ValidationArgs {
                certification: Certification {
                    no_request_certification: Empty {},
                    response_certification: ResponseCertification {
                        response_header_exclusions: ResponseHeaderList {
                            headers: [""Server"",""Date"",""X-Cache-Status""]
                        }
                    }
                }
            }
        )
    " in
  (cel_of_text (bs text), cel_of_text (remove_ws text)) = (Some (CelResponseOnly (HeaderExclusions (map bs ["Server"; "Date"; "X-Cache-Status"]))), Some (CelResponseOnly (HeaderExclusions (map bs ["Server"; "Date"; "X-Cache-Status"])))).
Proof. vm_compute. reflexivity. Qed.
Example parses_full_certification_expression :
  let text := "
        default_certification (
            ValidationArgs {
                certification: Certification {
                    request_certification: RequestCertification {
                        certified_request_headers: [""host""],
                        certified_query_parameters: [""filter""]
                    },
                    response_certification: ResponseCertification {
                        response_header_exclusions: ResponseHeaderList {
                            headers: [""Content-Type"",""X-Frame-Options"",""Content-Security-Policy"",""Strict-Transport-Security"",""Referrer-Policy"",""Permissions-Policy""]
                        }
                    }
                }
            }
        )
    " in
  (cel_of_text (bs text), cel_of_text (remove_ws text)) = (Some (CelFull (mk_request_cert [bs "host"] [bs "filter"]) (HeaderExclusions (map bs ["Content-Type"; "X-Frame-Options"; "Content-Security-Policy"; "Strict-Transport-Security"; "Referrer-Policy"; "Permissions-Policy"]))), Some (CelFull (mk_request_cert [bs "host"] [bs "filter"]) (HeaderExclusions (map bs ["Content-Type"; "X-Frame-Options"; "Content-Security-Policy"; "Strict-Transport-Security"; "Referrer-Policy"; "Permissions-Policy"])))).
Proof. vm_compute. reflexivity. Qed.

(** ** packages/ic-response-verification/src/verification/certificate_header_field.rs:33-92 and
    certificate_header.rs:130-395 (tests), test_utils.rs:11-67 ([create_tree], [create_header_field]) *)
Definition test_assets (path sha : bytes) : htree :=
  HFork (HLabeled (bs "http_assets")
           (HFork (HFork (HLabeled path (HLeaf sha))
                         (HPruned (unhex "d7cd0a6cf52a2070dc51fe1d7b6a87078888719e16849c748c35e7fc7b69f95c")))
                  (HPruned (unhex "582b5321336646d48c6f8bf1913333bb4ebf65c09ffbf8207c012e1f54071261"))))
        (HPruned (unhex "21334b26681d7220e3d2d7dcb23a89ccdb1b1e044eb35ebbe491f66d4080d078")).
Definition default_sha : bytes := unhex "784c0f825a938aa7f471587cdf7c7796f828f9362495e2b9c8490f2232359bdb".
Definition test_asset_tree : htree := test_assets (bs "/") default_sha.
Definition raw_field (name : string) (v : bytes) : bytes := (bs name ++ bs "=:" ++ v ++ bs ":")%list.
Definition enc_field (name : string) (v : bytes) : bytes := raw_field name (b64_enc true v).
Fixpoint join (fs : list bytes) : bytes :=
  match fs with [] => [] | [f] => f | f :: r => (f ++ bs "," ++ join r)%list end.
Definition cert_bytes : bytes := (self_describe ++ enc_cert (test_certificate None))%list.
Definition f_cert : bytes := enc_field "certificate" cert_bytes.
Definition f_tree : bytes := enc_field "tree" (enc_tree test_asset_tree).
Definition f_version : bytes := raw_field "version" (bs "2").
Definition test_path : list bytes := [bs "/"; bs "assets"; bs "img.jpg"].
Definition f_path : bytes := enc_field "expr_path" (enc_strings test_path).
Definition e_cert := test_certificate None.
Definition the_header : header := mk_header e_cert test_asset_tree 2 (Some test_path).
Example certificate_header_field_parses_valid_field :
  header_field f_cert = Some (bs "certificate", b64_enc true cert_bytes).
Proof. vm_compute. reflexivity. Qed.
Example certificate_header_field_others :
  (header_field (bs "version=2"), header_field (bs "=::"), header_field [], header_field (bs "certificate:" ++ b64_enc true cert_bytes)%list)
  = (Some (bs "version", bs "2"), None, None, None).
Proof. vm_compute. reflexivity. Qed.
Definition hdr (fs : list bytes) : res rv_error header := header_from_e umod cap (join fs).
Example certificate_header_parses_valid_header : hdr [f_cert; f_tree; f_version; f_path] = ROk the_header.
Proof. vm_compute. reflexivity. Qed.
Example certificate_header_parses_valid_header_with_unpadded_base64 :
  hdr [raw_field "certificate" (b64_enc false cert_bytes); raw_field "tree" (b64_enc false (enc_tree test_asset_tree)); f_version;
       raw_field "expr_path" (b64_enc false (enc_strings test_path))] = ROk the_header.
Proof. vm_compute. reflexivity. Qed.
Example certificate_header_ignores_extraneous_fields :
  hdr [f_cert; f_tree; f_version; f_path; enc_field "garbage" (bs "asdhlasjdasdoou")] = ROk the_header.
Proof. vm_compute. reflexivity. Qed.
Example certificate_header_throws_with_missing_tree : hdr [f_cert; f_version; f_path] = RErr MissingTree.
Proof. vm_compute. reflexivity. Qed.
Example certificate_header_throws_with_empty_tree : hdr [f_cert; enc_field "tree" []; f_version; f_path] = RErr MissingTree.
Proof. vm_compute. reflexivity. Qed.
Example certificate_header_throws_with_missing_certificate : hdr [f_tree; f_version; f_path] = RErr MissingCertificate.
Proof. vm_compute. reflexivity. Qed.
Example certificate_header_throws_with_empty_certificate :
  hdr [enc_field "certificate" []; f_tree; f_version; f_path] = RErr MissingCertificate.
Proof. vm_compute. reflexivity. Qed.
Example certificate_header_handles_missing_version :
  hdr [f_cert; f_tree; f_path] = ROk (mk_header e_cert test_asset_tree 1 (Some test_path)).
Proof. vm_compute. reflexivity. Qed.
Example certificate_header_handles_empty_version :
  hdr [f_cert; f_tree; enc_field "version" []; f_path] = ROk (mk_header e_cert test_asset_tree 1 (Some test_path)).
Proof. vm_compute. reflexivity. Qed.
Example certificate_header_handles_missing_expr_path :
  hdr [f_cert; f_tree; f_version] = ROk (mk_header e_cert test_asset_tree 2 None).
Proof. vm_compute. reflexivity. Qed.
Example certificate_header_handles_empty_expr_path :
  hdr [f_cert; f_tree; f_version; enc_field "expr_path" []] = ROk (mk_header e_cert test_asset_tree 2 None).
Proof. vm_compute. reflexivity. Qed.
Example certificate_header_ignores_duplicate_fields :
  hdr [f_cert; enc_field "certificate" (bs "Goodbye Certificate!"); f_tree; enc_field "tree" (bs "Goodbye tree!"); f_version; f_path;
       enc_field "version" (bs "3"); enc_field "expr_path" (bs "Goodbye expr_path!")] = ROk the_header.
Proof. vm_compute. reflexivity. Qed.

(** ** packages/ic-response-verification/src/validation/v1_validation.rs:33-140 (tests) *)
Definition body_sha : bytes := unhex "7192385c3c0605de55bb9476ce1d90748190ecb32a8eed7f5207b30cf6a1fe89".
Example body_sha_ok : sha256 six = body_sha.
Proof. vm_compute. reflexivity. Qed.
Definition bad_sha : bytes := [x09; x08; x07; x06; x05; x04; x03; x02; x01].
Example validate_body_cases :
  map (fun c => validate_body (test_assets (bs (fst (fst c))) (snd c)) (bs (snd (fst c))) body_sha)
      [("/app.js", "/app.js", body_sha); ("/index.html", "/garbage.js", body_sha); ("/index.html", "/app.js", bad_sha);
       ("/app.js", "/app.js", bad_sha); ("/garbage.js", "/app.js", body_sha)]
  = [true; true; false; false; false].
Proof. vm_compute. reflexivity. Qed.

(** ** packages/ic-response-verification/src/validation/v2_validation.rs:221-1172 (tests) *)
Definition pruned_a : htree := HPruned (unhex "ea7fd1a6b0cac1fe118016ca3026e58d5ae67a6965478acb561edba542732e24").
Definition pruned_c : htree := HPruned (unhex "c01f7c0681a684be0a016b800981951832b53d5ffb55c49c27f6e83f7d2749c3").
Definition lb (s : string) (t : htree) : htree := HLabeled (bs s) t.
Definition nothing : htree := HLeaf [].
Definition v2_cel : bytes := bs "default_certification(ValidationArgs{certification:Certification{request_certification:RequestCertification{certified_request_headers:[""host""],certified_query_parameters:[]},response_certification:ResponseCertification{certified_response_headers:ResponseHeaderList{headers:[""Accept-Encoding"",""Cache-Control""]}}}})".
Definition v2_no_cel : bytes := bs "default_certification(ValidationArgs{no_certification:Empty{}})".
(** [hash(..)] of the two texts, computed once (checked by the next two examples) *)
Definition eh : bytes := unhex "76ecf959f7762bb8c053b2f48b0742a1039d2fc61a43f8fc384f49af78783780".
Definition neh : bytes := unhex "c31abadbd0b059f9d464fd6df4da9e2dc087ae7d0b40468d337226d413b33723".
Example eh_ok : sha256 v2_cel = eh.
Proof. vm_compute. reflexivity. Qed.
Example neh_ok : sha256 v2_no_cel = neh.
Proof. vm_compute. reflexivity. Qed.
Definition rqh : bytes := unhex "5fac69685533f0650991441a2b818e8ad5ab2fec51de8cfdbea1276135494815".
Definition rsh : bytes := unhex "07b7c729f4083db0e266fef3f8f5acf1315135605bf38884c07ebb59fbf91ce8".
Definition app_path : list bytes := map bs ["http_expr"; "assets"; "js"; "app.js"; "<$>"].
Definition under (l : list string) (t : htree) : htree := fold_right lb t l.
Definition at_app (t : htree) : htree := HFork (under ["http_expr"; "assets"; "js"; "app.js"; "<$>"] t) pruned_a.
Definition v2_certification : cel := CelFull (mk_request_cert [bs "Host"] []) (CertifiedHeaders ae_cc).
Definition hashes_valid (t : htree) : bool := validate_hashes eh (Some rqh) rsh app_path t v2_certification.
Example validate_hashes_cases :
  map hashes_valid
    [at_app (HLabeled eh (HFork (HLabeled rqh (HLabeled rsh nothing)) pruned_a));
     HFork (under ["http_expr"; "assets"; "css"; "app.css"; "<$>"] (HLabeled eh (HLabeled rqh (HLabeled rsh nothing)))) pruned_a;
     at_app (HLabeled (unhex "c5dbe9d11756d4a7b05e5c0e246035dedcd1e4e71bd1e726c4011940d811496b") (HLabeled rqh (HLabeled rsh nothing)));
     at_app (HLabeled eh (HLabeled rsh nothing));
     at_app (HLabeled eh (HFork (HLabeled (unhex "236baceb3bbf1ad861a981807c4f7580344d8c7b25b7329be266c603ccc0f03e") (HLabeled rsh nothing)) pruned_a));
     at_app (HLabeled eh (HFork (HLabeled rqh nothing) pruned_a));
     at_app (HLabeled eh (HFork (HLabeled rqh (HLabeled (unhex "02456594f95f4e8f35f14850d23bc05aa065ecc17eb4aeaff3c1819edaee0816") nothing)) pruned_a))]
  = [true; false; false; false; false; false; false].
Proof. vm_compute. reflexivity. Qed.
Example validate_expr_hash_cases :
  let sib := at_app (HFork (HLabeled eh nothing) (HLabeled neh nothing)) in
  [validate_expr_hash app_path neh (at_app (HLabeled neh nothing)); validate_expr_hash app_path eh sib; validate_expr_hash app_path neh sib;
   validate_expr_hash app_path neh (at_app (HLabeled (unhex "02456594f95f4e8f35f14850d23bc05aa065ecc17eb4aeaff3c1819edaee0816") nothing))]
  = [Some nothing; Some nothing; Some nothing; None].
Proof. vm_compute. reflexivity. Qed.
Definition verdict_kind (r : res rv_error unit) : string :=
  match r with
  | ROk _ => "ok"
  | RErr (UnexpectedExpressionPathPrefix _) => "UnexpectedExpressionPathPrefix"
  | RErr (UnexpectedExpressionPathSuffix _) => "UnexpectedExpressionPathSuffix"
  | RErr (ExactExpressionPathNotFoundInTree _) => "ExactExpressionPathNotFoundInTree"
  | RErr (ExactExpressionPathMismatch _ _) => "ExactExpressionPathMismatch"
  | RErr (ExactExpressionPathMightExistInTree _ _ _) => "ExactExpressionPathMightExistInTree"
  | RErr (WildcardExpressionPathNotFoundInTree _ _) => "WildcardExpressionPathNotFoundInTree"
  | RErr (WildcardExpressionPathMismatch _ _) => "WildcardExpressionPathMismatch"
  | RErr (MoreSpecificWildcardExpressionMightExistInTree _ _ _) => "MoreSpecificWildcardExpressionMightExistInTree"
  | _ => "other"
  end.
Definition check_path (e : list string) (path : string) (t : htree) : string := verdict_kind (validate_expr_path_e (map bs e) (bs path) t).
Definition star : htree := lb "<*>" nothing.
Definition dollar : htree := lb "<$>" nothing.
Definition top (t : htree) : htree := HFork (lb "http_expr" t) pruned_c.
Example validate_expr_path_cases :
  [check_path ["http_expr"; "assets"; "js"; "app.js"; "<$>"] "/assets/js/app.js" (top (under ["assets"; "js"; "app.js"] dollar));
   check_path ["http_expr"; "app"; ""; "<$>"] "/app/" (top (under ["app"; ""] dollar));
   check_path ["http_expr"; "assets"; "js"; "<*>"] "/assets/js/app.js" (top (under ["assets"; "js"] star));
   check_path ["http_expr"; "app"; ""; "<*>"] "/app/not-existing" (top (lb "app" (HFork (lb "" star) dollar)));
   check_path ["http_expr"; ""; "<*>"] "/app/not-existing" (top (HFork (lb "app" (HFork (lb "" star) dollar)) (lb "" star)));
   check_path ["http_expr"; "assets"; "js"; "app.js"; "<$>"] "/assets/js/app.js" (top (under ["assets"; "js"] star));
   check_path ["http_expr"; "assets"; "js"; "<$>"] "/assets/js/app.js" (top (under ["assets"; "js"] dollar));
   check_path ["http_expr"; "assets"; "css"; "<*>"] "/assets/js/app.js" (top (lb "assets" (HFork (lb "js" star) (lb "css" star))));
   check_path ["http_expr"; "assets"; "<*>"] "/assets/js/app.js" (top (lb "assets" (HFork star pruned_c)));
   check_path ["http_expr"; "assets"; "js"; "<*>"] "/assets/js/app.js" (top (under ["assets"; "js"; "app.js"] dollar));
   check_path ["http_expr"; "assets"; "<*>"] "/assets/js/app.js" (top (under ["assets"; "js"] star));
   check_path ["http_assets"; "assets"; "js"; "app.js"; "<$>"] "/assets/js/app.js" (HFork (under ["http_assets"; "assets"; "js"; "app.js"] dollar) pruned_c);
   check_path ["http_expr"; "assets"] "/assets/js/app.js" (top star)]
  = ["ok"; "ok"; "ok"; "ok"; "MoreSpecificWildcardExpressionMightExistInTree"; "ExactExpressionPathNotFoundInTree";
     "ExactExpressionPathMismatch"; "WildcardExpressionPathMismatch"; "ExactExpressionPathMightExistInTree";
     "ExactExpressionPathMightExistInTree"; "MoreSpecificWildcardExpressionMightExistInTree";
     "UnexpectedExpressionPathPrefix"; "UnexpectedExpressionPathSuffix"].
Proof. vm_compute. reflexivity. Qed.
(** [validate_various_expr_paths] *)
Definition both : htree := HFork (lb "" star) star.
Definition tree_a_b_slash : htree := top (HFork both (lb "a" (HFork both (lb "b" both)))).
Definition tree_a_b : htree := top (HFork both (lb "a" (HFork both (lb "b" star)))).
Definition tree_a_slash : htree := top (HFork both (lb "a" both)).
Definition tree_a : htree := top (HFork both (lb "a" star)).
Definition tree_slash : htree := top both.
Definition tree_star : htree := lb "http_expr" star.
Definition various (c : string * list string * htree) : string := check_path ("http_expr" :: snd (fst c)) (fst (fst c)) (snd c).
Example validate_various_expr_paths_1 :
  map various
    [("/a/b", ["a"; "b"; "<*>"], tree_a_b_slash);
     ("/a/b/", ["a"; "b"; ""; "<*>"], tree_a_b_slash);
     ("/a/b", ["a"; "b"; "<*>"], tree_a_b);
     ("/a/b/", ["a"; "b"; "<*>"], tree_a_b);
     ("/a/b", ["a"; ""; "<*>"], tree_a_slash);
     ("/a/b/", ["a"; ""; "<*>"], tree_a_slash);
     ("/a/b", ["a"; "<*>"], tree_a);
     ("/a/b/", ["a"; "<*>"], tree_a);
     ("/a/b", [""; "<*>"], tree_slash);
     ("/a/b/", [""; "<*>"], tree_slash);
     ("/a/b", ["<*>"], tree_star);
     ("/a/b/", ["<*>"], tree_star);
     ("/", [""; "<*>"], tree_a_b_slash);
     ("/", ["<*>"], tree_star)]
  = repeat "ok" 14%nat.
Proof. vm_compute. reflexivity. Qed.
Example validate_various_expr_paths_2 :
  map various
    [("/a/b/", ["a"; "b"; ""; "<*>"], tree_a_b);
     ("/a/b", ["a"; "b"; "<*>"], tree_a_slash);
     ("/a/b/", ["a"; "b"; "<*>"], tree_a_slash);
     ("/a/b/", ["a"; "b"; ""; "<*>"], tree_a_slash);
     ("/a/b", ["a"; ""; "<*>"], tree_a);
     ("/a/b", ["a"; "b"; "<*>"], tree_a);
     ("/a/b/", ["a"; ""; "<*>"], tree_a);
     ("/a/b/", ["a"; "b"; "<*>"], tree_a);
     ("/a/b/", ["a"; "b"; ""; "<*>"], tree_a);
     ("/a/b", ["a"; "<*>"], tree_slash);
     ("/a/b", ["a"; ""; "<*>"], tree_slash);
     ("/a/b", ["a"; "b"; "<*>"], tree_slash);
     ("/a/b/", ["a"; "<*>"], tree_slash);
     ("/a/b/", ["a"; ""; "<*>"], tree_slash);
     ("/a/b/", ["a"; "b"; "<*>"], tree_slash);
     ("/a/b/", ["a"; "b"; ""; "<*>"], tree_slash);
     ("/a/b", [""; "<*>"], tree_star);
     ("/a/b", ["a"; "<*>"], tree_star);
     ("/a/b", ["a"; ""; "<*>"], tree_star);
     ("/a/b", ["a"; "b"; "<*>"], tree_star);
     ("/a/b/", [""; "<*>"], tree_star);
     ("/a/b/", ["a"; "<*>"], tree_star);
     ("/a/b/", ["a"; ""; "<*>"], tree_star);
     ("/a/b/", ["a"; "b"; "<*>"], tree_star);
     ("/a/b/", ["a"; "b"; ""; "<*>"], tree_star);
     ("/", [""; "<*>"], tree_star)]
  = repeat "WildcardExpressionPathNotFoundInTree" 26%nat.
Proof. vm_compute. reflexivity. Qed.
Example validate_various_expr_paths_3 :
  map various
    [("/", ["<*>"], tree_a_b_slash);
     ("/a/b", ["a"; ""; "<*>"], tree_a_b_slash);
     ("/a/b/", ["a"; "b"; "<*>"], tree_a_b_slash);
     ("/a/b", ["a"; ""; "<*>"], tree_a_b);
     ("/a/b/", ["a"; ""; "<*>"], tree_a_b);
     ("/a/b", ["a"; "<*>"], tree_a_slash);
     ("/a/b/", ["a"; "<*>"], tree_a_slash);
     ("/a/b", [""; "<*>"], tree_a);
     ("/a/b/", [""; "<*>"], tree_a);
     ("/a/b", ["<*>"], tree_slash);
     ("/a/b/", ["<*>"], tree_slash)]
  = repeat "MoreSpecificWildcardExpressionMightExistInTree" 11%nat.
Proof. vm_compute. reflexivity. Qed.
Example validate_various_expr_paths_4 :
  map various
    [("/", ["a"; "<*>"], tree_a_b_slash);
     ("/a/b", ["a"; "c"; "<*>"], tree_a_b_slash);
     ("/a/b", ["c"; "b"; "<*>"], tree_a_b_slash)]
  = repeat "WildcardExpressionPathMismatch" 3%nat.
Proof. vm_compute. reflexivity. Qed.
