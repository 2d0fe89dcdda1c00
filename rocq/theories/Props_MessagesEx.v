(** C139: a text with a line break, and concrete cases. *)
From Coq Require Import List Arith NArith Lia Bool.
From Verif Require Import CertVerify CertSpec Header V2 Bytes Toy Text HashTree Cbor HttpTypes Cel Verify Errors JsErrors Messages Props_Messages JsonApi Props_Roundtrip Props_Json Props_JsonEx Props_Verify Props_Cert Props_Roundtrip.
Import ListNotations.
Local Open Scope N_scope.

(** the response of C87's example to a query for the list *)
Definition exm_response : response := match api_serve (ask (bs "GET") (bs "/todos")) with Some (rs, _) => rs | None => mk_response 0 [] [] end.
(** "/todos", a line break, "ok": not a url *)
Definition exm_url : bytes := bs "/todos" ++ [x0a] ++ bs "ok".
Definition exm_uri (u : bytes) : option bytes := if bytes_eqb u exm_url then None else ex_uri u.
Definition exm_verify (rq : request) : res rv_error info :=
  verify_e (2 ^ 64) (2 ^ 60) true toy ex_ple (toy_signer (ex_state api_root)) exm_uri ex_query ex_none ex_none rq exm_response (bs "e") 1010 20 (ex_key x01) 2.
Definition exm_plain (c : N) : bool := (32 <=? c) && negb (c =? 127).
Definition exm_text (rq : request) : option bytes := match exm_verify rq with RErr x => Some (message exm_plain [] [] x) | _ => None end.
(** Full statement, refuted: every text is one line. *)
Theorem C139_malformed_urls_break_lines_refuted :
  exm_text (ask (bs "GET") exm_url) = Some (bs "HTTP Certification error: ""Failed to parse url: ""/todos" ++ [x0a] ++ bs "ok""""") /\
  ~ one_line (bs "HTTP Certification error: ""Failed to parse url: ""/todos" ++ [x0a] ++ bs "ok""""").
Proof.
  split; [vm_compute; reflexivity|]. intro O. assert (X := proj1 (Forall_forall _ _) O x0a). cbv beta in X. destruct X as [X _]; [apply in_or_app; right; left; reflexivity|]. vm_compute in X. apply X. reflexivity.
Qed.
Print Assumptions C139_malformed_urls_break_lines_refuted.

(** Other refusals of the same response; a path with quotes, a backslash, a line break and an e with acute accent. *)
Example C138_texts :
  exm_text (ask (bs "GET") (bs "/else")) = Some (bs "The exact expression path provided by the ""IC-Certificate"" response header ([""http_expr"", ""todos"", ""<$>""]) is not valid for the request path (""http_exprelse<$>"")") /\
  exm_text (ask (bs "GET") (bs "/%22%5C%0A%C3%A9")) = Some (bs "The exact expression path provided by the ""IC-Certificate"" response header ([""http_expr"", ""todos"", ""<$>""]) is not valid for the request path (""http_expr\""\\\n" ++ unhex "c3a9" ++ bs "<$>"")") /\
  exm_text (ask (bs "GET") (bs "/todos?x")) = Some (bs "Invalid response hashes").
Proof. vm_compute. repeat split. Qed.
(** the texts that error.rs:352-826 test *)
Example C138_tested_texts :
  let m := message exm_plain (bs "io") (bs "utf8") in let p := [bs "http_expr"] in
  m (HttpCertificationError (MalformedUrl (bs "https://internetcomputer.org"))) = bs "HTTP Certification error: ""Failed to parse url: ""https://internetcomputer.org""""" /\
  m (UnsupportedVerificationVersion 1 2 42) = bs "The requested verification version 42 is not supported, the current supported range is 1-2" /\
  m (RequestedVerificationVersionMismatch 2 1) = bs "The requested verification version 1 is lower than the minimum requested version 2" /\
  m (UnexpectedExpressionPathPrefix p) = bs "The expression path provided by the ""IC-Certificate"" response header ([""http_expr""]) has an unexpected prefix and should start with ""http_expr" /\
  m (ExactExpressionPathMightExistInTree p p (bs "/path")) = bs "A wildcard expression path was provided by the ""IC-Certificate"" response header ([""http_expr""]), but a potential exact expression path ([""http_expr""]) is valid for the request path (""/path"") and might exist in the tree" /\
  m (MoreSpecificWildcardExpressionMightExistInTree p p (bs "/path")) = bs "A more specific wildcard expression path ([""http_expr""]) than the one provided by the ""IC-Certificate"" response header ([""http_expr""]) that is valid for the request path (""/path"") might exist in the tree".
Proof. vm_compute. repeat split. Qed.
