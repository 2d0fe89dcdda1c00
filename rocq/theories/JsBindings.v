(** Model of the JavaScript side:
    /repo/packages/ic-response-verification-wasm/src/{lib,request,response}.rs,
    /repo/packages/ic-response-verification/src/types/{verification_result,verified_response}.rs (JsValue conversions)
    and /repo/packages/certificate-verification-js/src/index.ts. *)
From Coq Require Import List Arith NArith ZArith Bool.
From Verif Require Import Bytes HashTree Cbor HttpTypes Verify Leb128.
Import ListNotations.

(** JavaScript values.  Strings are held as UTF-8; numbers as the integer they
    truncate to ([JNaN]: not a number); typed arrays of bytes apart from arrays.
    An object is the list of its own enumerable entries ([Object.entries]),
    whose names are distinct. *)
Inductive jsval :=
| JUndefined
| JStr (s : bytes)
| JNum (n : Z)
| JNaN
| JBytes (b : bytes)
| JArr (l : list jsval)
| JObj (entries : list (bytes * jsval)).

(** wasm_bindgen: [JsValue::as_string] then [unwrap] *)
Definition js_string (v : jsval) : out bytes := match v with JStr s => OOk s | _ => OPanic end.
(** [Number::as_f64().unwrap() as u16]: truncating and saturating *)
Definition js_u16 (v : jsval) : out N :=
  match v with
  | JNum n => OOk (if (n <? 0)%Z then 0%N else if (65535 <? n)%Z then 65535%N else Z.to_N n)
  | JNaN => OOk 0%N
  | _ => OPanic
  end.
(** [Uint8Array::to_vec] through [TypedArray.prototype.set]: numbers modulo 256;
    other element types are not modelled (they give 0) *)
Definition js_body (v : jsval) : bytes :=
  match v with
  | JBytes b => b
  | JArr l => map (fun x => match x with JNum n => n2b (Z.to_N (n mod 256)) | _ => x00 end) l
  | _ => []
  end.
(** [Array::iter]; a value without elements is empty *)
Definition js_elems (v : jsval) : list jsval := match v with JArr l => l | JBytes b => map (fun x => JNum (Z.of_N (b2n x))) b | _ => [] end.
Definition js_get (n : nat) (v : jsval) : jsval := nth n (js_elems v) JUndefined.
(** request.rs:51-60, response.rs:36-45: the header loop *)
Fixpoint js_headers_loop (l : list jsval) : out (list (bytes * bytes)) :=
  match l with
  | [] => OOk []
  | h :: r =>
      ok n <- js_string (js_get 0 h);
      ok v <- js_string (js_get 1 h);
      ok rs <- js_headers_loop r;
      OOk ((n, v) :: rs)
  end.
Definition js_headers (v : jsval) : out (list (bytes * bytes)) := js_headers_loop (js_elems v).
Definition js_entries (v : jsval) : list (bytes * jsval) := match v with JObj e => e | _ => [] end.

(** http::StatusCode::from_u16 *)
Definition status_ok (n : N) : bool := (100 <=? n)%N && (n <=? 999)%N.

Section Wasm.
  (** [method_ok]: http::Method::from_str accepts the string *)
  Variable method_ok : bytes -> bool.

  (** request.rs:18-70 [request_from_js]; the loop variables are method, url, headers, body *)
  Fixpoint request_loop (m u : bytes) (hs : list (bytes * bytes)) (b : bytes) (es : list (bytes * jsval)) : out (bytes * bytes * list (bytes * bytes) * bytes) :=
    match es with
    | [] => OOk (m, u, hs, b)
    | (k, v) :: r =>
        ok m' <- (if bytes_eqb k (bs "method") then js_string v else OOk m);
        ok u' <- (if bytes_eqb k (bs "url") then js_string v else OOk u);
        ok hs' <- (if bytes_eqb k (bs "headers") then js_headers v else OOk hs);
        request_loop m' u' hs' (if bytes_eqb k (bs "body") then js_body v else b) r
    end.
  Definition request_from_js (v : jsval) : out request :=
    ok x <- request_loop [] [] [] [] (js_entries v);
    let '(m, u, hs, b) := x in
    if method_ok m then OOk (mk_request m u hs b) else OPanic.

  (** response.rs:14-57 [response_from_js] *)
  Fixpoint response_loop (s : N) (hs : list (bytes * bytes)) (b : bytes) (es : list (bytes * jsval)) : out (N * list (bytes * bytes) * bytes) :=
    match es with
    | [] => OOk (s, hs, b)
    | (k, v) :: r =>
        ok s' <- (if bytes_eqb k (bs "status_code") then js_u16 v else OOk s);
        ok hs' <- (if bytes_eqb k (bs "headers") then js_headers v else OOk hs);
        response_loop s' hs' (if bytes_eqb k (bs "body") then js_body v else b) r
    end.
  Definition response_from_js (v : jsval) : out response :=
    ok x <- response_loop 0 [] [] (js_entries v);
    let '(s, hs, b) := x in
    if status_ok s then OOk (mk_response s hs b) else OPanic.

  (** verified_response.rs:28-56 [From<VerifiedResponse> for JsValue] *)
  Definition js_of_verified (r : verified) : jsval :=
    let rest := [(bs "body", JBytes (v_body r)); (bs "headers", JArr (map (fun h => JArr [JStr (fst h); JStr (snd h)]) (v_headers r)))] in
    JObj (match v_status r with Some s => (bs "statusCode", JNum (Z.of_N s)) :: rest | None => rest end).
  (** verification_result.rs:29-47 [From<VerificationInfo> for JsValue] *)
  Definition js_of_info (i : info) : jsval :=
    JObj [(bs "response", match i_response i with Some r => js_of_verified r | None => JUndefined end);
          (bs "verificationVersion", JNum (Z.of_N (i_version i)))].

  (** lib.rs:45-72 [verify_request_response_pair]; the times arrive as u64 BigInts *)
  Section Entry.
    Variables (umod cap_max : N) (checked : bool) (H : bytes -> bytes) (ple : bytes -> bytes -> bool)
              (vs : bytes -> bytes -> bytes -> bool) (uri_path : bytes -> option bytes) (uri_query : bytes -> option (option bytes))
              (gunzip inflate : bytes -> option bytes).
    Definition wasm_verify (rq rs : jsval) (canister_id : bytes) (now offset : N) (key : bytes) (min_version : N) : out jsval :=
      ok q <- request_from_js rq;
      ok r <- response_from_js rs;
      ok i <- verify umod cap_max checked H ple vs uri_path uri_query gunzip inflate q r canister_id now offset key min_version;
      OOk (js_of_info i).
  End Entry.
End Wasm.

(** ** certificate-verification-js/src/index.ts
    [create]: Certificate.create of @dfinity/agent, giving the lookup function
    of the accepted certificate, or nothing when it throws; [decode],
    [reconstruct]: Cbor.decode and reconstruct of @dfinity/agent; [leb]:
    lebDecode of @dfinity/candid.  Millisecond numbers are taken as exact
    (JavaScript numbers are, below 2^53). *)
Section VerifyCertification.
  Variables (T : Type) (create : bytes -> bytes -> bytes -> option (list bytes -> option bytes)) (decode : bytes -> option T)
            (reconstruct : T -> bytes) (leb : bytes -> option N).
  (** index.ts:41-62 [validateCertificateTime]: [false] is a thrown error *)
  Definition js_time_ok (lookup : list bytes -> option bytes) (offset_ms now_ms : Z) : bool :=
    match lookup [bs "time"] with
    | None => false
    | Some e =>
        match leb e with
        | None => false
        | Some t =>
            let ms := Z.of_N (t / 1000000) in
            if (now_ms <? ms - offset_ms)%Z then false else if (ms + offset_ms <? now_ms)%Z then false else true
        end
    end.
  (** index.ts:64-91 [validateTree], [equal] *)
  Definition js_tree_ok (tree : T) (lookup : list bytes -> option bytes) (canister_id : bytes) : bool :=
    match lookup [bs "canister"; canister_id; bs "certified_data"] with
    | None => false
    | Some d => bytes_eqb d (reconstruct tree)
    end.
  (** index.ts:21-39 [verifyCertification]: [None] is a rejected promise *)
  Definition verify_certification (canister_id encoded_certificate encoded_tree root_key : bytes) (offset_ms now_ms : Z) : option T :=
    match create encoded_certificate canister_id root_key with
    | None => None
    | Some lookup =>
        match decode encoded_tree with
        | None => None
        | Some tree => if js_time_ok lookup offset_ms now_ms && js_tree_ok tree lookup canister_id then Some tree else None
        end
    end.
End VerifyCertification.
