(** Model of /repo/packages/ic-response-verification/src/verification/certificate_header.rs
    and certificate_header_field.rs, and of
    /repo/packages/ic-http-certification/src/utils/response_header.rs. *)
From Coq Require Import List Arith NArith Lia Bool.
From Verif Require Import Bytes Text HashTree Cbor Base64.
Import ListNotations.
Local Open Scope N_scope.

(** Unicode White_Space in UTF-8 *)
Definition ws_chars : list bytes :=
  [[x09]; [x0a]; [x0b]; [x0c]; [x0d]; [x20]; [xc2; x85]; [xc2; xa0]; [xe1; x9a; x80];
   [xe2; x80; x80]; [xe2; x80; x81]; [xe2; x80; x82]; [xe2; x80; x83]; [xe2; x80; x84]; [xe2; x80; x85];
   [xe2; x80; x86]; [xe2; x80; x87]; [xe2; x80; x88]; [xe2; x80; x89]; [xe2; x80; x8a];
   [xe2; x80; xa8]; [xe2; x80; xa9]; [xe2; x80; xaf]; [xe2; x81; x9f]; [xe3; x80; x80]].
Fixpoint strip_prefix (p s : bytes) : option bytes :=
  match p, s with
  | [], _ => Some s
  | a :: p', b :: s' => if byte_eqb a b then strip_prefix p' s' else None
  | _ :: _, [] => None
  end.
Fixpoint strip_any (ps : list bytes) (s : bytes) : option bytes :=
  match ps with [] => None | p :: r => match strip_prefix p s with Some t => Some t | None => strip_any r s end end.
Fixpoint trim_with (ps : list bytes) (fuel : nat) (s : bytes) : bytes :=
  match fuel with O => s | S f => match strip_any ps s with Some t => trim_with ps f t | None => s end end.
(** str::trim: characters with the White_Space property at both ends.  UTF-8 is
    self-synchronising, so on valid strings matching their encodings bytewise is
    the same. *)
Definition trim (s : bytes) : bytes :=
  let s1 := trim_with ws_chars (length s) s in
  rev (trim_with (map (@rev byte) ws_chars) (length s1) (rev s1)).

(** nom take_until("=") then tag("=") *)
Fixpoint until (c : byte) (s : bytes) : option (bytes * bytes) :=
  match s with
  | [] => None
  | b :: r => if byte_eqb b c then Some ([], r) else option_map (fun x => (b :: fst x, snd x)) (until c r)
  end.
Definition drop_opt (c : byte) (s : bytes) : bytes :=
  match s with b :: r => if byte_eqb b c then r else s | [] => [] end.
Fixpoint take_while_not (c : byte) (s : bytes) : bytes * bytes :=
  match s with
  | [] => ([], [])
  | b :: r => if byte_eqb b c then ([], s) else let (a, t) := take_while_not c r in (b :: a, t)
  end.
(** certificate_header_field.rs:16-49 [CertificateHeaderField::from], [extract_header_field] *)
Definition header_field (f : bytes) : option (bytes * bytes) :=
  match until "=" (trim f) with
  | None => None
  | Some (name, i) =>
      let (value, i2) := take_while_not ":" (drop_opt ":" i) in
      match drop_opt ":" i2, name, value with
      | [], _ :: _, _ :: _ => Some (name, value)
      | _, _, _ => None
      end
  end.

(** str::parse::<u8>: an optional '+', then at least one decimal digit, at most 255 *)
Definition digit (b : byte) : option N := if (48 <=? b2n b) && (b2n b <=? 57) then Some (b2n b - 48) else None.
Fixpoint digits_u8 (s : bytes) (acc : N) : option N :=
  match s with
  | [] => Some acc
  | b :: r => match digit b with
              | None => None
              | Some d => if acc * 10 + d <=? 255 then digits_u8 r (acc * 10 + d) else None
              end
  end.
Definition parse_u8 (s : bytes) : option N :=
  let s' := drop_opt "+" s in
  match s' with [] => None | _ => digits_u8 s' 0 end.

Record header := mk_header { h_cert : certificate; h_tree : htree; h_version : N; h_expr_path : option (list bytes) }.

Section Header.
  Variables umod cap_max : N.
  (** certificate_header.rs:117-127 *)
  Definition decode_certificate (v : bytes) : out certificate := ok b <- of_opt (b64_dec v); cert_from_cbor umod cap_max b.
  Definition decode_tree (v : bytes) : out htree := ok b <- of_opt (b64_dec v); tree_from_cbor umod cap_max b.
  Definition decode_expr_path (v : bytes) : out (list bytes) := ok b <- of_opt (b64_dec v); strings_from_cbor umod cap_max b.
  Definition decode_version (v : bytes) : out N := of_opt (parse_u8 v).

  (** [slot = match slot { None => Some(decode(value)?), Some(x) => Some(x) }] *)
  Definition fill {A} (slot : option A) (decode : bytes -> out A) (v : bytes) : out (option A) :=
    match slot with Some x => OOk (Some x) | None => ok a <- decode v; OOk (Some a) end.
  Record slots := mk_slots { s_cert : option certificate; s_tree : option htree; s_version : option N; s_path : option (list bytes) }.
  (** certificate_header.rs:37-98, one field *)
  Definition add_field (s : slots) (f : bytes) : out slots :=
    match header_field f with
    | None => OOk s
    | Some (name, v) =>
        if bytes_eqb name (bs "certificate") then
          ok c <- fill (s_cert s) decode_certificate v; OOk (mk_slots c (s_tree s) (s_version s) (s_path s))
        else if bytes_eqb name (bs "tree") then
          ok t <- fill (s_tree s) decode_tree v; OOk (mk_slots (s_cert s) t (s_version s) (s_path s))
        else if bytes_eqb name (bs "version") then
          ok n <- fill (s_version s) decode_version v; OOk (mk_slots (s_cert s) (s_tree s) n (s_path s))
        else if bytes_eqb name (bs "expr_path") then
          ok p <- fill (s_path s) decode_expr_path v; OOk (mk_slots (s_cert s) (s_tree s) (s_version s) p)
        else OOk s
    end.
  Fixpoint add_fields (s : slots) (fs : list bytes) : out slots :=
    match fs with [] => OOk s | f :: r => ok s1 <- add_field s f; add_fields s1 r end.
  (** certificate_header.rs:30-114 [CertificateHeader::from]; MIN_VERIFICATION_VERSION = 1 (verification/mod.rs) *)
  Definition header_from (h : bytes) : out header :=
    ok s <- add_fields (mk_slots None None None None) (split_on "," h);
    match s_cert s, s_tree s with
    | Some c, Some t => OOk (mk_header c t (match s_version s with Some n => n | None => 1 end) (s_path s))
    | _, _ => OErr
    end.
End Header.

(** response_header.rs:73-102: the value [add_v2_certificate_header] puts into the
    IC-Certificate header *)
Definition v2_certificate_header (data_certificate : bytes) (witness : htree) (expr_path : list bytes) : bytes :=
  bs "certificate=:" ++ b64_enc true data_certificate ++
  bs ":, tree=:" ++ b64_enc true (self_describe ++ enc_tree witness) ++
  bs ":, expr_path=:" ++ b64_enc true (self_describe ++ enc_strings expr_path) ++ bs ":, version=2".

(** The example in the documentation of [add_v2_certificate_header] (response_header.rs:66). *)
Definition doc_tree : htree :=
  match b64_dec (bs "2dn3gwJJaHR0cF9leHBygwJMZXhhbXBsZS5qc29ugwJDPCQ+gwJYIFJ2k+R/YYbgGPADidRdRwDurH06HXACVHlTIVrv1q4WgwJYIPZhxTCrVVSCuQKpNIckLOog7Q9SpfZ/0AODejmxpJ7egwJYIM7zUx3VibIaHEUF14Kx813l3Xlilg43Y5uGaABAA/i9ggNA") with
  | Some b => match tree_from_cbor (2 ^ 64) (2 ^ 60) b with OOk t => t | _ => HEmpty end
  | None => HEmpty
  end.
Example v2_header_doc :
  v2_certificate_header [x01; x02; x03] doc_tree [bs "http_expr"; bs "example.json"; bs "<$>"] =
  bs "certificate=:AQID:, tree=:2dn3gwJJaHR0cF9leHBygwJMZXhhbXBsZS5qc29ugwJDPCQ+gwJYIFJ2k+R/YYbgGPADidRdRwDurH06HXACVHlTIVrv1q4WgwJYIPZhxTCrVVSCuQKpNIckLOog7Q9SpfZ/0AODejmxpJ7egwJYIM7zUx3VibIaHEUF14Kx813l3Xlilg43Y5uGaABAA/i9ggNA:, expr_path=:2dn3g2lodHRwX2V4cHJsZXhhbXBsZS5qc29uYzwkPg==:, version=2".
Proof. vm_compute. reflexivity. Qed.
