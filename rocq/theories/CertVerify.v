(** Model of /repo/packages/ic-certificate-verification/src/certificate_verification.rs. *)
From Coq Require Import List Arith NArith Lia Bool.
From Verif Require Import Bytes HashTree Cbor Leb128.
Import ListNotations.
Local Open Scope N_scope.

(** certificate_verification.rs:9-11 *)
Definition ic_state_root_separator : bytes := x0d :: bs "ic-state-root".
Definition der_prefix : bytes :=
  [x30;x81;x82;x30;x1d;x06;x0d;x2b;x06;x01;x04;x01;x82;xdc;x7c;x05;x03;x01;x02;x01;x06;x0c;x2b;x06;x01;x04;x01;x82;xdc;x7c;x05;x03;x02;x01;x03;x61;x00].
Definition key_length : nat := 96.

(** u128 [+] and [-]: a panic when overflow checks are compiled in ([checked]),
    wrap-around otherwise. *)
Definition u128 : N := 2 ^ 128.
Definition add128 (checked : bool) (a b : N) : out N :=
  if a + b <? u128 then OOk (a + b) else if checked then OPanic else OOk (a + b - u128).
Definition sub128 (checked : bool) (a b : N) : out N :=
  if b <=? a then OOk (a - b) else if checked then OPanic else OOk (a + u128 - b).

(** certificate_verification.rs:13-32 [extract_der] *)
Definition extract_der (buf : bytes) : out bytes :=
  if negb (Nat.eqb (length buf) (length der_prefix + key_length)) then OErr
  else if negb (bytes_eqb (firstn (length der_prefix) buf) der_prefix) then OErr
  else OOk (skipn (length der_prefix) buf).

Section Verify.
  (** [umod], [cap_max]: see Cbor.v.  [checked]: overflow checks compiled in.
      [H]: SHA-256.  [ple]: [<=] of candid::Principal.  [vs pk sig msg]: the
      verdict of signature_verification/mod.rs [verify_signature] (SigCache.v). *)
  Variables (umod cap_max : N) (checked : bool) (H : bytes -> bytes)
            (ple : bytes -> bytes -> bool) (vs : bytes -> bytes -> bytes -> bool).

  (** certificate_verification.rs:34-38 [principal_is_within_ranges] *)
  Definition within_ranges (p : bytes) (ranges : list (bytes * bytes)) : bool :=
    existsb (fun r => ple (fst r) p && ple p (snd r)) ranges.

  (** certificate_verification.rs:157-171 [verify_certificate_signature] *)
  Definition verify_certificate_signature (c : certificate) (der_key : bytes) : out unit :=
    let msg := ic_state_root_separator ++ digest H (c_tree c) in
    ok pk <- extract_der der_key;
    if vs pk (c_sig c) msg then OOk tt else OErr.

  (** certificate_verification.rs:69-118 [verify_delegation]; [Principal::from_slice]
      panics above 29 bytes *)
  Definition verify_delegation (d : delegation) (canister_id root_key : bytes) : out bytes :=
    ok cert <- cert_from_cbor umod cap_max (d_cert d);
    match c_deleg cert with
    | Some _ => OErr
    | None =>
        ok _ <- verify_certificate_signature cert root_key;
        match lookup_path [bs "subnet"; d_subnet d; bs "canister_ranges"] (c_tree cert) with
        | Found r =>
            if Nat.ltb 29 (length canister_id) then OPanic
            else
              ok ranges <- principals_from_cbor umod cap_max r;
              if negb (within_ranges canister_id ranges) then OErr
              else
                match lookup_path [bs "subnet"; d_subnet d; bs "public_key"] (c_tree cert) with
                | Found k => OOk k
                | _ => OErr
                end
        | _ => OErr
        end
    end.

  (** certificate_verification.rs:120-155 [verify_certificate_time] *)
  Definition verify_certificate_time (c : certificate) (now offset : N) : out unit :=
    match lookup_path [bs "time"] (c_tree c) with
    | Found enc =>
        match leb_read enc with
        | None => OErr
        | Some (t, _) =>
            ok mx <- add128 checked now offset;
            ok mn <- sub128 checked now offset;
            if mx <? t then OErr else if t <? mn then OErr else OOk tt
        end
    | _ => OErr
    end.

  (** certificate_verification.rs:50-67 [verify] *)
  Definition verify_certificate (c : certificate) (canister_id root_key : bytes) (now offset : N) : out unit :=
    ok _ <- verify_certificate_time c now offset;
    ok der_key <- match c_deleg c with
                  | Some d => verify_delegation d canister_id root_key
                  | None => OOk root_key
                  end;
    verify_certificate_signature c der_key.
End Verify.
