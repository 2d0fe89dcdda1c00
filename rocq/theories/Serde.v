(** Model of the [serde] implementations of ic-certification:
    hash_tree/mod.rs:544-776, certificate.rs:40-262, lib.rs:69-113.

    Values are described at the level of serde's data model, which is what the
    code of this repository sees: the data format (serde_cbor, serde_json, ...)
    is outside the repository.  A format that reads from a byte slice hands out
    bytes and strings that borrow from its input ([borrowed = true]); one that
    reads from a stream hands out copies. *)
From Coq Require Import List NArith Bool.
From Verif Require Import Bytes HashTree Cbor Text.
Import ListNotations.
Local Open Scope N_scope.

Inductive dval :=
| SUint (n : N)
| SBytes (borrowed : bool) (b : bytes)
| SStr (borrowed : bool) (s : bytes)
| SSeq (l : list dval)
| SMap (m : list (dval * dval))
| SOther.

(** lib.rs:79-112 [VecStorage], [SliceStorage], [CowStorage] *)
Inductive storage := VecStorage | SliceStorage | CowStorage.

(** a [u8] element *)
Definition de_u8 (v : dval) : option byte :=
  match v with SUint n => if n <? 256 then Some (n2b n) else None | _ => None end.
Fixpoint de_u8s (l : list dval) : option bytes :=
  match l with
  | [] => Some []
  | v :: r => match de_u8 v, de_u8s r with Some b, Some bs => Some (b :: bs) | _, _ => None end
  end.
(** [serde_bytes::ByteBuf]: bytes, a string, or a sequence of numbers *)
Definition de_bytebuf (v : dval) : option bytes :=
  match v with
  | SBytes _ b => Some b
  | SStr _ s => Some s
  | SSeq l => de_u8s l
  | _ => None
  end.
(** [&serde_bytes::Bytes]: borrowed bytes or a borrowed string *)
Definition de_bytes_ref (v : dval) : option bytes :=
  match v with SBytes true b | SStr true b => Some b | _ => None end.
(** lib.rs:79-112 [Storage::Temp], [Storage::convert] *)
Definition de_storage (st : storage) (v : dval) : option bytes :=
  match st with VecStorage => de_bytebuf v | SliceStorage => de_bytes_ref v | CowStorage => de_bytes_ref v end.

(** hash_tree/mod.rs:642-721 [visit_seq].  A number that is not a [u8] is an
    error, like an unknown tag. *)
Fixpoint de_tree (st : storage) (v : dval) : option htree :=
  match v with
  | SSeq (SUint tag :: rest) =>
      match tag with
      | 0 => match rest with [] => Some HEmpty | _ => None end
      | 1 => match rest with
             | [l; r] => match de_tree st l, de_tree st r with Some l', Some r' => Some (HFork l' r') | _, _ => None end
             | _ => None
             end
      | 2 => match rest with
             | [k; c] => match de_storage st k, de_tree st c with Some k', Some c' => Some (HLabeled k' c') | _, _ => None end
             | _ => None
             end
      | 3 => match rest with [b] => option_map HLeaf (de_storage st b) | _ => None end
      | 4 => match rest with
             | [b] => match de_bytes_ref b with
                      | Some d => if Nat.eqb (length d) 32 then Some (HPruned d) else None
                      | None => None
                      end
             | _ => None
             end
      | _ => None
      end
  | _ => None
  end.

(** hash_tree/mod.rs:581-624 [serialize] *)
Fixpoint ser_tree (t : htree) : dval :=
  match t with
  | HEmpty => SSeq [SUint 0]
  | HFork l r => SSeq [SUint 1; ser_tree l; ser_tree r]
  | HLabeled k c => SSeq [SUint 2; SBytes true k; ser_tree c]
  | HLeaf b => SSeq [SUint 3; SBytes true b]
  | HPruned h => SSeq [SUint 4; SBytes true h]
  end.

(** hash_tree/mod.rs:41-48 [write_hex], 558-568 [Serialize for Label]; 569-579 [Deserialize] *)
Definition hex_digit (n : N) : byte := n2b (if n <? 10 then 48 + n else 55 + n).
Definition label_hex (k : bytes) : bytes := flat_map (fun b => [hex_digit (b2n b / 16); hex_digit (b2n b mod 16)]) k.
Definition ser_label (human_readable : bool) (k : bytes) : dval :=
  if human_readable then SStr true (label_hex k) else SBytes true k.
Definition de_label (st : storage) (v : dval) : option bytes :=
  match st with
  | VecStorage => de_bytebuf v
  | SliceStorage => de_bytes_ref v
  | CowStorage => de_bytebuf v
  end.

(** derived field identifiers ([rename_all = "snake_case"]): a name, as string or
    bytes, or an index *)
Definition field (names : list bytes) (key : dval) : option nat :=
  let fix find (i : nat) (s : bytes) (l : list bytes) : option nat :=
    match l with [] => None | n :: r => if bytes_eqb s n then Some i else find (S i) s r end in
  match key with
  | SUint n => if n <? N.of_nat (length names) then Some (N.to_nat n) else None
  | SStr _ s | SBytes _ s => find 0%nat s names
  | _ => None
  end.
(** certificate.rs:152-157 [DelegationField], 52-58 [CertificateField] *)
Definition delegation_field := field [bs "subnet_id"; bs "certificate"].
Definition certificate_field := field [bs "tree"; bs "signature"; bs "delegation"].

(** certificate.rs:186-217 [DelegationVisitor::visit_map] *)
Fixpoint delegation_loop (st : storage) (m : list (dval * dval)) (subnet cert : option bytes) : option delegation :=
  match m with
  | [] => match subnet, cert with Some s, Some c => Some (mk_deleg s c) | _, _ => None end
  | (k, v) :: r =>
      match delegation_field k with
      | Some 0%nat => match subnet, de_storage st v with None, Some s => delegation_loop st r (Some s) cert | _, _ => None end
      | Some 1%nat => match cert, de_storage st v with None, Some c => delegation_loop st r subnet (Some c) | _, _ => None end
      | _ => None
      end
  end.
(** certificate.rs:168-184 [visit_seq].  Elements left over are rejected by the
    formats (serde_cbor, serde_json), not by this code. *)
Definition de_delegation (st : storage) (v : dval) : option delegation :=
  match v with
  | SSeq [s; c] => match de_storage st s, de_storage st c with Some s', Some c' => Some (mk_deleg s' c') | _, _ => None end
  | SMap m => delegation_loop st m None None
  | _ => None
  end.

(** certificate.rs:92-128 [CertificateVisitor::visit_map] *)
Fixpoint certificate_loop (st : storage) (m : list (dval * dval))
    (tree : option htree) (sig : option bytes) (deleg : option delegation) : option certificate :=
  match m with
  | [] => match tree, sig with Some t, Some s => Some (mk_cert t s deleg) | _, _ => None end
  | (k, v) :: r =>
      match certificate_field k with
      | Some 0%nat => match tree, de_tree st v with None, Some t => certificate_loop st r (Some t) sig deleg | _, _ => None end
      | Some 1%nat => match sig, de_storage st v with None, Some s => certificate_loop st r tree (Some s) deleg | _, _ => None end
      | Some 2%nat => match deleg, de_delegation st v with None, Some d => certificate_loop st r tree sig (Some d) | _, _ => None end
      | _ => None
      end
  end.
(** certificate.rs:71-90 [visit_seq] *)
Definition de_certificate (st : storage) (v : dval) : option certificate :=
  match v with
  | SSeq (t :: s :: r) =>
      match de_tree st t, de_storage st s with
      | Some t', Some s' =>
          match r with
          | [] => Some (mk_cert t' s' None)
          | [d] => match de_delegation st d with Some d' => Some (mk_cert t' s' (Some d')) | None => None end
          | _ => None
          end
      | _, _ => None
      end
  | SMap m => certificate_loop st m None None None
  | _ => None
  end.

(** certificate.rs:4-38: the derived [Serialize] *)
Definition ser_delegation (d : delegation) : dval :=
  SMap [(SStr true (bs "subnet_id"), SBytes true (d_subnet d)); (SStr true (bs "certificate"), SBytes true (d_cert d))].
Definition ser_certificate (c : certificate) : dval :=
  SMap ([(SStr true (bs "tree"), ser_tree (c_tree c)); (SStr true (bs "signature"), SBytes true (c_sig c))] ++
        match c_deleg c with None => [] | Some d => [(SStr true (bs "delegation"), ser_delegation d)] end).
