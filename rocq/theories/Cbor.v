(** Model of ic-cbor: the CBOR parser and the conversions to hash trees,
    certificates and lists; and of the CBOR encoding the library's [Serialize]
    implementations produce through [serde_cbor].
    Source: packages/ic-cbor/src. *)
From Coq Require Import List Arith NArith ZArith Lia Bool.
From Verif Require Import Bytes HashTree Utf8.
Import ListNotations.
Local Open Scope N_scope.

(** Result of a computation: a value, an error value, a Rust panic.  [OFuel] is
    an artefact of the model (recursion bound exhausted); it is proved not to
    occur. *)
Inductive out (A : Type) := OOk (a : A) | OErr | OPanic | OFuel.
Arguments OOk {A} a. Arguments OErr {A}. Arguments OPanic {A}. Arguments OFuel {A}.
Definition out_bind {A B} (x : out A) (f : A -> out B) : out B :=
  match x with OOk a => f a | OErr => OErr | OPanic => OPanic | OFuel => OFuel end.
Notation "'ok' p <- e ; b" := (out_bind e (fun p => b)) (at level 200, p pattern, e at level 100, b at level 200).
Definition of_opt {A} (o : option A) : out A := match o with Some a => OOk a | None => OErr end.

(** cbor_parser.rs:14-28 *)
Inductive cuint := U8 (n : N) | U16 (n : N) | U32 (n : N) | U64 (n : N).
Inductive csint := I8 (z : Z) | I16 (z : Z) | I32 (z : Z) | I64 (z : Z).
(** cbor_parser.rs:61-68 *)
Inductive ctag := TEmpty | TFork | TLabelled | TLeaf | TPruned.
(** cbor_parser.rs:70-78; the [HashMap] is an association list with one entry per key *)
Inductive cval :=
| CUnsigned (u : cuint)
| CSigned (s : csint)
| CBytes (b : bytes)
| CArray (l : list cval)
| CMap (m : list (bytes * cval))
| CTag (t : ctag).

Definition uval (u : cuint) : N := match u with U8 n | U16 n | U32 n | U64 n => n end.
Definition sval (s : csint) : Z := match s with I8 z | I16 z | I32 z | I64 z => z end.

Section Parser.
  (** [usize::MAX + 1]: 2^64, or 2^32 on wasm32 *)
  Variable umod : N.
  (** [HashMap::with_capacity n] panics ("capacity overflow") or aborts for [n] above this *)
  Variable cap_max : N.

  (** cbor_parser.rs:31-38 [to_usize] ([as usize] truncates) *)
  Definition to_usize (u : cuint) : N := uval u mod umod.

  (** [n as iW] *)
  Definition as_signed (w : N) (n : N) : Z :=
    if n <? 2 ^ (w - 1) then Z.of_N n else (Z.of_N n - 2 ^ Z.of_N w)%Z.
  (** cbor_parser.rs:45-52 [to_negative] *)
  Definition to_negative (u : cuint) : csint :=
    match u with
    | U8 n => I8 (-1 - as_signed 8 n)
    | U16 n => I16 (-1 - as_signed 16 n)
    | U32 n => I32 (-1 - as_signed 32 n)
    | U64 n => I64 (-1 - as_signed 64 n)
    end.

  Definition be_int (l : bytes) : N := fold_left (fun a b => a * 256 + b2n b) l 0.
  (** nom's [take]: fails when fewer bytes are left *)
  Definition take (n : N) (i : bytes) : option (bytes * bytes) :=
    if n <=? N.of_nat (length i) then Some (firstn (N.to_nat n) i, skipn (N.to_nat n) i) else None.

  (** cbor_parser.rs:87-108 *)
  Definition cbor_type (b : byte) : N := b2n b / 32.
  Definition cbor_info (b : byte) : N := b2n b mod 32.

  (** cbor_parser.rs:110-121 [extract_cbor_value] *)
  Definition extract_cbor_value (i : bytes) : option (cuint * bytes) :=
    match i with
    | [] => None
    | b :: i1 =>
        let info := cbor_info b in
        let get k (f : N -> cuint) :=
          match take k i1 with Some (d, i2) => Some (f (be_int d), i2) | None => None end in
        if info <=? 23 then Some (U8 info, i1)
        else if info =? 24 then get 1 U8
        else if info =? 25 then get 2 U16
        else if info =? 26 then get 4 U32
        else if info =? 27 then get 8 U64
        else None
    end.

  (** [HashMap::insert] *)
  Fixpoint map_set {A} (k : bytes) (v : A) (m : list (bytes * A)) : list (bytes * A) :=
    match m with
    | [] => [(k, v)]
    | (k', v') :: r => if bytes_eqb k k' then (k, v) :: r else (k', v') :: map_set k v r
    end.
  Fixpoint map_get {A} (k : bytes) (m : list (bytes * A)) : option A :=
    match m with
    | [] => None
    | (k', v') :: r => if bytes_eqb k k' then Some v' else map_get k r
    end.

  Section Loops.
    Variable p : bytes -> out (cval * bytes).
    (** nom 7.1.3 [multi::count] *)
    Fixpoint count_loop (g : nat) (n : N) (i : bytes) : out (list cval * bytes) :=
      if n =? 0 then OOk ([], i) else
      match g with
      | O => OFuel
      | S g' => ok (v, i1) <- p i; ok (vs, i2) <- count_loop g' (n - 1) i1; OOk (v :: vs, i2)
      end.
    (** cbor_parser.rs:123-137 [extract_key_val_pair] *)
    Definition key_val (i : bytes) : out (bytes * cval * bytes) :=
      ok (k, i1) <- p i;
      match k with
      | CBytes s => if utf8_valid s then ok (v, i2) <- p i1; OOk (s, v, i2) else OErr
      | _ => OErr
      end.
    (** nom 7.1.3 [multi::fold_many_m_n] with minimum 0: an error of the entry
        parser ends the loop successfully. *)
    Fixpoint map_loop (g : nat) (n : N) (acc : list (bytes * cval)) (i : bytes)
      : out (list (bytes * cval) * bytes) :=
      if n =? 0 then OOk (acc, i) else
      match g with
      | O => OFuel
      | S g' =>
          match key_val i with
          | OOk (k, v, i1) =>
              if Nat.eqb (length i1) (length i) then OErr
              else map_loop g' (n - 1) (map_set k v acc) i1
          | OErr => OOk (acc, i)
          | OPanic => OPanic
          | OFuel => OFuel
          end
      end.
  End Loops.

  (** cbor_parser.rs:139-203 [parser] *)
  Fixpoint parser (fuel : nat) (i : bytes) : out (cval * bytes) :=
    match fuel with
    | O => OFuel
    | S f =>
        match i with
        | [] => OErr
        | b :: _ =>
            match extract_cbor_value i with
            | None => OErr
            | Some (u, i1) =>
                match cbor_type b with
                | 0 =>
                    OOk (match u with
                         | U8 0 => CTag TEmpty
                         | U8 1 => CTag TFork
                         | U8 2 => CTag TLabelled
                         | U8 3 => CTag TLeaf
                         | U8 4 => CTag TPruned
                         | _ => CUnsigned u
                         end, i1)
                | 1 => OOk (CSigned (to_negative u), i1)
                | 2 | 3 => ok (d, i2) <- of_opt (take (to_usize u) i1); OOk (CBytes d, i2)
                | 4 => ok (l, i2) <- count_loop (parser f) (S (length i1)) (to_usize u) i1; OOk (CArray l, i2)
                | 5 =>
                    if cap_max <? to_usize u then OPanic
                    else ok (m, i2) <- map_loop (parser f) (S (length i1)) (to_usize u) [] i1; OOk (CMap m, i2)
                | _ => parser f i1
                end
            end
        end
    end.

  (** cbor_parser.rs:205-209 [parse_cbor] *)
  Definition parse_cbor (i : bytes) : out cval :=
    ok (v, rest) <- parser (S (length i)) i;
    match rest with [] => OOk v | _ => OErr end.

  (** cbor_parse_hash_tree.rs:18-86 [parsed_cbor_to_tree]; extra array elements are ignored *)
  Fixpoint to_tree (v : cval) : option htree :=
    match v with
    | CArray (CTag TEmpty :: _) => Some HEmpty
    | CArray (CTag TLeaf :: CBytes d :: _) => Some (HLeaf d)
    | CArray (CTag TPruned :: CBytes d :: _) => if Nat.eqb (length d) 32 then Some (HPruned d) else None
    | CArray (CTag TLabelled :: CBytes d :: c :: _) =>
        match to_tree c with Some t => Some (HLabeled d t) | None => None end
    | CArray (CTag TFork :: l :: r :: _) =>
        match to_tree l with
        | Some tl => match to_tree r with Some tr => Some (HFork tl tr) | None => None end
        | None => None
        end
    | _ => None
    end.
  (** cbor_parse_hash_tree.rs:11-17 *)
  Definition tree_from_cbor (i : bytes) : out htree := ok v <- parse_cbor i; of_opt (to_tree v).

  (** ic-certification/src/certificate.rs:4-38 *)
  Record delegation := mk_deleg { d_subnet : bytes; d_cert : bytes }.
  Record certificate := mk_cert { c_tree : htree; c_sig : bytes; c_deleg : option delegation }.

  (** cbor_parse_certificate.rs:16-68 [parsed_cbor_to_certificate] *)
  Definition to_certificate (v : cval) : option certificate :=
    match v with
    | CMap m =>
        match map_get (bs "tree") m with
        | None => None
        | Some tv =>
            match to_tree tv with
            | None => None
            | Some t =>
                match map_get (bs "signature") m with
                | Some (CBytes s) =>
                    match map_get (bs "delegation") m with
                    | Some (CMap dm) =>
                        match map_get (bs "subnet_id") dm, map_get (bs "certificate") dm with
                        | Some (CBytes a), Some (CBytes c) => Some (mk_cert t s (Some (mk_deleg a c)))
                        | _, _ => None
                        end
                    | _ => Some (mk_cert t s None)
                    end
                | _ => None
                end
            end
        end
    | _ => None
    end.
  (** cbor_parse_certificate.rs:8-14 *)
  Definition cert_from_cbor (i : bytes) : out certificate := ok v <- parse_cbor i; of_opt (to_certificate v).

  (** cbor_parser.rs:211-239 [parse_cbor_principals_array]; [Principal::from_slice]
      panics above 29 bytes *)
  Fixpoint to_ranges (l : list cval) : out (list (bytes * bytes)) :=
    match l with
    | [] => OOk []
    | CArray (CBytes a :: CBytes b :: _) :: r =>
        if Nat.leb (length a) 29 && Nat.leb (length b) 29
        then ok rs <- to_ranges r; OOk ((a, b) :: rs) else OPanic
    | _ :: _ => OErr
    end.
  Definition principals_from_cbor (i : bytes) : out (list (bytes * bytes)) :=
    ok v <- parse_cbor i; match v with CArray l => to_ranges l | _ => OErr end.

  (** cbor_parser.rs:241-266 [parse_cbor_string_array] *)
  Fixpoint to_strings (l : list cval) : out (list bytes) :=
    match l with
    | [] => OOk []
    | CBytes s :: r => if utf8_valid s then ok ss <- to_strings r; OOk (s :: ss) else OErr
    | _ :: _ => OErr
    end.
  Definition strings_from_cbor (i : bytes) : out (list bytes) :=
    ok v <- parse_cbor i; match v with CArray l => to_strings l | _ => OErr end.
End Parser.

(** ** The encoding produced by [Serialize] through [serde_cbor] 0.11.
    [serde_cbor] writes the shortest header (write_u64 and friends). *)
Fixpoint be_enc (k : nat) (n : N) : bytes :=
  match k with O => [] | S k' => be_enc k' (n / 256) ++ [n2b n] end.
Definition enc_head (major n : N) : bytes :=
  if n <=? 23 then [n2b (32 * major + n)]
  else if n <=? 255 then n2b (32 * major + 24) :: be_enc 1 n
  else if n <=? 65535 then n2b (32 * major + 25) :: be_enc 2 n
  else if n <=? 4294967295 then n2b (32 * major + 26) :: be_enc 4 n
  else n2b (32 * major + 27) :: be_enc 8 n.
Definition enc_bytes (b : bytes) : bytes := enc_head 2 (N.of_nat (length b)) ++ b.
Definition enc_text (b : bytes) : bytes := enc_head 3 (N.of_nat (length b)) ++ b.

(** ic-certification/src/hash_tree/mod.rs:582-623 [Serialize for HashTreeNode] *)
Fixpoint enc_tree (t : htree) : bytes :=
  match t with
  | HEmpty => enc_head 4 1 ++ enc_head 0 0
  | HFork l r => enc_head 4 3 ++ enc_head 0 1 ++ enc_tree l ++ enc_tree r
  | HLabeled k t => enc_head 4 3 ++ enc_head 0 2 ++ enc_bytes k ++ enc_tree t
  | HLeaf v => enc_head 4 2 ++ enc_head 0 3 ++ enc_bytes v
  | HPruned h => enc_head 4 2 ++ enc_head 0 4 ++ enc_bytes h
  end.

(** certificate.rs:4-38: derived [Serialize] (struct = map with text keys in
    field order; [delegation] skipped when [None]) *)
Definition enc_cert (c : certificate) : bytes :=
  enc_head 5 (match c_deleg c with None => 2 | Some _ => 3 end) ++
  enc_text (bs "tree") ++ enc_tree (c_tree c) ++
  enc_text (bs "signature") ++ enc_bytes (c_sig c) ++
  match c_deleg c with
  | None => []
  | Some d => enc_text (bs "delegation") ++ enc_head 5 2 ++
      enc_text (bs "subnet_id") ++ enc_bytes (d_subnet d) ++
      enc_text (bs "certificate") ++ enc_bytes (d_cert d)
  end.

(** [serde_cbor::Serializer::self_describe] *)
Definition self_describe : bytes := [xd9; xd9; xf7].

(** A list of strings, as [serde_cbor] encodes [Vec<String>] *)
Definition enc_strings (l : list bytes) : bytes :=
  enc_head 4 (N.of_nat (length l)) ++ flat_map enc_text l.
