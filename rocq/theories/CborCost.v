(** The CBOR reader of Cbor.v and the header reader of Header.v with a counter: every
    call of [parser] (cbor_parser.rs:139-203) adds one.  The results are those of the
    plain model (Props_Cost.v), so the counts are the counts of that reader. *)
From Coq Require Import List Arith NArith Bool.
From Verif Require Import Bytes Text HashTree Utf8 Cbor CborGrammar Base64 Header.
Import ListNotations.
Local Open Scope N_scope.

(** a result and the number of calls made to obtain it *)
Definition counted (A : Type) := (N * out A)%type.
Definition free {A} (x : out A) : counted A := (0, x).
Definition and_then {A B} (x : counted A) (k : A -> counted B) : counted B :=
  match snd x with
  | OOk a => (fst x + fst (k a), snd (k a))
  | OErr => (fst x, OErr)
  | OPanic => (fst x, OPanic)
  | OFuel => (fst x, OFuel)
  end.
Definition one_more {A} (x : counted A) : counted A := (1 + fst x, snd x).

Section Counted.
  Variables umod cap_max : N.
  Section Loops.
    Variable p : bytes -> counted (cval * bytes).
    (** as [count_loop]: nom 7.1.3 [multi::count] *)
    Fixpoint c_count_loop (g : nat) (n : N) (i : bytes) : counted (list cval * bytes) :=
      if n =? 0 then free (OOk ([], i)) else
      match g with
      | O => free OFuel
      | S g' => and_then (p i) (fun x => and_then (c_count_loop g' (n - 1) (snd x)) (fun y => free (OOk (fst x :: fst y, snd y))))
      end.
    (** as [key_val]: cbor_parser.rs:123-137 [extract_key_val_pair] *)
    Definition c_key_val (i : bytes) : counted (bytes * cval * bytes) :=
      and_then (p i) (fun x =>
        match fst x with
        | CBytes s => if utf8_valid s then and_then (p (snd x)) (fun y => free (OOk (s, fst y, snd y))) else free OErr
        | _ => free OErr
        end).
    (** as [map_loop]: nom 7.1.3 [multi::fold_many_m_n] with minimum 0; what the failed
        entry cost is counted, although its error is dropped *)
    Fixpoint c_map_loop (g : nat) (n : N) (acc : list (bytes * cval)) (i : bytes) : counted (list (bytes * cval) * bytes) :=
      if n =? 0 then free (OOk (acc, i)) else
      match g with
      | O => free OFuel
      | S g' =>
          let e := c_key_val i in
          match snd e with
          | OOk (k, v, i1) =>
              if Nat.eqb (length i1) (length i) then (fst e, OErr)
              else let r := c_map_loop g' (n - 1) (map_set k v acc) i1 in (fst e + fst r, snd r)
          | OErr => (fst e, OOk (acc, i))
          | OPanic => (fst e, OPanic)
          | OFuel => (fst e, OFuel)
          end
      end.
  End Loops.
  (** as [parser]: cbor_parser.rs:139-203 *)
  Fixpoint c_parser (fuel : nat) (i : bytes) : counted (cval * bytes) :=
    match fuel with
    | O => free OFuel
    | S f =>
        one_more
        match i with
        | [] => free OErr
        | b :: _ =>
            match extract_cbor_value i with
            | None => free OErr
            | Some (u, i1) =>
                match cbor_type b with
                | 0 | 1 | 2 | 3 => free (parser umod cap_max 1 i)     (* no further call *)
                | 4 => and_then (c_count_loop (c_parser f) (S (length i1)) (to_usize umod u) i1) (fun x => free (OOk (CArray (fst x), snd x)))
                | 5 =>
                    if cap_max <? to_usize umod u then free OPanic
                    else and_then (c_map_loop (c_parser f) (S (length i1)) (to_usize umod u) [] i1) (fun x => free (OOk (CMap (fst x), snd x)))
                | _ => c_parser f i1
                end
            end
        end
    end.
  (** as [parse_cbor], [Certificate::from_cbor], [HashTree::from_cbor], [parse_cbor_string_array]
      (cbor_parser.rs:205-209, 241-266, cbor_parse_certificate.rs:8-14, cbor_parse_hash_tree.rs:11-17):
      converting the value makes no further call *)
  Definition c_parse_cbor (i : bytes) : counted cval :=
    and_then (c_parser (S (length i)) i) (fun x => free (match snd x with [] => OOk (fst x) | _ => OErr end)).
  Definition c_certificate (i : bytes) : counted certificate := and_then (c_parse_cbor i) (fun v => free (of_opt (to_certificate v))).
  Definition c_tree (i : bytes) : counted htree := and_then (c_parse_cbor i) (fun v => free (of_opt (to_tree v))).
  Definition c_strings (i : bytes) : counted (list bytes) :=
    and_then (c_parse_cbor i) (fun v => free (match v with CArray l => to_strings l | _ => OErr end)).

  (** as [fill], [add_field], [add_fields], [header_from]: certificate_header.rs:30-127 *)
  Definition c_fill {A} (slot : option A) (decode : bytes -> counted A) (v : bytes) : counted (option A) :=
    match slot with Some x => free (OOk (Some x)) | None => and_then (decode v) (fun a => free (OOk (Some a))) end.
  Definition c_decode {A} (read : bytes -> counted A) (v : bytes) : counted A := and_then (free (of_opt (b64_dec v))) read.
  Definition c_add_field (s : slots) (f : bytes) : counted slots :=
    match header_field f with
    | None => free (OOk s)
    | Some (name, v) =>
        if bytes_eqb name (bs "certificate") then
          and_then (c_fill (s_cert s) (c_decode c_certificate) v) (fun c => free (OOk (mk_slots c (s_tree s) (s_version s) (s_path s))))
        else if bytes_eqb name (bs "tree") then
          and_then (c_fill (s_tree s) (c_decode c_tree) v) (fun t => free (OOk (mk_slots (s_cert s) t (s_version s) (s_path s))))
        else if bytes_eqb name (bs "version") then
          and_then (c_fill (s_version s) (fun v => free (decode_version v)) v) (fun n => free (OOk (mk_slots (s_cert s) (s_tree s) n (s_path s))))
        else if bytes_eqb name (bs "expr_path") then
          and_then (c_fill (s_path s) (c_decode c_strings) v) (fun p => free (OOk (mk_slots (s_cert s) (s_tree s) (s_version s) p)))
        else free (OOk s)
    end.
  Fixpoint c_add_fields (s : slots) (fs : list bytes) : counted slots :=
    match fs with [] => free (OOk s) | f :: r => and_then (c_add_field s f) (fun s1 => c_add_fields s1 r) end.
  Definition c_header_from (h : bytes) : counted header :=
    and_then (c_add_fields (mk_slots None None None None) (split_on "," h)) (fun s => free
      match s_cert s, s_tree s with
      | Some c, Some t => OOk (mk_header c t (match s_version s with Some n => n | None => 1 end) (s_path s))
      | _, _ => OErr
      end).
End Counted.

(** [2n+1] bytes: an array of two whose first element is a map of one entry, and again; innermost an empty array *)
Fixpoint slow (n : nat) : bytes := match n with O => [x80] | S m => x82 :: xa1 :: slow m end.
Fixpoint slow_value (n : nat) : cval := match n with O => CArray [] | S m => CArray [CMap []; slow_value m] end.
(** a hash tree as [Serialize] writes it, but with one more element in the outermost array *)
Definition tree_parts (t : htree) : list bytes :=
  match t with
  | HEmpty => [enc_head 0 0]
  | HFork l r => [enc_head 0 1; enc_tree l; enc_tree r]
  | HLabeled k t => [enc_head 0 2; enc_bytes k; enc_tree t]
  | HLeaf v => [enc_head 0 3; enc_bytes v]
  | HPruned h => [enc_head 0 4; enc_bytes h]
  end.
Definition padded_tree (more : bytes) (t : htree) : bytes :=
  self_describe ++ enc_head 4 (N.of_nat (S (length (tree_parts t)))) ++ concat (tree_parts t ++ [more]).
Definition slow_tree (n : nat) (t : htree) : bytes := padded_tree (slow n) t.
(** [d+1] bytes: arrays of one element, [d] deep, and an empty array *)
Definition deep (d : nat) : bytes := repeat x81 d ++ [x80].
Fixpoint deep_value (d : nat) : cval := match d with O => CArray [] | S d' => CArray [deep_value d'] end.
(** the bytes of an input with major type 5 (map) *)
Definition map_bytes (i : bytes) : N := N.of_nat (length (filter (fun b => cbor_type b =? 5) i)).
(** the data items in a data item, itself included *)
Fixpoint item_count (i : item) : N :=
  match i with
  | INumber _ | INegative _ | IString _ _ _ => 1
  | IArray _ l => 1 + fold_right (fun i n => item_count i + n) 0 l
  | IMap _ l => 1 + fold_right (fun kv n => match kv with (k, v) => item_count k + item_count v + n end) 0 l
  | ITagged _ _ i => 1 + item_count i
  end.
