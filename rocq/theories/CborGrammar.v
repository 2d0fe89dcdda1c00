(** Specification for C117: the data items of RFC 8949 (definite lengths) as syntax
    trees with the header each of them is written with, their bytes and their values. *)
From Coq Require Import List NArith Bool.
From Verif Require Import Bytes Utf8 Cbor CborSpec.
Import ListNotations.
Local Open Scope N_scope.

Inductive item :=
| INumber (a : rfc_arg)                              (* major type 0 *)
| INegative (a : rfc_arg)                            (* 1 *)
| IString (text : bool) (a : rfc_arg) (s : bytes)    (* 2, 3 *)
| IArray (a : rfc_arg) (l : list item)               (* 4 *)
| IMap (a : rfc_arg) (l : list (item * item))        (* 5 *)
| ITagged (simple : bool) (a : rfc_arg) (i : item).  (* 6; and 7 (floats, simple values), which the parser takes for a tag *)

(** the bytes of an item *)
Fixpoint item_bytes (i : item) : bytes :=
  match i with
  | INumber a => rfc_head 0 a
  | INegative a => rfc_head 1 a
  | IString text a s => rfc_head (if text then 3 else 2) a ++ s
  | IArray a l => rfc_head 4 a ++ flat_map item_bytes l
  | IMap a l => rfc_head 5 a ++ flat_map (fun kv => match kv with (k, v) => item_bytes k ++ item_bytes v end) l
  | ITagged simple a i => rfc_head (if simple then 7 else 6) a ++ item_bytes i
  end.

(** the integer an argument is stored in *)
Definition stored (a : rfc_arg) : cuint :=
  match a with Imm n | Arg1 n => U8 n | Arg2 n => U16 n | Arg4 n => U32 n | Arg8 n => U64 n end.
(** the numbers 0 to 4 in their short forms are the tags of hash trees *)
Definition number_value (a : rfc_arg) : cval :=
  match a with
  | Imm 0 | Arg1 0 => CTag TEmpty
  | Imm 1 | Arg1 1 => CTag TFork
  | Imm 2 | Arg1 2 => CTag TLabelled
  | Imm 3 | Arg1 3 => CTag TLeaf
  | Imm 4 | Arg1 4 => CTag TPruned
  | _ => CUnsigned (stored a)
  end.
(** the value of an item (C23 says which number [to_negative] is); of entries with the
    same key the last one counts *)
Fixpoint item_value (i : item) : cval :=
  match i with
  | INumber a => number_value a
  | INegative a => CSigned (to_negative (stored a))
  | IString _ _ s => CBytes s
  | IArray _ l => CArray (map item_value l)
  | IMap _ l => CMap (fold_left (fun m kv => match kv with (k, v) =>
                  match item_value k with CBytes s => map_set s (item_value v) m | _ => m end end) l [])
  | ITagged _ _ i => item_value i
  end.

(** Well-formed: lengths are those announced, reduced to a usize; keys are UTF-8 strings;
    maps are not larger than memory.  With [short_maps], a map may have fewer entries than announced. *)
Fixpoint well_formed (umod cap_max : N) (short_maps : bool) (i : item) : Prop :=
  match i with
  | INumber a | INegative a => arg_valid a
  | IString _ a s => arg_valid a /\ N.of_nat (length s) = arg_value a mod umod
  | IArray a l => arg_valid a /\ N.of_nat (length l) = arg_value a mod umod /\
      fold_right (fun i P => well_formed umod cap_max short_maps i /\ P) True l
  | IMap a l => arg_valid a /\ arg_value a mod umod <= cap_max /\
      (N.of_nat (length l) = arg_value a mod umod \/ short_maps = true /\ N.of_nat (length l) < arg_value a mod umod) /\
      fold_right (fun kv P => match kv with (k, v) =>
        (well_formed umod cap_max short_maps k /\ well_formed umod cap_max short_maps v /\ exists s, item_value k = CBytes s /\ utf8_valid s = true) /\ P end) True l
  | ITagged _ a i => arg_valid a /\ well_formed umod cap_max short_maps i
  end.

(** no map anywhere in an item; in a parsed value *)
Fixpoint map_free (i : item) : Prop :=
  match i with
  | INumber _ | INegative _ | IString _ _ _ => True
  | IArray _ l => fold_right (fun i P => map_free i /\ P) True l
  | IMap _ _ => False
  | ITagged _ _ i => map_free i
  end.
Fixpoint map_free_value (v : cval) : Prop :=
  match v with
  | CArray l => fold_right (fun v P => map_free_value v /\ P) True l
  | CMap _ => False
  | _ => True
  end.
