(** Model of the texts of labels and of pruned nodes given in hexadecimal:
    /repo/packages/ic-certification/src/hash_tree/mod.rs:41-48, 109-133, 281-291.
    [write_hex] is [label_hex] of Serde.v.  hex 0.4's [decode_to_slice]: the length must be twice that of
    the buffer, digits may have either case. *)
From Coq Require Import List NArith Bool.
From Verif Require Import Bytes Utf8 HashTree Serde.
Import ListNotations.
Local Open Scope N_scope.

(** [char::is_ascii_graphic]; a text whose characters all are is ASCII, one byte each *)
Definition ascii_graphic (c : byte) : bool := (33 <=? b2n c) && (b2n c <=? 126).
(** mod.rs:129-133 [Debug for Label] *)
Definition label_debug (k : bytes) : bytes := label_hex k.
(** mod.rs:109-127 [Display for Label] *)
Definition label_display (k : bytes) : bytes :=
  if utf8_valid k && forallb ascii_graphic k then [x22] ++ k ++ [x22] else bs "0x" ++ label_debug k.

(** hex-0.4 lib.rs [val] *)
Definition hex_val (c : byte) : option N :=
  let n := b2n c in
  if (65 <=? n) && (n <=? 70) then Some (n - 65 + 10)
  else if (97 <=? n) && (n <=? 102) then Some (n - 97 + 10)
  else if (48 <=? n) && (n <=? 57) then Some (n - 48) else None.
Fixpoint hex_pairs (s : bytes) : option bytes :=
  match s with
  | [] => Some []
  | a :: b :: r =>
      match hex_val a, hex_val b, hex_pairs r with
      | Some x, Some y, Some t => Some (n2b (N.lor (N.shiftl x 4) y) :: t)
      | _, _, _ => None
      end
  | _ => None
  end.
(** mod.rs:281-291 [pruned_from_hex] *)
Definition pruned_from_hex (content : bytes) : option htree :=
  if negb (N.even (N.of_nat (length content))) then None
  else if negb (N.of_nat (length content) / 2 =? 32) then None
  else match hex_pairs content with Some h => Some (HPruned h) | None => None end.
