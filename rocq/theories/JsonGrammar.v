(** Specification: JSON texts without insignificant white space, and the values they denote (RFC 8259, sections 2-7),
    as far as the json-api example needs them: no fractions, exponents and negative numbers, and \u escapes of ASCII
    characters only.  Texts and strings are UTF-8, the characters above ASCII standing for themselves. *)
From Coq Require Import List NArith.
From Verif Require Import Bytes HeaderSpec VerifySpec.
Import ListNotations.
Local Open Scope N_scope.
Inductive value := VNull | VBool (b : bool) | VNumber (n : N) | VString (s : bytes) | VArray (l : list value) | VObject (l : list (bytes * value)).
(** section 7: a character of a string, and what it stands for *)
Inductive character : bytes -> byte -> Prop :=
| Unescaped b : 32 <= b2n b -> b <> """"%byte -> b <> "\"%byte -> character [b] b
| Escaped k b : In (k, b) [(""""%byte, x22); ("\"%byte, x5c); ("/"%byte, x2f); ("b"%byte, x08); ("f"%byte, x0c); ("n"%byte, x0a); ("r"%byte, x0d); ("t"%byte, x09)] -> character ["\"%byte; k] b
| Numbered h l i j : hex_digit h i -> hex_digit l j -> i * 16 + j < 128 -> character (bs "\u00" ++ [h; l]) (n2b (i * 16 + j)).
Inductive characters : bytes -> bytes -> Prop :=
| CNil : characters [] []
| CCons t b r s : character t b -> characters r s -> characters (t ++ r) (b :: s).
Definition json_str (t s : bytes) : Prop := exists r, t = bs """" ++ r ++ bs """" /\ characters r s.
(** section 6: a number without leading zero *)
Definition json_num (t : bytes) (n : N) : Prop := decimal t n /\ (t = bs "0" \/ exists d r, t = d :: r /\ d <> "0"%byte).
Inductive denotes : bytes -> value -> Prop :=
| DNull : denotes (bs "null") VNull
| DTrue : denotes (bs "true") (VBool true)
| DFalse : denotes (bs "false") (VBool false)
| DNumber t n : json_num t n -> denotes t (VNumber n)
| DString t s : json_str t s -> denotes t (VString s)
| DArray t l : elements t l -> denotes (bs "[" ++ t) (VArray l)
| DObject t l : members t l -> denotes (bs "{" ++ t) (VObject l)
(** the rest of an array, after the bracket *)
with elements : bytes -> list value -> Prop :=
| ENone : elements (bs "]") []
| ESome t v r l : denotes t v -> more_elements r l -> elements (t ++ r) (v :: l)
with more_elements : bytes -> list value -> Prop :=
| EEnd : more_elements (bs "]") []
| EMore t v r l : denotes t v -> more_elements r l -> more_elements (bs "," ++ t ++ r) (v :: l)
with members : bytes -> list (bytes * value) -> Prop :=
| MNone : members (bs "}") []
| MSome k n t v r l : json_str k n -> denotes t v -> more_members r l -> members (k ++ bs ":" ++ t ++ r) ((n, v) :: l)
with more_members : bytes -> list (bytes * value) -> Prop :=
| MEnd : more_members (bs "}") []
| MMore k n t v r l : json_str k n -> denotes t v -> more_members r l -> more_members (bs "," ++ k ++ bs ":" ++ t ++ r) ((n, v) :: l).
