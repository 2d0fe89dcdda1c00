(** Model of /repo/packages/ic-http-certification/src/utils/wildcard_paths.rs. *)
From Coq Require Import List Arith NArith Lia Bool.
From Verif Require Import Bytes.
Import ListNotations.

(** wildcard_paths.rs:1-23, the constants *)
Definition path_prefix : bytes := bs "http_expr".
Definition dir_separator : bytes := [].
Definition exact_terminator : bytes := bs "<$>".
Definition wildcard_terminator : bytes := bs "<*>".

(** slice::first, slice::last, slice::starts_with, Vec::pop *)
Definition first_is (p : list bytes) (x : bytes) : bool := match p with a :: _ => bytes_eqb a x | [] => false end.
Fixpoint last_opt (p : list bytes) : option bytes :=
  match p with [] => None | [a] => Some a | _ :: r => last_opt r end.
Definition last_is (p : list bytes) (x : bytes) : bool :=
  match last_opt p with Some a => bytes_eqb a x | None => false end.
Fixpoint starts_with (r w : list bytes) : bool :=
  match w, r with
  | [], _ => true
  | a :: w', b :: r' => bytes_eqb a b && starts_with r' w'
  | _ :: _, [] => false
  end.

(** wildcard_paths.rs:26-43 [is_wildcard_path_valid_for_request_path] *)
Definition wildcard_valid (w r : list bytes) : bool :=
  if starts_with r w then true
  else if last_is w dir_separator then starts_with r (removelast w)
  else false.

(** wildcard_paths.rs:45-73 [strip_path_affixes] *)
Definition strip_path_affixes (p : list bytes) : list bytes :=
  let p1 := if first_is p path_prefix then tl p else p in
  let p2 := if last_is p1 exact_terminator || last_is p1 wildcard_terminator then removelast p1 else p1 in
  if (1 <? length p2) && first_is p2 dir_separator then tl p2 else p2.

Definition opt_bytes_eqb (a b : option bytes) : bool :=
  match a, b with Some x, Some y => bytes_eqb x y | None, None => true | _, _ => false end.

(** wildcard_paths.rs:103-118, the while loop; [None] when the fuel runs out,
    which never happens (Props_Wildcard.v, C34) *)
Fixpoint msw_loop (fuel : nat) (q w : list bytes) : option (list (list bytes)) :=
  if (length w <? length q) || negb (opt_bytes_eqb (last_opt q) (last_opt w)) then
    match fuel with
    | O => None
    | S f =>
        let q' := if last_is q dir_separator then removelast q else removelast q ++ [dir_separator] in
        option_map (cons (q ++ [wildcard_terminator])) (msw_loop f q' w)
    end
  else Some [].

(** wildcard_paths.rs:84-121 [more_specific_wildcards_for] *)
Definition more_specific_wildcards_for (requested responding : list bytes) : option (list (list bytes)) :=
  let q := strip_path_affixes requested in
  let w0 := strip_path_affixes responding in
  let w := if wildcard_valid w0 q then w0 else [] in
  msw_loop (2 * length q + 2) q w.

Example msw_ex1 : more_specific_wildcards_for [bs "http_expr"; bs "a"; bs "b"; bs "c"] [bs "http_expr"; bs "a"; []; bs "<*>"]
  = Some [[bs "a"; bs "b"; bs "c"; bs "<*>"]; [bs "a"; bs "b"; []; bs "<*>"]; [bs "a"; bs "b"; bs "<*>"]].
Proof. reflexivity. Qed.
