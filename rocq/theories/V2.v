(** Model of /repo/packages/ic-response-verification/src/validation/v2_validation.rs. *)
From Coq Require Import List Arith NArith Lia Bool.
From Verif Require Import Bytes Text HashTree HttpTypes Wildcard.
Import ListNotations.

(** v2_validation.rs:19-25 [path_might_exist_in_tree], [path_exists_in_tree] *)
Definition path_might_exist (p : list bytes) (t : htree) : bool :=
  match lookup_subtree p t with SAbsent => false | _ => true end.
Definition path_exists (p : list bytes) (t : htree) : bool :=
  match lookup_subtree p t with SFound _ => true | _ => false end.

(** str::ends_with('/') *)
Definition ends_with_slash (s : bytes) : bool :=
  match rev s with b :: _ => byte_eqb b "/" | [] => false end.
Definition is_nil (s : bytes) : bool := match s with [] => true | _ => false end.
(** v2_validation.rs:53-61: the request path's segments *)
Definition request_parts (path : bytes) : list bytes :=
  filter (fun s => negb (is_nil s)) (split_on "/" path) ++ (if ends_with_slash path then [[]] else []).

(** [==] on paths *)
Fixpoint path_eqb (p q : list bytes) : bool :=
  match p, q with
  | [], [] => true
  | a :: p', b :: q' => bytes_eqb a b && path_eqb p' q'
  | _, _ => false
  end.
Lemma path_eqb_spec p q : reflect (p = q) (path_eqb p q).
Proof.
  revert q. induction p as [|a p IH]; intros [|b q]; simpl; try (constructor; congruence).
  destruct (bytes_eqb_spec a b) as [->|N]; simpl; [|constructor; congruence].
  destruct (IH q) as [->|N]; constructor; congruence.
Qed.

(** v2_validation.rs:36-155 [validate_expr_path]; [false] is any of its errors.
    The [None] of the fuelled loop is unreachable (C34). *)
Definition validate_expr_path (e : list bytes) (path : bytes) (t : htree) : bool :=
  if negb (first_is e path_prefix) then false
  else if negb (last_is e exact_terminator || last_is e wildcard_terminator) then false
  else
    let parts := path_prefix :: request_parts path in
    let exact := parts ++ [exact_terminator] in
    if path_eqb e exact then path_exists e t
    else if last_is e exact_terminator then false
    else if path_might_exist exact t then false
    else if negb (wildcard_valid (removelast e) parts) then false
    else
      match more_specific_wildcards_for parts e with
      | None => false
      | Some l => forallb (fun w => negb (path_might_exist (path_prefix :: w) t)) l && path_exists e t
      end.

(** v2_validation.rs:157-170 [validate_expr_hash] *)
Definition validate_expr_hash (e : list bytes) (expr_hash : bytes) (t : htree) : option htree :=
  match lookup_subtree (e ++ [expr_hash]) t with SFound s => Some s | _ => None end.

(** v2_validation.rs:172-203 [validate_hashes] *)
Definition validate_hashes (expr_hash : bytes) (request_hash : option bytes) (response_hash : bytes)
    (e : list bytes) (t : htree) (c : cel) : bool :=
  match validate_expr_hash e expr_hash t with
  | None => false
  | Some s =>
      let k := match c, request_hash with CelFull _ _, Some h => h | _, _ => [] end in
      match lookup_subtree [k; response_hash] s with
      | SFound (HLeaf []) => true
      | _ => false
      end
  end.
