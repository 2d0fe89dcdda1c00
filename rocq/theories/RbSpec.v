(** Specification of [RbTree]: a finite map given by its history, and the
    left-leaning red-black balance conditions. *)
From Coq Require Import List NArith Bool.
From Verif Require Import Bytes RbTree.
Import ListNotations.

Section Spec.
  Variable V : Type.
  (** The effect of one operation on a map from keys to values. *)
  Definition map_step (m : bytes -> option V) (o : op V) : bytes -> option V :=
    match o with
    | OpInsert _ k v => fun x => if bytes_eqb x k then Some v else m x
    | OpDelete _ k => fun x => if bytes_eqb x k then None else m x
    | OpModify _ k f => fun x => if bytes_eqb x k then option_map f (m x) else m x
    end.
  (** The map after a history, starting empty. *)
  Definition map_after (ops : list (op V)) : bytes -> option V :=
    fold_left map_step ops (fun _ => None).

  (** No red node has a red child. *)
  Fixpoint no_red_red (t : rb V) : Prop :=
    match t with
    | E => True
    | T c l _ _ r _ =>
        (c = Red -> is_red V l = false /\ is_red V r = false) /\ no_red_red l /\ no_red_red r
    end.
  (** Red children lean left. *)
  Fixpoint left_leaning (t : rb V) : Prop :=
    match t with
    | E => True
    | T _ l _ _ r _ => is_red V r = false /\ left_leaning l /\ left_leaning r
    end.
  (** Every path to a missing child passes [n] black nodes. *)
  Fixpoint black_height (n : nat) (t : rb V) : Prop :=
    match t with
    | E => n = 0
    | T Red l _ _ r _ => black_height n l /\ black_height n r
    | T Black l _ _ r _ => exists m, n = S m /\ black_height m l /\ black_height m r
    end.
End Spec.
