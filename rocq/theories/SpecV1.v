(** Specification of the rule ids of dynamix 1, by the history of calls. *)
From Coq Require Import List Arith.
From Verif Require Import Base Info Domain V1Rules.
Import ListNotations.

(** Which rule is present under which id: the one added last under it, unless the id was removed since. *)
Definition under_step (cur : nat -> option rptr) (c : vop * res vret) : nat -> option rptr :=
  match c with
  | (VAdd (Some r), Ok (RId id)) => fun x => if x =? id then Some r else cur x
  | (VRemove id, Ok _) => fun x => if x =? id then None else cur x
  | _ => cur
  end.
Definition under (tr : list (vop * res vret)) : nat -> option rptr := fold_left under_step tr (fun _ => None).

(** Only the functions of dynamix 1 add rules to its domain or remove them. *)
Definition v1_only (dv : dptr) (o : vop) : Prop :=
  match o with
  | VDom (DAddRule d _) | VDom (DRemRule d _) => d <> dv
  | _ => True
  end.
