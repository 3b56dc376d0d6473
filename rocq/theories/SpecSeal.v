(** The allocator and the seal of new objects *)
From Coq Require Import List Arith.
From Verif Require Import Base Info Domain Heap Mutation Object.
Import ListNotations.

(** Call [op] creates object [o], which is to have allocator [a] and seal [sl]: what the caller asked for; copies are not sealed, and an object that is
    moved to a new place takes its allocator and its seal along. *)
Definition seal_given (s : st) (op : oop) (o : nat) (a : nat) (sl : bool) : Prop :=
  match op with
  | OEmpty o' _ a' | OCopy _ o' _ a' => o' = o /\ a' = a /\ sl = false
  | ONew _ o' _ a' sl' => o' = o /\ a' = a /\ sl' = sl
  | OMoved o' src => o' = o /\ exists y, s_obj s src = Some y /\ o_alloc y = a /\ o_sealed y = sl
  | _ => False
  end.
