(** Specification vocabulary: what functions of mixins see of the objects while they are called *)
From Coq Require Import List Arith ZArith NArith Bool.
From Verif Require Import Base Info TypeBuild Domain Heap Mutation Object SpecObj.
Import ListNotations.

(** The state at the moment of a call, for the queries on states *)
Definition at_time (k : snap) : st := {|
  s_w := sn_w k; s_blk := sn_blk k; s_next := 0; s_obj := sn_obj k; s_calls := 0; s_log := []; s_seen := [] |}.

(** Between the states [s] and [s'] event [e] happened, and [k] is what could be seen then. *)
Definition during (s s' : st) (e : ev) (k : snap) : Prop := exists l1 l2, s_seen s' = s_seen s ++ l1 ++ (e, k) :: l2.

(** The object an operation works on *)
Definition target (op : oop) : option nat :=
  match op with
  | OEmpty o _ _ | ONew _ o _ _ _ | OMoved o _ | ODtor o | OMoveAssign o _ | OCopy _ o _ _ | OCopyFrom _ o _ | OCopyMatching o _
  | OMoveMatching _ o _ | OClear o | OReset _ o _ | OSeal o | OMutateTo _ o _ _ | OMutate _ _ o _ | OGradual _ _ o _
  | OCMutateTo _ o _ _ | OCMutate _ _ o _ | OPiecewise _ o _ _ | OUse o _ _ => Some o
  | ODom _ => None
  end.
(** The object from which a call copies or moves: a mutation moves from the object to itself *)
Definition source (op : oop) (f : fn) : option nat :=
  match op, f with
  | OMoveMatching _ _ src, _ => Some src
  | _, FMoveInit => target op
  | OCopy _ _ src _, _ | OCopyFrom _ _ src, _ | OCopyMatching _ src, _ => Some src
  | _, _ => target op
  end.
(** Functions that construct or change a mixin and do not end one *)
Definition building (f : fn) : bool :=
  match f with FInit | FCopyInit | FCopyAsgn | FOverride _ | FUpdate _ => true | FMoveInit | FMoveAsgn | FDestroy => false end.

(** The type pointer of the object before the operation; null for an object that is being made *)
Definition type_before (s : st) (o : nat) : option tref := match s_obj s o with Some x => o_type x | None => None end.
