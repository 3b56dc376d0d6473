(** Where the things that the library gives to user functions are in memory. This is stated about the events only, like
    SpecLog: the specification knows which blocks were allocated with which size and alignment and which pointers were
    given to functions of which mixin. *)
From Coq Require Import List Arith ZArith NArith Bool.
From Verif Require Import Base Sv Info MixinInfo Heap SpecLayout SpecLog.
Import ListNotations.
Local Open Scope N_scope.

(** Every mixin info got its size and alignment from set_size_alignment, without overflow in 32 bits (C22). *)
Definition sized_mixins (E : env) : Prop := forall m, let d := e_mixin E m in
  d = set_size_alignment d (m_size d) (m_align d) /\ m_size d + N.max 8 (m_align d) < 4294967296.

(** After the events [l] the block [b] is allocated with this size and alignment: the allocation is among the events, and no
    deallocation comes after it. *)
Definition allocated (l : list ev) (b : nat) (size align : N) : Prop :=
  exists a l0 l1, l = l0 ++ EvAlloc a b size align :: l1 /\ forall e, In e l1 -> is_free b e = false.

(** The event gives the pointer [p] to a function of mixin [m], as target or as source. *)
Definition touches (e : ev) (m : mptr) (p : addr) : Prop :=
  match e with
  | EvCall _ m' q src _ => m' = m /\ (q = p \/ src = Some p)
  | _ => False
  end.

Section Place.
Variable E : env.

(** Mixin [m] at offset [off] of a block: the mixin ends in the block, there is room for the object pointer before it, and
    both are aligned wherever the allocator put the block. *)
Definition well_placed (size align : N) (m : mptr) (off : N) : Prop :=
  8 <= off /\ off + m_size (e_mixin E m) <= size /\
  forall base, (align | base) -> aligned_to (m_align (e_mixin E m)) (base + off) /\ (8 | base + off - 8).

(** The bytes of the mixins [m] at [off] and [m'] at [off'], each with the object pointer before it, have none in common. *)
Definition places_apart (m : mptr) (off : N) (m' : mptr) (off' : N) : Prop :=
  apart (off - 8) (8 + m_size (e_mixin E m)) (off' - 8) (8 + m_size (e_mixin E m')).

End Place.
