(** Which sequences of allocations, deallocations and calls are legal. This says nothing about objects or about how the
    library works: it is what a memory checker knows that only sees the events. *)
From Coq Require Import List Arith ZArith NArith Bool.
From Verif Require Import Base Sv Info Heap.
Import ListNotations.

(** Memory as known from events: the allocated blocks with allocator, size and alignment, and the living mixins *)
Record view := { v_blk : nat -> option (aid * N * N); v_inst : addr -> option mptr }.
Definition same_blocks (v v' : view) : Prop := forall b, v_blk v' b = v_blk v b.
Definition same_mixins (v v' : view) : Prop := forall p, v_inst v' p = v_inst v p.
Definition other_blocks (b : nat) (v v' : view) : Prop := forall c, c <> b -> v_blk v' c = v_blk v c.
Definition other_mixins (p : addr) (v v' : view) : Prop := forall q, q <> p -> v_inst v' q = v_inst v q.

Definition constructs (f : fn) : bool := match f with FInit | FCopyInit | FMoveInit | FOverride _ => true | _ => false end.
Definition assigns (f : fn) : bool := match f with FCopyAsgn | FMoveAsgn | FUpdate _ => true | _ => false end.

Section Log.
Variable E : env.

(** Nothing at [p] is still to be destroyed. *)
Definition free_place (v : view) (p : addr) : Prop := forall m, v_inst v p = Some m -> m_destroy (e_mixin E m) = false.
(** The source of a copy or move is a living mixin of the same kind. *)
Definition good_source (v : view) (m : mptr) (src : option addr) : Prop := forall q, src = Some q -> v_inst v q = Some m.

Inductive step (v : view) : ev -> view -> Prop :=
| sp_alloc a b size align v' : v_blk v b = None -> (forall q, v_inst v (b, q) = None) ->
    v_blk v' b = Some (a, size, align) -> other_blocks b v v' -> same_mixins v v' -> step v (EvAlloc a b size align) v'
| sp_free a b size align v' : v_blk v b = Some (a, size, align) -> (forall q, free_place v (b, q)) ->
    v_blk v' b = None -> other_blocks b v v' ->
    (forall q, v_inst v' (b, q) = None) -> (forall p, fst p <> b -> v_inst v' p = v_inst v p) -> step v (EvFree a b size align) v'
| sp_construct f m p src v' : constructs f = true -> v_blk v (fst p) <> None -> free_place v p -> good_source v m src ->
    v_inst v' p = Some m -> other_mixins p v v' -> same_blocks v v' -> step v (EvCall f m p src 0) v'
| sp_failed f m p src err v' : constructs f = true -> err <> 0%Z -> v_blk v (fst p) <> None -> free_place v p -> good_source v m src ->
    same_mixins v v' -> same_blocks v v' -> step v (EvCall f m p src err) v'
| sp_assign f m p src err v' : assigns f = true -> v_blk v (fst p) <> None -> v_inst v p = Some m -> good_source v m src ->
    same_mixins v v' -> same_blocks v v' -> step v (EvCall f m p src err) v'
| sp_destroy m p err v' : m_destroy (e_mixin E m) = true -> v_blk v (fst p) <> None -> v_inst v p = Some m ->
    v_inst v' p = None -> other_mixins p v v' -> same_blocks v v' -> step v (EvCall FDestroy m p None err) v'.

(** [legal l v]: [l] is a legal sequence, and [v] is what there is after it. *)
Inductive legal : list ev -> view -> Prop :=
| lg_nil v : (forall b, v_blk v b = None) -> (forall p, v_inst v p = None) -> legal [] v
| lg_snoc l v e v' : legal l v -> step v e v' -> legal (l ++ [e]) v'.

End Log.

(** How often a block was allocated and freed; how often mixin [m] was constructed and destroyed at address [p] *)
Definition same_addr (p q : addr) : bool := (fst p =? fst q) && (snd p =? snd q)%N.
Definition is_alloc (b : nat) (e : ev) : bool := match e with EvAlloc _ c _ _ => c =? b | _ => false end.
Definition is_free (b : nat) (e : ev) : bool := match e with EvFree _ c _ _ => c =? b | _ => false end.
Definition is_birth (m : mptr) (p : addr) (e : ev) : bool :=
  match e with EvCall f m' q _ err => constructs f && (m' =? m) && same_addr q p && (err =? 0)%Z | _ => false end.
Definition is_death (m : mptr) (p : addr) (e : ev) : bool :=
  match e with EvCall FDestroy m' q _ _ => (m' =? m) && same_addr q p | _ => false end.
Definition times (f : ev -> bool) (l : list ev) : nat := length (filter f l).
