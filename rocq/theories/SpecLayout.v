(** Specification vocabulary for memory layout. Addresses and sizes are in bytes. *)
From Coq Require Import List Arith ZArith NArith Bool.
From Verif Require Import Base Sv Info.
Import ListNotations.
Local Open Scope N_scope.

Definition pow2 (a : N) : Prop := exists k, a = 2 ^ k.
(** An alignment: a power of two, as in C++, or the 0 of infos made without a type of data (dnmx_make_mixin_info; the mixins of void). *)
Definition alignment (a : N) : Prop := a = 0 \/ pow2 a.
(** The address [x] is aligned to [a]; 0 asks for nothing. *)
Definition aligned_to (a x : N) : Prop := a = 0 \/ (a | x).
Definition aligned_mixins (E : env) : Prop := forall m, alignment (m_align (e_mixin E m)).

(** The bytes [a, a + n) and [b, b + k) have none in common. *)
Definition apart (a n b k : N) : Prop := a + n <= b \/ b + k <= a.

(** An upper bound of the size of an object buffer: the array of mixin data, and for every internal mixin
    its size, its pointer slot and padding. *)
Fixpoint space (E : env) (l : list mptr) : N :=
  match l with
  | [] => 0
  | m :: r => 16 + (if external (e_mixin E m) then 0 else m_size (e_mixin E m) + 2 * N.max 8 (m_align (e_mixin E m))) + space E r
  end.

(** A buffer of [n] mixins of size [size] and alignment [align] with mixins at [offs] is sound. *)
Definition sound_layout (E : env) (ms : list mptr) (offs : list N) (size align : N) : Prop :=
  let n := N.of_nat (length ms) in
  length offs = length ms /\ 16 * n <= size /\
  (forall i m o, nth_error ms i = Some m -> nth_error offs i = Some o ->
     (o = 0 <-> external (e_mixin E m) = true) /\
     (external (e_mixin E m) = false ->
        m_align (e_mixin E m) <= align /\
        (* aligned wherever an aligned buffer is *)
        (forall base, (align | base) -> aligned_to (m_align (e_mixin E m)) (base + o) /\ (8 | base + o - 8)) /\
        (* the pointer slot begins after the array of mixin data, and the mixin ends in the buffer *)
        16 * n <= o - 8 /\ 8 <= o /\ o + m_size (e_mixin E m) <= size)) /\
  (* mixins with their slots do not overlap *)
  (forall i j m m' o o', i <> j -> nth_error ms i = Some m -> nth_error ms j = Some m' ->
     nth_error offs i = Some o -> nth_error offs j = Some o' ->
     external (e_mixin E m) = false -> external (e_mixin E m') = false ->
     apart (o - 8) (8 + m_size (e_mixin E m)) (o' - 8) (8 + m_size (e_mixin E m'))).
