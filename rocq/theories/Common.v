(** The functions that the library offers for mixins without constructors of their own: code/dnmx/mixin_common_funcs.c and
    .h. They work on bytes, so this file has memory as bytes. *)
From Coq Require Import List Arith ZArith NArith Bool.
From Verif Require Import Base Info Heap.
Import ListNotations.
Local Open Scope N_scope.

(** The bytes of all blocks (Heap.v). Blocks are never given out again in the model, so what a block holds when it is
    allocated is whatever [mem] says of it before. *)
Definition byte := N.
Definition mem := nat -> N -> byte.

(** Is byte [x] of block [b] one of the [n] bytes at [p]? *)
Definition inside (p : addr) (n : N) (b : nat) (x : N) : bool := (b =? fst p)%nat && (snd p <=? x) && (x <? snd p + n).

(** memset of the C library: [n] bytes at [p] *)
Definition memset (M : mem) (p : addr) (v : byte) (n : N) : mem := fun b x => if inside p n b x then v else M b x.
(** memcpy of the C library; nothing is defined if the bytes overlap *)
Definition overlap (p q : addr) (n : N) : bool := (fst p =? fst q)%nat && (snd p <? snd q + n) && (snd q <? snd p + n).
Definition memcpy (M : mem) (p q : addr) (n : N) : option mem :=
  if overlap p q n then None
  else Some (fun b x => if inside p n b x then M (fst q) (snd q + (x - snd p)) else M b x).
(** memcmp of the C library: the first difference decides. The standard fixes only the sign; the model gives the
    difference of the bytes. *)
Fixpoint memcmp_loop (M : mem) (p q : addr) (n : nat) : Z :=
  match n with
  | O => 0%Z
  | S n' =>
    let d := (Z.of_N (M (fst p) (snd p)) - Z.of_N (M (fst q) (snd q)))%Z in
    if (d =? 0)%Z then memcmp_loop M (fst p, snd p + 1) (fst q, snd q + 1) n' else d
  end.
Definition memcmp (M : mem) (p q : addr) (n : N) : Z := memcmp_loop M p q (N.to_nat n).

Section Common.
Variable E : env.
(** info->size *)
Definition size_of (m : mptr) : N := m_size (e_mixin E m).

(** mixin_common_funcs.c:9-12 dnmx_mixin_common_init_func *)
Definition common_init (M : mem) (m : mptr) (p : addr) : option mem := Some (memset M p 0 (size_of m)).
(** mixin_common_funcs.c:14-17 dnmx_mixin_common_copy_func *)
Definition common_copy (M : mem) (m : mptr) (p src : addr) : option mem := memcpy M p src (size_of m).
(** mixin_common_funcs.c:19-22 dnmx_mixin_common_move_func *)
Definition common_move (M : mem) (m : mptr) (p src : addr) : option mem :=
  match memcpy M p src (size_of m) with
  | Some M' => Some (memset M' src 0 (size_of m))
  | None => None
  end.
(** mixin_common_funcs.h:31-33 dnmx_mixin_common_move_func_copy *)
Definition common_move_copy (M : mem) (m : mptr) (p src : addr) : option mem := common_copy M m p src.
(** mixin_common_funcs.c:24-26 dnmx_mixin_common_destroy_func *)
Definition common_destroy (M : mem) (m : mptr) (p : addr) : option mem := Some (memset M p 254 (size_of m)).
(** mixin_common_funcs.c:28-30 dnmx_mixin_common_cmp_func *)
Definition common_cmp (M : mem) (m : mptr) (a b : addr) : Z := memcmp M a b (size_of m).
(** mixin_common_funcs.c:32-34 dnmx_mixin_common_eq_func *)
Definition common_eq (M : mem) (m : mptr) (a b : addr) : bool := (memcmp M a b (size_of m) =? 0)%Z.
(** mixin_common_funcs.h:57-67 the noop functions *)
Definition noop_func (M : mem) : option mem := Some M.
(** mixin_common_funcs.h:70-73 dnmx_mixin_noop_cmp_func *)
Definition noop_cmp (M : mem) (m : mptr) (a b : addr) : Z := 0%Z.

(** What a function pointer of a mixin info points to: one of the functions above, or a function of the program *)
Inductive code := CInit | CCopy | CMove | CMoveCopy | CDestroy | CNoop | COwn.

(** A function of the program is any function that writes no bytes but those of the mixins it is given: [fst own] are the
    bytes it leaves at its target, [snd own] those at its source. *)
Definition write (M : mem) (p : addr) (v : list byte) : mem := fun b x =>
  if inside p (N.of_nat (length v)) b x then nth (N.to_nat (x - snd p)) v 0 else M b x.

(** A call of a function of mixin [m] on [p] (and [src]). A null source is undefined for the functions that read it. *)
Definition call_code (c : code) (M : mem) (m : mptr) (p : addr) (src : option addr) (own : list byte * list byte) : option mem :=
  match c, src with
  | CInit, _ => common_init M m p
  | CDestroy, _ => common_destroy M m p
  | CNoop, _ => noop_func M
  | COwn, None => Some (write M p (fst own))
  | COwn, Some q => Some (write (write M p (fst own)) q (snd own))
  | CCopy, Some q => common_copy M m p q
  | CMove, Some q => common_move M m p q
  | CMoveCopy, Some q => common_move_copy M m p q
  | _, None => None
  end.

(** The pointers in the mixin infos. Functions given to mutate and mutate_to are of the program. *)
Variable codes : mptr -> fn -> code.
Definition code_of (m : mptr) (f : fn) : code := match f with FOverride _ | FUpdate _ => COwn | _ => codes m f end.

(** What happens to memory: an event of the library (with what functions of the program write, if it is a call of one),
    the program writes to a mixin that it got from an object, or a byte elsewhere is written. The last one stands for the
    rest of the program and for what the library itself keeps in memory: the arrays of mixin data and the pointers to
    objects before the mixins (object_mutation.cpp:100-131, C74). *)
Inductive act := BEv (e : ev) (own : list byte * list byte) | BWrite (m : mptr) (p : addr) (v : list byte) | BOther (b : nat) (x : N) (v : byte).
Definition do_act (M : mem) (a : act) : option mem :=
  match a with
  | BEv (EvCall f m p src _) own => call_code (code_of m f) M m p src own
  | BEv _ _ => Some M
  | BWrite _ p v => Some (write M p v)
  | BOther b x v => Some (write M (b, x) [v])
  end.
Fixpoint do_acts (M : mem) (l : list act) : option mem :=
  match l with
  | [] => Some M
  | a :: r => match do_act M a with Some M' => do_acts M' r | None => None end
  end.

End Common.
