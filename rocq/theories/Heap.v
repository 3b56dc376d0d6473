(** Memory, mixin instances, objects and the calls of user functions.
    This is the machine on which the object model runs: code/dynamix/allocator.hpp, mixin_allocator.hpp,
    code/dnmx/object_mixin_data.h, basic_object.h, mixin_info.h *)
From Coq Require Import List Arith ZArith NArith Lia Bool.
From Verif Require Import Base Sv Info TypeBuild TypeQuery Domain.
Import ListNotations.

(** An allocator: the memory resource of an object (code/dynamix/allocator.hpp:9-11, compared by resource:
    compat/pmr/allocator.hpp:52-57) or a mixin_allocator (code/dynamix/mixin_allocator.hpp). *)
Inductive aid := AObj (n : nat) | AMix (n : nat).
Definition aid_eqb (a b : aid) : bool :=
  match a, b with
  | AObj x, AObj y => x =? y
  | AMix x, AMix y => x =? y
  | _, _ => false
  end.

(** A pointer into memory: an allocated block and an offset. Blocks are never reused in the model, so that
    the use of freed memory is visible. *)
Definition addr := (nat * N)%type.

(** code/dnmx/object_mixin_data.h:10-20 dnmx_object_mixin_data. [md_buf] is the beginning of a block, or null. *)
Record mdata := { md_buf : option nat; md_mixin : addr }.

(** A constructed mixin: of which mixin info it is, and an abstract value. *)
Record inst := { i_mixin : mptr; i_val : Z }.

(** An allocated block: allocator, size and alignment of the allocation, the array of mixin data at its
    beginning (None: not written yet), the mixin instances in it by offset, and the object pointers just before
    the mixins (code/dnmx/object_mixin_data.h:15-18), by the offset of the mixin.
    Simplified: places are identified by their offset; that they do not overlap and lie within the block is
    not built in but proved, as property C74 (and C21, C22 for the layouts of types). *)
Record block := {
  b_alloc : aid;
  b_size : N;
  b_align : N;
  b_data : nat -> option mdata;
  b_inst : list (N * inst);
  b_back : N -> option nat
}.

(** Functions of the user that the library calls on a mixin: code/dnmx/mixin_info.h:69-84, the overrides of
    mutations by number (mutate_to_ops.hpp, mutate_ops.hpp, code/dnmx/mutate.h:28-35). *)
Inductive fn := FInit | FCopyInit | FMoveInit | FCopyAsgn | FMoveAsgn | FDestroy | FOverride (k : nat) | FUpdate (k : nat).

(** What the user can observe: allocations, deallocations and calls with their target, source and error code. *)
Inductive ev :=
| EvAlloc (a : aid) (b : nat) (size align : N)
| EvFree (a : aid) (b : nat) (size align : N)
| EvCall (f : fn) (m : mptr) (p : addr) (src : option addr) (err : Z).

(** code/dnmx/basic_object.h, code/dynamix/object.hpp:197-199: the members of an object. *)
Record obj := { o_type : option tref; o_data : option nat; o_alloc : nat; o_sealed : bool }.

(** What user code could look at when it was called: domains and types, memory and objects at that moment
    (doc/advanced/danger.md:5-29 is about this). *)
Record snap := { sn_w : world; sn_blk : nat -> option block; sn_obj : nat -> option obj }.

(** The whole state: domains and types, memory, objects (by address; None: no object there), the number of
    calls of user code so far, the log of them, and the same log with what could be seen at each entry. The last
    two are not in the code; nothing in the model reads them. *)
Record st := {
  s_w : world;
  s_blk : nat -> option block;
  s_next : nat;
  s_obj : nat -> option obj;
  s_calls : nat;
  s_log : list ev;
  s_seen : list (ev * snap)
}.

(** What user code answers to a call: an error code (for an allocator: whether it throws) and a value.
    [u_ans n] is the answer to the n-th call, so all behaviours of user code are covered by all [u_ans].
    The comparison functions are pure. *)
Record answer := { an_err : Z; an_val : Z }.
Record user := {
  u_ans : nat -> answer;
  u_equals : mptr -> Z -> Z -> bool;
  u_compare : mptr -> Z -> Z -> Z
}.

(** Programs with a state, which may throw or run into undefined behaviour. *)
Definition M (S A : Type) := S -> S * res A.
Definition ret {S A} (a : A) : M S A := fun s => (s, Ok a).
Definition raise {S A} (e : exn) : M S A := fun s => (s, Throw e).
Definition ub {S A} (u : ubk) : M S A := fun s => (s, Ub u).
Definition bnd {S A B} (x : M S A) (f : A -> M S B) : M S B := fun s =>
  match x s with
  | (s1, Ok a) => f a s1
  | (s1, Throw e) => (s1, Throw e)
  | (s1, Ub u) => (s1, Ub u)
  end.
Notation "'let*' x := a 'in' b" := (bnd a (fun x => b)) (at level 200, x pattern, a at level 100, b at level 200).
Notation "a ;; b" := (bnd a (fun _ => b)) (at level 199, b at level 200).

(** Association lists by offset. *)
Fixpoint aget {A} (k : N) (l : list (N * A)) : option A :=
  match l with
  | [] => None
  | (x, v) :: r => if (x =? k)%N then Some v else aget k r
  end.
Definition adel {A} (k : N) (l : list (N * A)) : list (N * A) := filter (fun p => negb (fst p =? k)%N) l.
Definition aset {A} (k : N) (v : A) (l : list (N * A)) : list (N * A) := (k, v) :: adel k l.

Section Heap.
Variable E : env.
Variable U : user.

Definition set_w (s : st) (w : world) : st := {|
  s_w := w; s_blk := s_blk s; s_next := s_next s; s_obj := s_obj s; s_calls := s_calls s; s_log := s_log s; s_seen := s_seen s |}.
Definition set_blk (s : st) (b : nat) (k : option block) : st := {|
  s_w := s_w s; s_blk := upd (s_blk s) b k; s_next := s_next s; s_obj := s_obj s; s_calls := s_calls s; s_log := s_log s; s_seen := s_seen s |}.
Definition set_obj (s : st) (o : nat) (x : option obj) : st := {|
  s_w := s_w s; s_blk := s_blk s; s_next := s_next s; s_obj := upd (s_obj s) o x; s_calls := s_calls s; s_log := s_log s; s_seen := s_seen s |}.
Definition add_log (s : st) (e : ev) : st := {|
  s_w := s_w s; s_blk := s_blk s; s_next := s_next s; s_obj := s_obj s; s_calls := s_calls s; s_log := s_log s ++ [e];
  s_seen := s_seen s ++ [(e, {| sn_w := s_w s; sn_blk := s_blk s; sn_obj := s_obj s |})] |}.
Definition add_call (s : st) : st := {|
  s_w := s_w s; s_blk := s_blk s; s_next := s_next s; s_obj := s_obj s; s_calls := S (s_calls s); s_log := s_log s; s_seen := s_seen s |}.
(** the id of the next block is used up *)
Definition add_next (s : st) : st := {|
  s_w := s_w s; s_blk := s_blk s; s_next := S (s_next s); s_obj := s_obj s; s_calls := s_calls s; s_log := s_log s; s_seen := s_seen s |}.

Definition tick : M st answer := fun s => (add_call s, Ok (u_ans U (s_calls s))).
Definition emit (e : ev) : M st unit := fun s => (add_log s e, Ok tt).
Definition on_world {A} (f : world -> world * res A) : M st A := fun s => (set_w s (fst (f (s_w s))), snd (f (s_w s))).

(** The object at an address. *)
Definition get_obj (o : nat) : M st obj := fun s =>
  match s_obj s o with Some x => (s, Ok x) | None => (s, Ub UbDangling) end.
Definition put_obj (o : nat) (x : option obj) : M st unit := fun s => (set_obj s o x, Ok tt).

(** The memory behind a pointer. *)
Definition get_blk (b : nat) : M st block := fun s =>
  match s_blk s b with Some k => (s, Ok k) | None => (s, Ub UbDangling) end.
Definition put_blk (b : nat) (k : block) : M st unit := fun s => (set_blk s b (Some k), Ok tt).

(** The type behind a reference. *)
Definition get_ty (r : tref) : M st type_rec := fun s =>
  match w_type (s_w s) r with Some t => (s, Ok t) | None => (s, Ub UbDangling) end.

(** allocator::allocate_bytes (compat/pmr/allocator.hpp:44-46), mixin_allocator::alloc_mixin_buf
    (mixin_allocator.hpp): a new block or an exception. *)
Definition alloc (a : aid) (size align : N) : M st nat :=
  let* x := tick in
  if (an_err x =? 0)%Z then
    fun s =>
      let b := s_next s in
      (set_blk (add_next (add_log s (EvAlloc a b size align))) b
         (Some {| b_alloc := a; b_size := size; b_align := align; b_data := fun _ => None; b_inst := []; b_back := fun _ => None |}), Ok b)
  else raise EBadAlloc.

(** Is there something in the block that should have been destroyed? *)
Definition needs_destroy (x : inst) : bool := m_destroy (e_mixin E (i_mixin x)).
Definition all_dead (l : list (N * inst)) : bool :=
  forallb (fun k => match aget k l with Some x => negb (needs_destroy x) | None => true end) (map fst l).

(** allocator::deallocate_bytes (compat/pmr/allocator.hpp:48-50), mixin_allocator::dealloc_mixin_buf:
    must be given what the allocation was given; mixins with a destroy function must have been destroyed. *)
Definition free (a : aid) (b : nat) (size align : N) : M st unit :=
  let* k := get_blk b in
  if aid_eqb (b_alloc k) a && (b_size k =? size)%N && (b_align k =? align)%N then
    if all_dead (b_inst k) then
      fun s => (set_blk (add_log s (EvFree a b size align)) b None, Ok tt)
    else ub UbLifetime
  else ub UbFree.

Definition with_data (k : block) (i : nat) (d : mdata) : block := {|
  b_alloc := b_alloc k; b_size := b_size k; b_align := b_align k; b_data := upd (b_data k) i (Some d); b_inst := b_inst k; b_back := b_back k |}.
Definition with_back (k : block) (off : N) (o : nat) : block := {|
  b_alloc := b_alloc k; b_size := b_size k; b_align := b_align k; b_data := b_data k; b_inst := b_inst k;
  b_back := fun x => if (x =? off)%N then Some o else b_back k x |}.
Definition with_inst (k : block) (l : list (N * inst)) : block := {|
  b_alloc := b_alloc k; b_size := b_size k; b_align := b_align k; b_data := b_data k; b_inst := l; b_back := b_back k |}.

(** mixin_data[i] of the array at the beginning of a block; reading an element that was never written is undefined *)
Definition read_data (b i : nat) : M st mdata :=
  let* k := get_blk b in match b_data k i with Some d => ret d | None => ub UbNull end.
Definition write_data (b i : nat) (d : mdata) : M st unit :=
  let* k := get_blk b in put_blk b (with_data k i d).

(** code/dnmx/object_mixin_data.h:15-18 set_object *)
Definition set_object (p : addr) (o : nat) : M st unit :=
  let* k := get_blk (fst p) in put_blk (fst p) (with_back k (snd p) o).

(** The instance of mixin [m] at [p]; it is undefined behaviour to call a function of [m] on anything else *)
Definition live (m : mptr) (p : addr) : M st inst :=
  let* k := get_blk (fst p) in
  match aget (snd p) (b_inst k) with
  | Some x => if i_mixin x =? m then ret x else ub UbLifetime
  | None => ub UbLifetime
  end.
(** No constructed mixin at [p] (one without destroy function may be abandoned) *)
Definition vacant (p : addr) : M st unit :=
  let* k := get_blk (fst p) in
  match aget (snd p) (b_inst k) with
  | Some x => if needs_destroy x then ub UbLifetime else ret tt
  | None => ret tt
  end.
Definition put_inst (p : addr) (x : inst) : M st unit :=
  let* k := get_blk (fst p) in put_blk (fst p) (with_inst k (aset (snd p) x (b_inst k))).
Definition del_inst (p : addr) : M st unit :=
  let* k := get_blk (fst p) in put_blk (fst p) (with_inst k (adel (snd p) (b_inst k))).

(** A call that constructs mixin [m] at [p]: init (mixin_info.h:69), copy_init (70) from [src], or an override.
    The code: object.cpp:78-84, 109-112; object_mutation.cpp:259-264; mutate-c.cpp:36-46, 107-112.
    Copying is assumed to copy the value. An error means that nothing was constructed. *)
Definition construct (f : fn) (m : mptr) (p : addr) (src : option addr) : M st unit :=
  let* a := tick in
  vacant p;;
  let* v := (match src with Some q => let* x := live m q in ret (i_val x) | None => ret (an_val a) end) in
  emit (EvCall f m p src (an_err a));;
  if (an_err a =? 0)%Z then put_inst p {| i_mixin := m; i_val := v |}
  else raise (EUserFunc (an_err a)).

(** copy_asgn (mixin_info.h:72). On an error the target may have any value. *)
Definition copy_asgn (m : mptr) (p src : addr) : M st unit :=
  let* a := tick in
  let* _ := live m p in
  let* x := live m src in
  emit (EvCall FCopyAsgn m p (Some src) (an_err a));;
  if (an_err a =? 0)%Z then put_inst p {| i_mixin := m; i_val := i_val x |}
  else put_inst p {| i_mixin := m; i_val := an_val a |};; raise (EUserFunc (an_err a)).

(** An update function of a mutation on a common mixin (mutate.h:32): gives the mixin any value *)
Definition update (k : nat) (m : mptr) (p : addr) : M st unit :=
  let* a := tick in
  let* _ := live m p in
  emit (EvCall (FUpdate k) m p None (an_err a));;
  put_inst p {| i_mixin := m; i_val := an_val a |};;
  if (an_err a =? 0)%Z then ret tt else raise (EUserFunc (an_err a)).

(** move_init (mixin_info.h:71) and move_asgn (73): cannot fail. The moved-from mixin gets any value. *)
Definition move_init (m : mptr) (p src : addr) : M st unit :=
  let* a := tick in
  vacant p;;
  let* x := live m src in
  emit (EvCall FMoveInit m p (Some src) 0);;
  put_inst p {| i_mixin := m; i_val := i_val x |};;
  put_inst src {| i_mixin := m; i_val := an_val a |}.
Definition move_asgn (m : mptr) (p src : addr) : M st unit :=
  let* a := tick in
  let* _ := live m p in
  let* x := live m src in
  emit (EvCall FMoveAsgn m p (Some src) 0);;
  put_inst p {| i_mixin := m; i_val := i_val x |};;
  put_inst src {| i_mixin := m; i_val := an_val a |}.

(** if (info.destroy) info.destroy(&info, p) (mixin_info.h:75-79) *)
Definition destroy (m : mptr) (p : addr) : M st unit :=
  if m_destroy (e_mixin E m) then
    let* _ := live m p in
    emit (EvCall FDestroy m p None 0);;
    del_inst p
  else ret tt.

(** code/dynamix/type.cpp:136-140 allocate_object_buffer *)
Definition allocate_object_buffer (r : tref) (t : type_rec) (a : nat) : M st nat :=
  let* b := alloc (AObj a) (t_buf_size t) (t_buf_align t) in
  on_world (fun w => incr_nobj w r);;
  ret b.
(** code/dynamix/type.cpp:142-145 deallocate_object_buffer *)
Definition deallocate_object_buffer (r : tref) (t : type_rec) (a : nat) (b : nat) : M st unit :=
  free (AObj a) b (t_buf_size t) (t_buf_align t);;
  on_world (fun w => decr_nobj w r).

(** code/dynamix/object_of.hpp:14-19 object_of *)
Definition object_of (s : st) (p : addr) : option nat :=
  match s_blk s (fst p) with Some k => b_back k (snd p) | None => None end.

End Heap.
