(** Mixin infos made from C++ classes and by the macros for C: code/dynamix/mixin_info_util.hpp and code/dnmx/mixin_info_util.h.
    The functions that the infos point to are those of Common.v ([CInit], [CCopy], [CMove], [CNoop]) or members of the class
    ([COwn], mixin_info_util.hpp:15-41). *)
From Coq Require Import List Arith ZArith NArith Bool.
From Verif Require Import Base Sv Info TypeBuild MixinInfo Heap Common.
Import ListNotations.

(** What the type traits of the C++ library say of a constructor or an assignment: is_xxx, is_nothrow_xxx, is_trivially_xxx. The
    last implies the second, and this the first. *)
Inductive able := No | Throws | NoThrow | Trivial.
Definition is_trivially (a : able) : bool := match a with Trivial => true | _ => false end.
Definition is_nothrow (a : able) : bool := match a with Trivial | NoThrow => true | _ => false end.
Definition is_able (a : able) : bool := match a with No => false | _ => true end.

(** A class: sizeof, alignof, and its traits *)
Record cclass := {
  cl_size : N; cl_align : N;
  cl_default : able; cl_copy_ctor : able; cl_copy_asgn : able; cl_move_ctor : able; cl_move_asgn : able;
  cl_dtor_trivial : bool
}.

(** A pointer to a comparison: of the library (mixin_common_funcs.h:69-73) or of the program *)
Inductive cmp_code := CmpNoop | CmpOwn.
(** The function pointers of a mixin info, code/dnmx/mixin_info.h:70-85; None is null *)
Record ptrs := {
  p_init : option code; p_copy_init : option code; p_move_init : option code; p_copy_asgn : option code; p_move_asgn : option code;
  p_destroy : option code; p_equals : option cmp_code; p_compare : option cmp_code
}.
(** code/dnmx/mixin_info.h:155-161: all pointers are null *)
Definition no_ptrs : ptrs := {|
  p_init := None; p_copy_init := None; p_move_init := None; p_copy_asgn := None; p_move_asgn := None;
  p_destroy := None; p_equals := None; p_compare := None |}.

(** code/dynamix/mixin_info_util.hpp:57-90 common_init_mixin_info, the pointers. None is void. What is not assigned keeps its value. *)
Definition common_init_ptrs (c : option cclass) (p : ptrs) : ptrs :=
  match c with
  | None => {|
      p_init := Some CNoop; p_copy_init := Some CNoop; p_copy_asgn := Some CNoop; p_move_init := Some CNoop; p_move_asgn := Some CNoop;
      p_compare := Some CmpNoop; p_destroy := p_destroy p; p_equals := p_equals p |}
  | Some c => {|
      p_init := if is_trivially (cl_default c) then Some CInit else if is_able (cl_default c) then Some COwn else p_init p;
      p_copy_init := if is_trivially (cl_copy_ctor c) then Some CCopy else if is_able (cl_copy_ctor c) then Some COwn else p_copy_init p;
      p_copy_asgn := if is_trivially (cl_copy_asgn c) then Some CCopy else if is_able (cl_copy_asgn c) then Some COwn else p_copy_asgn p;
      p_move_init := if is_trivially (cl_move_ctor c) then Some CMove else if is_nothrow (cl_move_ctor c) then Some COwn else p_move_init p;
      p_move_asgn := if is_trivially (cl_move_asgn c) then Some CMove else if is_nothrow (cl_move_asgn c) then Some COwn else p_move_asgn p;
      p_destroy := if negb (cl_dtor_trivial c) then Some COwn else p_destroy p;
      p_equals := p_equals p; p_compare := p_compare p |}
  end.

(** The pointers as the rest of the model has them: whether they are null (Info.v) *)
Definition is_set {A} (o : option A) : bool := match o with Some _ => true | None => false end.
Definition set_ptrs (d : mixin_desc) (p : ptrs) : mixin_desc := {|
  m_name := m_name d; m_size := m_size d; m_align := m_align d; m_buf_size := m_buf_size d; m_buf_off := m_buf_off d;
  m_init := is_set (p_init p); m_copy_init := is_set (p_copy_init p); m_move_init := is_set (p_move_init p); m_copy_asgn := is_set (p_copy_asgn p);
  m_move_asgn := is_set (p_move_asgn p); m_destroy := is_set (p_destroy p); m_equals := is_set (p_equals p); m_compare := is_set (p_compare p);
  m_allocator := m_allocator d; m_features := m_features d; m_order := m_order d;
  m_force_external := m_force_external d; m_dependency := m_dependency d |}.
(** code/dynamix/mixin_info_util.hpp:57-90 common_init_mixin_info, all of it: line 68 sets size and alignment, not for void *)
Definition common_init_info (c : option cclass) (d : mixin_desc) (p : ptrs) : mixin_desc * ptrs :=
  let p' := common_init_ptrs c p in
  (set_ptrs (match c with Some k => set_size_alignment d (cl_size k) (cl_align k) | None => d end) p', p').
(** A new info is made from a class: code/dynamix/common_mixin_info.hpp:15-17, then mixin_info_data.hpp:62-67 *)
Definition class_info (c : option cclass) : mixin_desc * ptrs := common_init_info c make_mixin_info no_ptrs.

(** code/dnmx/mixin_info_util.h:17-26 DNMX_COMMON_INIT_MI *)
Definition c_common_init (size align : N) : mixin_desc * ptrs :=
  let p := {| p_init := Some CInit; p_move_init := Some CMove; p_move_asgn := Some CMove; p_copy_init := Some CCopy; p_copy_asgn := Some CCopy;
              p_destroy := None; p_equals := None; p_compare := None |} in
  (set_ptrs (set_size_alignment make_mixin_info size align) p, p).
(** code/dnmx/mixin_info_util.h:28-37 DNMX_COMMON_INIT_EMPTY_MI *)
Definition c_common_init_empty : mixin_desc * ptrs :=
  let p := {| p_init := Some CNoop; p_move_init := Some CNoop; p_move_asgn := Some CNoop; p_copy_init := Some CNoop; p_copy_asgn := Some CNoop;
              p_compare := Some CmpNoop; p_destroy := None; p_equals := None |} in
  (set_ptrs make_mixin_info p, p).

(** The function that is called through a pointer of the info *)
Definition code_at (p : ptrs) (f : fn) : option code :=
  match f with
  | FInit => p_init p | FCopyInit => p_copy_init p | FMoveInit => p_move_init p | FCopyAsgn => p_copy_asgn p | FMoveAsgn => p_move_asgn p
  | FDestroy => p_destroy p | FOverride _ | FUpdate _ => Some COwn
  end.
