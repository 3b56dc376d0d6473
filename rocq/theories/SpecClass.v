(** What a program may expect of mixins that are C++ classes *)
From Coq Require Import List Arith ZArith NArith Bool.
From Verif Require Import Base Sv Info Heap Common Class.
Import ListNotations.

(** What can be done with a class ([None] is void, for which everything can be done and nothing happens). Moves must not throw. *)
Definition can (c : option cclass) (f : fn) : Prop :=
  match c with
  | None => f <> FDestroy
  | Some k =>
    match f with
    | FInit => cl_default k <> No
    | FCopyInit => cl_copy_ctor k <> No
    | FCopyAsgn => cl_copy_asgn k <> No
    | FMoveInit => cl_move_ctor k = NoThrow \/ cl_move_ctor k = Trivial
    | FMoveAsgn => cl_move_asgn k = NoThrow \/ cl_move_asgn k = Trivial
    | FDestroy => cl_dtor_trivial k = false
    | FOverride _ | FUpdate _ => True
    end
  end.
(** A rule of C++: a constructor is trivial (for the type traits) only if the destructor is ([meta.unary.prop]). Nothing of the kind holds
    for assignments. *)
Definition cpp_class (k : cclass) : Prop :=
  cl_default k = Trivial \/ cl_copy_ctor k = Trivial \/ cl_move_ctor k = Trivial -> cl_dtor_trivial k = true.

(** The pointers that mixin info [d] has for calls on mixins *)
Definition has_fn (d : mixin_desc) (f : fn) : bool :=
  match f with
  | FInit => m_init d | FCopyInit => m_copy_init d | FMoveInit => m_move_init d | FCopyAsgn => m_copy_asgn d | FMoveAsgn => m_move_asgn d
  | FDestroy => m_destroy d | FOverride _ | FUpdate _ => true
  end.
(** Mixin [m] of the program was made from class [c]: what the program changes afterwards (name, features, allocator...) are not size,
    alignment and functions; [codes] are the functions (Common.v). *)
Definition made_from (E : env) (codes : mptr -> fn -> code) (m : mptr) (c : option cclass) : Prop :=
  let d := e_mixin E m in let i := class_info c in
  m_size d = m_size (fst i) /\ m_align d = m_align (fst i) /\ m_buf_size d = m_buf_size (fst i) /\ m_buf_off d = m_buf_off (fst i) /\
  (forall f, has_fn d f = has_fn (fst i) f) /\ m_equals d = m_equals (fst i) /\ m_compare d = m_compare (fst i) /\
  (forall f x, code_at (snd i) f = Some x -> codes m f = x).
(** All mixins of the program were. *)
Definition classes (E : env) (codes : mptr -> fn -> code) (cls : mptr -> option cclass) : Prop := forall m, made_from E codes m (cls m).
