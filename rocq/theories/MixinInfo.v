(** Size and alignment of a mixin in an external buffer: code/dnmx/mixin_info.h *)
From Coq Require Import List Arith ZArith NArith Lia Bool.
From Verif Require Import Base Sv Info TypeBuild.
Import ListNotations.
Local Open Scope N_scope.

(** code/dnmx/mixin_info.h:176-190 dnmx_set_mixin_info_size_and_alignment. All sizes are 32 bit. *)
Definition set_size_alignment (d : mixin_desc) (s a : N) : mixin_desc :=
  let (bs, off) := if a <? sizeof_ptr then (u32 (s + sizeof_ptr), sizeof_ptr) else (u32 (s + a), a) in
  {| m_name := m_name d; m_size := s; m_align := a; m_buf_size := bs; m_buf_off := off;
     m_init := m_init d; m_copy_init := m_copy_init d; m_move_init := m_move_init d; m_copy_asgn := m_copy_asgn d;
     m_move_asgn := m_move_asgn d; m_destroy := m_destroy d; m_equals := m_equals d; m_compare := m_compare d;
     m_allocator := m_allocator d; m_features := m_features d; m_order := m_order d;
     m_force_external := m_force_external d; m_dependency := m_dependency d |}.

(** code/dnmx/mixin_info.h:155-161 dnmx_make_mixin_info, the fields that are not zero *)
Definition make_mixin_info : mixin_desc :=
  {| m_name := {| sv_begin := 0; sv_bytes := [] |}; m_size := 0; m_align := 0; m_buf_size := sizeof_ptr; m_buf_off := sizeof_ptr;
     m_init := false; m_copy_init := false; m_move_init := false; m_copy_asgn := false; m_move_asgn := false;
     m_destroy := false; m_equals := false; m_compare := false; m_allocator := None; m_features := []; m_order := 0;
     m_force_external := false; m_dependency := false |}.
