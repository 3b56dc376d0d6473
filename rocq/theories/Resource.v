(** The default memory resource of builds without std::pmr: code/dynamix/compat/pmr/memory_resource.cpp *)
From Coq Require Import NArith Bool.
From Verif Require Import Base TypeBuild.
Local Open Scope N_scope.

(** memory_resource.cpp:24-26, the size that aligned_alloc is called with. Arguments of next_multiple (alloc_util.hpp:10) are
    32 bit numbers, those of do_allocate 64 bit ones. Not modelled: the branches for Windows and Apple. *)
Definition resource_size (bytes alignment : N) : res N :=
  if u32 alignment =? 0 then Ub UbOutOfBounds (* division by zero *)
  else Ok (next_multiple (u32 bytes) (u32 alignment)).

(** memory_resource.cpp:15-32 do_allocate. [libc] is aligned_alloc: null, or the address of a new block of the size asked for *)
Definition resource_allocate (libc : N -> N -> option N) (bytes alignment : N) : res (N * N) :=
  do size <- resource_size bytes alignment;
  match libc alignment size with
  | Some p => Ok (p, size)
  | None => Throw EBadAlloc
  end.
