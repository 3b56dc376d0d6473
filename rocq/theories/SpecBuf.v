(** What it means that a type is one buffer: for C78 *)
From Coq Require Import List Arith ZArith NArith Lia Bool.
From Verif Require Import Base Sv Info TypeBuild TypeQuery TypeBuf.
Import ListNotations.
Local Open Scope N_scope.

(** The buffer is less than 4 GiB: with [F] greater than the ids of all features of the mixins and [S] greater than the ids of
    the mixins, [T] bytes for the members of the type, 24 for every feature id and for every feature of a mixin, 8 + 4 for
    every mixin and 4 for every mixin id are less than 2^32. *)
Definition fits (E : env) (fid : fptr -> option nat) (mid : mptr -> option nat) (T : N) (ms : list mptr) : Prop :=
  exists F S : nat,
    (forall m f k, In m ms -> In f (m_features (e_mixin E m)) -> fid (ff_info f) = Some k -> (k < F)%nat) /\
    (forall m k, In m ms -> mid m = Some k -> (k < S)%nat) /\
    T + N.of_nat F * 24 + N.of_nat (length (flat_map (fun m => m_features (e_mixin E m)) ms)) * 24
      + N.of_nat (length ms) * 12 + N.of_nat S * 4 < 4294967296.

(** Buffer [M'] with the members [h] is the type [t], whose own members take [T] bytes. [M] is what was in the buffer before. *)
Record buffer_of (T : N) (M M' : bmem) (h : thdr) (t : type_rec) : Prop := {
  (* what the buffer needs and not a byte more or less *)
  bo_size : h_buf_size h = T + N.of_nat (length (ft_entries (t_ftable t))) * 24 + N.of_nat (length (ft_pls (t_ftable t))) * 24
              + N.of_nat (length (t_mixins t)) * 12 + N.of_nat (length (t_sparse t)) * 4;
  (* nothing is written outside of it or over the members of the type *)
  bo_only : forall x, x < T \/ h_buf_size h <= x -> M' x = M x;
  bo_obj : h_obj_size h = t_buf_size t /\ h_obj_align h = t_buf_align t;
  (* mixins *)
  bo_num : h_num h = length (t_mixins t);
  bo_mixins : forall i m, nth_error (t_mixins t) i = Some m -> mem_mixin M' h i = Ok m;
  bo_offsets : forall i o, nth_error (t_offsets t) i = Some o -> mem_offset M' h i = Ok o;
  bo_index : forall id, mem_index_of M' h id = Ok (index_of t id);
  (* features; [at_ n] is the address of payload number [n] *)
  bo_features : exists at_ : nat -> N,
    (forall n, at_ (S n) = at_ n + 24) /\
    (forall id, mem_ftable_at M' h id = Ok (match ftable_at t id with Some e => Some (at_ (fe_begin e), at_ (fe_back e), at_ (fe_end e)) | None => None end)) /\
    (forall n x, nth_error (ft_pls (t_ftable t)) n = Some (Some x) -> mem_payload M' h (at_ n) = Ok x)
}.
