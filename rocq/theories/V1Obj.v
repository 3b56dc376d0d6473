(** The objects and the next bidders of the v1 compatibility layer: v1compat/code/dynamix/v1compat/object.cpp and next_bidder.hpp *)
From Coq Require Import List Arith ZArith NArith Lia Bool.
From Verif Require Import Base Sv Info TypeBuild TypeQuery Msg Domain Heap Mutation Object ObjMsg.
Import ListNotations.

Section V1Obj.
Variable E : env.
Variable U : user.
Variable accepts : nat -> mptr -> bool.
(** The domain of the layer (domain.cpp:10-13), and the default allocator *)
Variable vd : dptr.
Variable va : nat.

(** object.cpp:22-26 copy: an empty object of the domain of the layer, and copy_from; when that throws, the object is
    destroyed. Simplified: [o] is the object that is returned (the return value is not moved). *)
Definition v1_copy (unw : bool) (o src : nat) : M st unit :=
  new_empty o vd va;;
  fun s =>
    match copy_from E U unw o src s with
    | (s', Throw e) => (obj_dtor E o;; raise e) s'
    | x => x
    end.
(** next_bidder.hpp:8-11 has_next_bidder; next_impl.hpp:33-37 *)
Definition v1_has_next_bidder (m : mptr) (p : addr) (f : fptr) : M st bool :=
  let* o := object_at p in
  let* x := get_obj o in
  let* rt := the_type x in
  let* fid := the_fid in
  let* mid := the_mid in
  pure (has_next_bidder_set fid mid (snd rt) f m).
(** next_bidder.hpp:13-21 call_next_bidder; [multicast]: is the message a multicast? *)
Definition v1_call_next_bidder (multicast : bool) (m : mptr) (p : addr) (f : fptr) : M st unit :=
  if multicast then send_next_bidders U accepts m p f else send_next_top U accepts m p f.
End V1Obj.
