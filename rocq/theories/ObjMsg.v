(** Messages to objects: code/dynamix/msg/msg_caller.hpp, msg/next_impl.hpp. Msg.v has which functions are called; here they
    are called with the mixins of an object. Arguments and returned values are not modelled. *)
From Coq Require Import List Arith ZArith NArith Lia Bool.
From Verif Require Import Base Sv Info TypeBuild TypeQuery Msg Domain Heap Mutation Object.
Import ListNotations.

Section ObjMsg.
Variable E : env.
Variable U : user.
(** Payload function [k] can be called with a pointer to mixin [m]: the type of its first parameter, which is lost when
    the function is put into a mixin info (msg_caller.hpp:34-44, msg/msg_traits.hpp) *)
Variable accepts : nat -> mptr -> bool.

(** The mixin at an address *)
Definition inst_at (p : addr) : M st inst :=
  let* k := get_blk (fst p) in
  match aget (snd p) (b_inst k) with Some x => ret x | None => ub UbLifetime end.
(** msg_caller.hpp:43-50 call, with unchecked_get_at (code/dnmx/basic_object.h:38): the function may do anything with its
    mixin and may throw. To call it with something else than its kind of mixin is undefined. Simplified: it does not call
    the library (Reenter.v has functions that do). *)
Definition call_mixin (o i k : nat) : M st unit :=
  let* x := get_obj o in
  let* p := data_at x i in
  let* y := inst_at p in
  if accepts k (i_mixin y) then update U k (i_mixin y) p else ub UbLifetime.
(** msg_caller.hpp:16-25: a default payload gets the object; simplified: it leaves the mixins alone *)
Definition call_default (k : nat) : M st unit :=
  let* a := tick U in
  if (an_err a =? 0)%Z then ret tt else raise (EUserFunc (an_err a)).
Definition call_exec (o : nat) (x : exec) : M st unit :=
  match x with ExecImpl i k => call_mixin o i k | ExecDefault k => call_default k end.

(** a computation that reads constant data only *)
Definition pure {A} (r : res A) : M st A := fun s => (s, r).
(** the ids in the feature infos *)
Definition the_fid : M st (fptr -> option nat) := fun s => (s, Ok (w_fid (s_w s))).

(** msg_caller.hpp:52-62 call_unicast *)
Definition send_unicast (o : nat) (f : fptr) : M st unit :=
  let* x := get_obj o in
  let* rt := the_type x in
  let* fid := the_fid in
  let* e := pure (call_unicast E fid (snd rt) f) in
  call_exec o e.
(** msg_caller.hpp:72-74: the loop; [n] is i - begin *)
Fixpoint send_down (o : nat) (t : type_rec) (begin n : nat) : M st unit :=
  match n with
  | O => ret tt
  | S n' => let* e := pure (call_at t (begin + n)) in call_exec o e;; send_down o t begin n'
  end.
(** msg_caller.hpp:64-80 call_multicast *)
Definition send_multicast (o : nat) (f : fptr) : M st unit :=
  let* x := get_obj o in
  let* rt := the_type x in
  let* fid := the_fid in
  match ftable_at (snd rt) (fid f) with
  | Some fe =>
    send_down o (snd rt) (fe_begin fe) (fe_back fe - fe_begin fe);;
    let* e := pure (call_at (snd rt) (fe_begin fe)) in
    call_exec o e
  | None => let* e := pure (try_default E f) in call_exec o e
  end.

(** object_of.hpp:14-19 *)
Definition object_at (p : addr) : M st nat := fun s =>
  match object_of s p with Some o => (s, Ok o) | None => (s, Ub UbDangling) end.
(** next_impl.hpp:19-31 call_next_impl_msg, called with the pointer [p] to a mixin [m] *)
Definition send_next_impl (m : mptr) (p : addr) (f : fptr) : M st unit :=
  let* o := object_at p in
  let* x := get_obj o in
  let* rt := the_type x in
  let* fid := the_fid in
  let* mid := the_mid in
  let* n := pure (find_next_implementer fid mid (snd rt) f m) in
  match n with
  | None => raise ENotImplemented
  | Some pl => let* e := pure (call_pl (snd rt) pl) in call_exec o e
  end.
(** next_impl.hpp:52-54: the loop *)
Fixpoint send_pls (o : nat) (t : type_rec) (l : list fpayload) : M st unit :=
  match l with
  | [] => ret tt
  | p :: r => let* e := pure (call_pl t p) in call_exec o e;; send_pls o t r
  end.
(** next_impl.hpp:39-58 call_next_bidder_set *)
Definition send_next_bidders (m : mptr) (p : addr) (f : fptr) : M st unit :=
  let* o := object_at p in
  let* x := get_obj o in
  let* rt := the_type x in
  let* fid := the_fid in
  let* mid := the_mid in
  let* n := pure (find_next_bidder_set fid mid (snd rt) f m) in
  match n with
  | [] => raise ENotImplemented
  | top :: r =>
    send_pls o (snd rt) (rev r);;
    let* e := pure (call_pl (snd rt) top) in
    call_exec o e
  end.
(** next_impl.hpp:60-72 call_next_bidder_top *)
Definition send_next_top (m : mptr) (p : addr) (f : fptr) : M st unit :=
  let* o := object_at p in
  let* x := get_obj o in
  let* rt := the_type x in
  let* fid := the_fid in
  let* mid := the_mid in
  let* n := pure (find_next_bidder_set fid mid (snd rt) f m) in
  match n with
  | [] => raise ENotImplemented
  | top :: _ => let* e := pure (call_pl (snd rt) top) in call_exec o e
  end.
End ObjMsg.
