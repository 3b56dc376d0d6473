(** Message calls: code/dynamix/msg/msg_caller.hpp, msg/next_impl.hpp;
    v1compat/code/dynamix/v1compat/combinators.hpp *)
From Coq Require Import List Arith ZArith NArith Lia Bool.
From Verif Require Import Base Sv Info TypeBuild TypeQuery.
Import ListNotations.

(** One executed function: the payload of a mixin (msg_caller.hpp:43-50: the function pointer and the
    index of the mixin it gets) or the default payload, which gets the object (msg_caller.hpp:16-25).
    Arguments and their forwarding are not modelled. *)
Inductive exec := ExecImpl (idx payload : nat) | ExecDefault (payload : nat).

Section Msg.
Variable E : env.
Variable fid : fptr -> option nat.
Variable mid : mptr -> option nat.

(** msg_caller.hpp:43-50 call of the payload at position [i] of the payload array *)
Definition call_at (t : type_rec) (i : nat) : res exec :=
  match nth_error (ft_pls (t_ftable t)) i with
  | Some (Some p) =>
    (* unchecked_get_at(pl.mixin_index) *)
    if fp_mixin p <? length (t_mixins t) then Ok (ExecImpl (fp_mixin p) (fp_payload p)) else Ub UbOutOfBounds
  | Some None => Ub UbNull
  | None => Ub UbOutOfBounds
  end.

(** msg_caller.hpp:16-25 try_default_payload *)
Definition try_default (f : fptr) : res exec :=
  match f_default (e_feature E f) with
  | None => Throw ENotImplemented
  | Some p => Ok (ExecDefault p)
  end.

(** msg_caller.hpp:52-62 call_unicast: the function executed, whose result is returned *)
Definition call_unicast (t : type_rec) (f : fptr) : res exec :=
  match ftable_at t (fid f) with
  | Some fe => call_at t (fe_begin fe)
  | None => try_default f
  end.

(** msg_caller.hpp:72-74 and next_impl.hpp:52-54: for (i = back; i != begin; --i) call(i).
    [n] is back - begin. *)
Fixpoint call_down (t : type_rec) (begin n : nat) : res (list exec) :=
  match n with
  | O => Ok []
  | S n' =>
    do x <- call_at t (begin + n);
    do r <- call_down t begin n';
    Ok (x :: r)
  end.

(** msg_caller.hpp:64-80 call_multicast: all executed functions in order, and the one whose result is
    returned *)
Definition call_multicast (t : type_rec) (f : fptr) : res (list exec * exec) :=
  match ftable_at t (fid f) with
  | Some fe =>
    do l <- call_down t (fe_begin fe) (fe_back fe - fe_begin fe);
    do top <- call_at t (fe_begin fe);
    Ok (l ++ [top], top)
  | None => do x <- try_default f; Ok ([x], x)
  end.

(** next_impl.hpp:13-17 has_next_impl_msg *)
Definition has_next_impl (t : type_rec) (f : fptr) (m : mptr) : res bool :=
  do n <- find_next_implementer fid mid t f m; Ok (is_some n).

(** A payload found by one of the find functions is called: next_impl.hpp:30, 53, 57, 71 *)
Definition call_pl (t : type_rec) (p : fpayload) : res exec :=
  if fp_mixin p <? length (t_mixins t) then Ok (ExecImpl (fp_mixin p) (fp_payload p)) else Ub UbOutOfBounds.

(** next_impl.hpp:19-31 call_next_impl_msg *)
Definition call_next_impl (t : type_rec) (f : fptr) (m : mptr) : res exec :=
  do n <- find_next_implementer fid mid t f m;
  match n with
  | None => Throw ENotImplemented
  | Some p => call_pl t p
  end.

(** next_impl.hpp:33-37 has_next_bidder_set *)
Definition has_next_bidder_set (t : type_rec) (f : fptr) (m : mptr) : res bool :=
  do n <- find_next_bidder_set fid mid t f m; Ok (match n with [] => false | _ => true end).

(** next_impl.hpp:39-58 call_next_bidder_set. The loop goes from the last to the second element. *)
Fixpoint call_pls (t : type_rec) (l : list fpayload) : res (list exec) :=
  match l with
  | [] => Ok []
  | p :: r => do x <- call_pl t p; do y <- call_pls t r; Ok (x :: y)
  end.
Definition call_next_bidder_set (t : type_rec) (f : fptr) (m : mptr) : res (list exec * exec) :=
  do n <- find_next_bidder_set fid mid t f m;
  match n with
  | [] => Throw ENotImplemented
  | top :: r =>
    do l <- call_pls t (rev r);
    do x <- call_pl t top;
    Ok (l ++ [x], x)
  end.

(** next_impl.hpp:60-72 call_next_bidder_top *)
Definition call_next_bidder_top (t : type_rec) (f : fptr) (m : mptr) : res exec :=
  do n <- find_next_bidder_set fid mid t f m;
  match n with
  | [] => Throw ENotImplemented
  | top :: _ => call_pl t top
  end.

(** ** v1 combinators *)

(** A combinator: set_num_results and add_result on its state *)
Record combinator (R S : Type) := { cb_set_num : nat -> S -> S; cb_add : R -> S -> S * bool }.
Arguments cb_set_num {R S}.
Arguments cb_add {R S}.

(** msg_caller.hpp:91-95, the loop; [ret] gives the value returned by an executed function.
    The result is the executed functions, the state and whether the loop was left early. *)
Fixpoint comb_down {R S} (c : combinator R S) (ret : exec -> R) (t : type_rec) (begin n : nat) (s : S)
  : res (list exec * S * bool) :=
  match n with
  | O => Ok ([], s, true)
  | Datatypes.S n' =>
    do x <- call_at t (begin + n);
    let (s1, go) := cb_add c (ret x) s in
    if go then
      do r <- comb_down c ret t begin n' s1;
      Ok (x :: fst (fst r), snd (fst r), snd r)
    else Ok ([x], s1, false)
  end.

(** msg_caller.hpp:82-102 call_with_v1_combinator *)
Definition call_with_combinator {R S} (c : combinator R S) (ret : exec -> R) (t : type_rec) (f : fptr) (s : S)
  : res (list exec * S) :=
  match ftable_at t (fid f) with
  | Some fe =>
    let s0 := cb_set_num c (fe_back fe - fe_begin fe + 1) s in
    do r <- comb_down c ret t (fe_begin fe) (fe_back fe - fe_begin fe) s0;
    if snd r then
      do top <- call_at t (fe_begin fe);
      Ok (fst (fst r) ++ [top], fst (cb_add c (ret top) (snd (fst r))))
    else Ok (fst (fst r), snd (fst r))
  | None =>
    let s0 := cb_set_num c 1 s in
    do x <- try_default f;
    Ok ([x], fst (cb_add c (ret x) s0))
  end.

End Msg.
Arguments cb_set_num {R S}.
Arguments cb_add {R S}.

(** combinators.hpp:24-57 boolean_and; the state is _result, initially true *)
Definition comb_and : combinator bool bool :=
  {| cb_set_num := fun _ s => s; cb_add := fun r s => (s && r, s && r) |}.
(** combinators.hpp:68-101 boolean_or; initially false *)
Definition comb_or : combinator bool bool :=
  {| cb_set_num := fun _ s => s; cb_add := fun r s => (s || r, negb (s || r)) |}.
(** combinators.hpp:109-138 sum; initially 0. Simplified: unbounded integers. *)
Definition comb_sum : combinator Z Z :=
  {| cb_set_num := fun _ s => s; cb_add := fun r s => ((s + r)%Z, true) |}.
(** combinators.hpp:146-182 mean; the state is (_sum, _num_results), initially (0, 0). *)
Definition comb_mean : combinator Z (Z * nat) :=
  {| cb_set_num := fun n s => (fst s, n); cb_add := fun r s => ((fst s + r)%Z, snd s, true) |}.
(** combinators.hpp:172-174 mean::result, integer division truncates *)
Definition mean_result (s : Z * nat) : Z := Z.quot (fst s) (Z.of_nat (snd s)).
