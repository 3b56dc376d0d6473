(** Next implementers when a mixin may list a feature more than once. *)
From Coq Require Import List Arith.
From Verif Require Import Base Info TypeBuild TypeQuery Msg.
Import ListNotations.

(** [x] stands at place [k] of the row, and no listing of the same mixin stands before it: where the search of
    type.cpp:46-52 stops. *)
Definition first_of (l : list (nat * ffm)) (k : nat) (x : nat * ffm) : Prop :=
  nth_error l k = Some x /\ forall j y, j < k -> nth_error l j = Some y -> fst y <> fst x.

(** What is executed after [n] steps if a unicast call is made (msg_caller.hpp:52-62) and each function executed asks
    for the next implementer after its own mixin (next_impl.hpp:19-31). A default function has no mixin and asks for
    nothing; the chain stays there. *)
Fixpoint chain (E : env) (fid : fptr -> option nat) (mid : mptr -> option nat) (t : type_rec) (f : fptr) (n : nat) : res exec :=
  match n with
  | 0 => call_unicast E fid t f
  | S n => match chain E fid mid t f n with
    | Ok (ExecImpl i p) => match nth_error (t_mixins t) i with Some m => call_next_impl fid mid t f m | None => Ub UbOutOfBounds end
    | r => r
    end
  end.
