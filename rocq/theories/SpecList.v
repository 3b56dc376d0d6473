(** Specification vocabulary for operations on lists of mixins. *)
From Coq Require Import List Arith ZArith NArith Bool.
From Verif Require Import Base Sv Info Domain.
Import ListNotations.

(** The mixin has the name. *)
Definition named (E : env) (nm : list N) (m : mptr) : Prop := sv_bytes (m_name (e_mixin E m)) = nm.
(** The mixin lists the feature. *)
Definition lists_feature (E : env) (m : mptr) (f : fptr) : Prop := In f (map ff_info (m_features (e_mixin E m))).

(** [r] has the last occurrence of every element of [l], in order, and nothing else. *)
Inductive last_only : list mptr -> list mptr -> Prop :=
| lo_nil : last_only [] []
| lo_keep x l r : ~ In x l -> last_only l r -> last_only (x :: l) (x :: r)
| lo_drop x l r : In x l -> last_only l r -> last_only (x :: l) r.

(** [l] without the elements of [xs]. *)
Definition without (xs l : list mptr) : list mptr := filter (fun x => if in_dec Nat.eq_dec x xs then false else true) l.

(** [r] is [l] followed by those of [xs] that [l] lacks, once each, in the order of [xs]. *)
Inductive completed : list mptr -> list mptr -> list mptr -> Prop :=
| co_nil l : completed [] l l
| co_has x xs l r : In x l -> completed xs l r -> completed (x :: xs) l r
| co_add x xs l r : ~ In x l -> completed xs (l ++ [x]) r -> completed (x :: xs) l r.

(** The rule function never takes a mixin away. *)
Definition keeps_mixin (f : rview -> list mptr -> rule_res) (m : mptr) : Prop :=
  forall v l l', f v l = RuleOk l' -> In m l -> In m l'.
