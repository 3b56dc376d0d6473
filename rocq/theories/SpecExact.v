(** Specifications of exactly when some claims hold. *)
From Coq Require Import List Arith ZArith NArith.
From Verif Require Import Base Sv SpecOrd SpecAct Define SpecDefine.
Import ListNotations.

(** The comparison tells the order of the contents. *)
Definition compares (a b : sv) (c : Z) : Prop :=
  ((c < 0)%Z <-> lex_lt (sv_bytes a) (sv_bytes b)) /\ (c = 0%Z <-> sv_bytes a = sv_bytes b) /\ ((0 < c)%Z <-> lex_lt (sv_bytes b) (sv_bytes a)).

(** The rules that the builder was given stand in the order of the calls by name. *)
Definition in_call_order (l : list seen_rule) : Prop :=
  forall i j r1 r2 n1 n2, nth_error l i = Some r1 -> nth_error l j = Some r2 -> i < j -> rule_name_of r1 = Some n1 -> rule_name_of r2 = Some n2 -> lex_lt n1 n2.

(** Indices in range and increasing, after which there may be any number of indices that are equal to the number of mixins. *)
Definition accepted (n : nat) (l : list (nat * nat)) : Prop :=
  exists l1 l2, l = l1 ++ l2 /\ increasing 0 n l1 /\ forall i k, In (i, k) l2 -> i = n.
