(** Specification of orders: names, rules, mixins. *)
From Coq Require Import List Arith ZArith NArith Bool.
From Verif Require Import Base Sv Info.
Import ListNotations.

(** The usual lexicographic order on strings of bytes. *)
Inductive lex_lt : list N -> list N -> Prop :=
| lex_nil y b : lex_lt [] (y :: b)
| lex_head x y a b : (x < y)%N -> lex_lt (x :: a) (y :: b)
| lex_tail x a b : lex_lt a b -> lex_lt (x :: a) (x :: b).

(** A string view whose pointer is null is empty. *)
Definition view_wf (s : sv) : Prop := sv_begin s = 0%N -> sv_bytes s = [].
(** Names that start at the same address are the same (no name is a prefix of another one in the same memory). *)
Definition names_regular {A} (name : A -> sv) : Prop :=
  (forall a, view_wf (name a)) /\ (forall a b, sv_begin (name a) = sv_begin (name b) -> sv_bytes (name a) = sv_bytes (name b)).

(** A rule comes before another one: by priority, then by name. *)
Definition rule_before (E : env) (a b : rptr) : Prop :=
  (r_prio (e_rule E a) < r_prio (e_rule E b))%Z \/
  (r_prio (e_rule E a) = r_prio (e_rule E b) /\ lex_lt (sv_bytes (r_name (e_rule E a))) (sv_bytes (r_name (e_rule E b)))).

(** A mixin comes before another one in canonical order: by order_priority, then by name. *)
Definition mixin_before (E : env) (a b : mptr) : Prop :=
  (m_order (e_mixin E a) < m_order (e_mixin E b))%Z \/
  (m_order (e_mixin E a) = m_order (e_mixin E b) /\ lex_lt (sv_bytes (m_name (e_mixin E a))) (sv_bytes (m_name (e_mixin E b)))).

Definition regular_rules (E : env) : Prop := names_regular (fun r => r_name (e_rule E r)).
Definition regular_mixins (E : env) : Prop := names_regular (fun m => m_name (e_mixin E m)).

(** One after the other: the rules applied to a mixin list in the order of the list of rules. *)
Fixpoint in_turn (E : env) (v : rview) (rs : list rptr) (l : list mptr) (out : rule_res) : Prop :=
  match rs with
  | [] => out = RuleOk l
  | r :: t => exists f, r_apply (e_rule E r) = Some f /\
      match f v l with RuleErr e => out = RuleErr e | RuleOk l' => in_turn E v t l' out end
  end.

(** [n] whole applications of all rules lead from [l] to [l']. *)
Inductive passes (E : env) (v : rview) (rs : list rptr) : nat -> list mptr -> list mptr -> Prop :=
| passes_0 l : passes E v rs 0 l l
| passes_S n l l1 l2 : passes E v rs n l l1 -> in_turn E v rs l1 (RuleOk l2) -> passes E v rs (S n) l l2.

(** The mixin list without the mixins that are only dependencies. *)
Definition no_deps (E : env) (l : list mptr) : Prop := forall m, In m l -> m_dependency (e_mixin E m) = false.
