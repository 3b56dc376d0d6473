(** Specification of what get_type does with the mutation rules. *)
From Coq Require Import List Arith ZArith NArith Bool Sorted.
From Verif Require Import Base Sv Info TypeBuild Domain SpecReg SpecOrd SpecDom.
Import ListNotations.

(** [rs] lists the rules that are active after the history, once each, in the order of priority and name. *)
Definition active_rules (E : env) (tr : trace) (d : dptr) (rs : list rptr) : Prop :=
  NoDup rs /\ (forall r, In r rs <-> 0 < rule_count E tr d r) /\ StronglySorted (fun a b => ~ rule_before E b a) rs.

(** The mixins of a query that are not dependencies. *)
Definition without_deps (E : env) (q : list mptr) : list mptr := filter (fun m => negb (m_dependency (e_mixin E m))) q.

(** There is no stored answer for the query. *)
Definition not_stored (w : world) (d : dptr) (q : list mptr) : Prop := ~ In q (map fst (d_queries (w_dom w d))).

(** get_type answers queries that are not stored by whole applications of [rs], in this order, at most
    min(5, number of rules) + 1 times: a type has the mixins after the last one, the error of a rule
    comes from the application after [k] whole ones. [view] is what rule functions can see. *)
Definition applies (E : env) (w : world) (d : dptr) (rs : list rptr) : Prop :=
  forall a q w1, not_stored w d q ->
  (forall r t, get_type E a w d q = (w1, Ok r) -> w_type w1 r = Some t ->
     exists k, 1 <= k <= Nat.min 5 (length rs) + 1 /\ passes E (view E w d) rs k (without_deps E q) (t_mixins t)) /\
  (forall e, get_type E a w d q = (w1, Throw (ERuleUser e)) ->
     exists k l, k <= Nat.min 5 (length rs) /\ passes E (view E w d) rs k (without_deps E q) l /\ in_turn E (view E w d) rs l (RuleErr e)).

(** Every stored answer is what the rules give now. *)
Definition current_answers (E : env) (w : world) (d : dptr) : Prop :=
  forall a q w1 r1 w2 r2, get_type E a w d q = (w1, r1) -> get_type E a (forget_queries w d) d q = (w2, r2) ->
    r2 = r1 /\ (forall r, w_type w2 r = w_type w1 r) /\ (forall d2, d_types (w_dom w2 d2) = d_types (w_dom w1 d2)).

(** Histories for which the answers stay current. *)
Definition current_history (E : env) (tr : trace) (w : world) : Prop :=
  (rules_pure E /\ run E (init_world E) tr w) \/ run_where E registered_first tr w.
