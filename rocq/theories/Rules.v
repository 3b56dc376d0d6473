(** Mutation rules of a domain: code/dynamix/domain.cpp 54-58, 112-120, 405-487;
    code/dynamix/common_mutation_rules.hpp; v1compat/code/dynamix/v1compat/*mutation_rule* *)
From Coq Require Import List Arith ZArith NArith Lia Bool.
From Verif Require Import Base Sv Info TypeMut.
Import ListNotations.

Section Rules.
Variable E : env.

(** domain.cpp:112-119 rule_compare *)
Definition rule_less (a b : rptr) : bool :=
  let da := e_rule E a in
  let db := e_rule E b in
  if negb (Z.eqb (r_prio da) (r_prio db)) then Z.ltb (r_prio da) (r_prio db)
  else
    let c := sv_cmp (r_name da) (r_name db) in
    if negb (Z.eqb c 0) then Z.ltb c 0 else a <? b.

(** itlib::flat_map with rule_compare: vector of pairs sorted by key (domain.cpp:120).
    operator[] finds the first element not less than the key, inserts (key, 0) there if the key is not
    equivalent to it. Simplified: linear instead of binary search (the same for a strict weak order).
    domain.cpp:410-412: the result also says whether the count became 1. *)
Fixpoint rules_incr (r : rptr) (l : list (rptr * nat)) : list (rptr * nat) * bool :=
  match l with
  | [] => ([(r, 1)], true)
  | (k, c) :: t =>
    if rule_less k r then let (t', b) := rules_incr r t in ((k, c) :: t', b)
    else if rule_less r k then ((r, 1) :: l, true)
    else ((k, S c) :: t, S c =? 1)
  end.

(** domain.cpp:421-428: find, decrement, erase at zero. The result also says whether the rule was erased.
    The assert of line 423 is modelled. *)
Fixpoint rules_decr (r : rptr) (l : list (rptr * nat)) : res (list (rptr * nat) * bool) :=
  match l with
  | [] => Ok ([], false)
  | (k, c) :: t =>
    if rule_less k r then do x <- rules_decr r t; Ok ((k, c) :: fst x, snd x)
    else if rule_less r k then Ok (l, false)
    else match c with
    | O => Ub UbAssert
    | S O => Ok (t, true)
    | S c' => Ok ((k, c') :: t, false)
    end
  end.

(** domain.cpp:466-471: one application of all rules in order. A rule without function cannot be in
    the map (line 406). *)
Fixpoint apply_pass (lk : rview) (rules : list (rptr * nat)) (l : list mptr) : res (list mptr) :=
  match rules with
  | [] => Ok l
  | (r, _) :: t =>
    match r_apply (e_rule E r) with
    | None => Ub UbNull
    | Some f =>
      match f lk l with
      | RuleErr e => Throw (ERuleUser e)
      | RuleOk l' => apply_pass lk t l'
      end
    end
  end.

(** domain.cpp:449 *)
Definition max_dependency_depth : nat := 5.

(** domain.cpp:464-486, the loop. [orig] is original_query, [last] is last_result, [cur] is nt_mixins.
    Returns the query to be stored and the resulting mixins. *)
Fixpoint rules_loop (fuel i : nat) (lk : rview) (rules : list (rptr * nat)) (orig last cur : list mptr)
  : res (list mptr * list mptr) :=
  match fuel with
  | O => Ub UbModel
  | S fuel' =>
    do cur' <- apply_pass lk rules cur;
    if list_eqb last cur' then Ok (if i =? 0 then last else orig, cur')
    else if (i =? max_dependency_depth) || (i =? length rules) then Throw ECyclicRules
    else rules_loop fuel' (S i) lk rules (if i =? 0 then last else orig) cur' cur'
  end.

(** domain.cpp:438-487 apply_mutation_rules_l *)
Definition apply_rules (lk : rview) (rules : list (rptr * nat)) (mixins : list mptr)
  : res (list mptr * list mptr) :=
  rules_loop (S max_dependency_depth) 0 lk rules []
    mixins
    (filter (fun m => negb (m_dependency (e_mixin E m))) mixins).

(** ** Rules shipped with the library *)

(** code/dynamix/common_mutation_rules.hpp:15-21 apply_basic_mixin_dep, used by attaches_to and also_adds *)
Definition rule_basic_dep (primary dependent : mptr) : rview -> list mptr -> rule_res :=
  fun _ l => RuleOk (if tm_has primary l then tm_add_if_lacking dependent l else l).

(** v1compat/code/dynamix/v1compat/mutation_rules.cpp:70-75 *)
Definition rule_v1_oneshot (master : mptr) (infos : list mptr) : rview -> list mptr -> rule_res :=
  fun _ l => RuleOk (if tm_has master l then fold_left (fun acc i => tm_add_if_lacking i acc) infos l else l).

(** v1compat/code/dynamix/v1compat/mutation_rules.cpp:77-83; the thrown error is [RuleErr] *)
Definition rule_v1_dep (master : mptr) (infos : list mptr) : rview -> list mptr -> rule_res :=
  fun _ l =>
    if tm_has master l then
      fold_left (fun acc i =>
        match acc with
        | RuleErr e => RuleErr e
        | RuleOk a => if m_dependency (e_mixin E i) then RuleOk (tm_add_if_lacking i a) else RuleErr (-1)
        end) infos (RuleOk l)
    else RuleOk l.

(** v1compat/code/dynamix/v1compat/mutation_rules.cpp:90-96: erase_all_if with the stateful predicate,
    evaluated once per element from front to back *)
Fixpoint mutex_erase (infos : list mptr) (found : bool) (l : list mptr) : list mptr :=
  match l with
  | [] => []
  | x :: r =>
    if memb x infos then (if found then mutex_erase infos true r else x :: mutex_erase infos true r)
    else x :: mutex_erase infos found r
  end.
(** v1compat/code/dynamix/v1compat/mutation_rules.cpp:85-98 mutually_exclusive_mixins *)
Definition rule_v1_mutex (infos : list mptr) : rview -> list mptr -> rule_res :=
  fun _ l => RuleOk (rev (mutex_erase infos false (rev l))).

(** v1compat/code/dynamix/v1compat/common_mutation_rules.hpp:50-56 deprecated_mixin *)
Definition rule_v1_deprecated (m : mptr) : rview -> list mptr -> rule_res :=
  fun _ l => RuleOk (fst (tm_remove m l)).
(** v1compat/code/dynamix/v1compat/common_mutation_rules.hpp:58-64 mandatory_mixin *)
Definition rule_v1_mandatory (m : mptr) : rview -> list mptr -> rule_res :=
  fun _ l => RuleOk (tm_add_if_lacking m l).
(** v1compat/code/dynamix/v1compat/common_mutation_rules.hpp:66-74 substitute_mixin *)
Definition rule_v1_substitute (src tgt : mptr) : rview -> list mptr -> rule_res :=
  fun _ l => RuleOk (if tm_has src l then tm_add tgt (fst (tm_remove src l)) else l).

End Rules.
