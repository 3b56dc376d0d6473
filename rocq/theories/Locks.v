(** The locks of domains: code/dynamix/domain.cpp.
    Every domain has two shared mutexes: of the type registry (line 169) and of the element registry (line 99).
    Locks are scoped objects, so they are released in the opposite order, also when an exception is thrown.
    Simplified: what is done between locking and unlocking is not part of this model. *)
From Coq Require Import List Arith Bool.
From Verif Require Import Base Info.
Import ListNotations.

Inductive lk := LT (d : dptr) | LE (d : dptr).     (* m_type_registry, m_element_registry *)
Inductive mode := Sh | Un.                          (* shared_lock, unique_lock *)
Inductive instr := Acq (l : lk) (m : mode) | Rel (l : lk) (m : mode).

(** A scope with a lock *)
Definition with_lock (l : lk) (m : mode) (body : list instr) : list instr := Acq l m :: body ++ [Rel l m].

(** Rules look up mixins and features by name in domains (domain.cpp:388-402), from apply_mutation_rules_l, line 505. *)
Definition rule_lookups (ds : list dptr) : list instr := flat_map (fun d => with_lock (LE d) Sh []) ds.

(** domain.cpp:489-531 get_type(mutation): the shared lock of line 497, under which rules look things up; then nothing, or the unique
    lock of line 525 or 818. *)
Definition lookup_locks (d : dptr) (ds : list dptr) (store : bool) : list instr :=
  with_lock (LT d) Sh (rule_lookups ds) ++ if store then with_lock (LT d) Un [] else [].

(** What a call locks *)
Inductive call_locks : list instr -> Prop :=
| cl_elements d : call_locks (with_lock (LE d) Un [])        (* register_feature 246, unregister_feature 261, register_mixin 266, type classes 341, 363 *)
| cl_unregister_mixin d : call_locks (with_lock (LT d) Un [] ++ with_lock (LE d) Un [])     (* 289, 325 *)
| cl_getter d : call_locks (with_lock (LE d) Sh [])          (* get_mixin_info, get_feature_info, get_type_class 388-402 *)
| cl_types d : call_locks (with_lock (LT d) Un [])           (* add_mutation_rule 408, remove_mutation_rule 420, garbage_collect_types 839 *)
| cl_num d : call_locks (with_lock (LT d) Sh [])             (* num_types 989, num_type_queries 998, num_mutation_rules 1002 *)
| cl_foreign : call_locks []                                 (* get_type(mutation) of another domain 490 *)
| cl_get_type_mut d ds store : call_locks (lookup_locks d ds store)      (* get_type(mutation) 489-531 *)
| cl_get_type_stored d : call_locks (with_lock (LT d) Sh [])             (* get_type(mixins) 536 *)
| cl_get_type d ds store : call_locks (with_lock (LT d) Sh [] ++ lookup_locks d ds store)  (* 536, then as above *)
| cl_traverse d : call_locks (with_lock (LT d) Sh (with_lock (LE d) Sh [])).               (* domain_traverse 869-877; dbg_dmp.cpp:286 *)

(** dbg_dmp.cpp:116-188: dbg_dmp of a domain asks for num_mutation_rules (181, if the rules are dumped) and num_types (188, if the types are
    dumped) while it holds the locks of a domain_traverse (117). *)
Definition dump_locks (d : dptr) (rules types : bool) : list instr :=
  with_lock (LT d) Sh (with_lock (LE d) Sh
    ((if rules then with_lock (LT d) Sh [] else []) ++ (if types then with_lock (LT d) Sh [] else []))).

(** A thread: what it still does, and the locks it holds, the last one first *)
Record lthread := { l_prog : list instr; l_held : list (lk * mode) }.

Definition lk_eqb (a b : lk) : bool :=
  match a, b with LT x, LT y => x =? y | LE x, LE y => x =? y | _, _ => false end.

(** May [m] be locked while [m'] is? *)
Definition both_shared (m m' : mode) : Prop := m = Sh /\ m' = Sh.

(** std::shared_mutex: a lock can be taken when nobody, including the thread itself, has an incompatible one. The standard does not say
    whether readers have to wait for a writer that waits; [pref]: they do. *)
Definition can_acquire (pref : bool) (ts : list lthread) (l : lk) (m : mode) : Prop :=
  (forall t m', In t ts -> In (l, m') (l_held t) -> both_shared m m') /\
  (pref = true -> m = Sh -> forall t p, In t ts -> l_prog t <> Acq l Un :: p).

(** One step of one thread *)
Inductive lstep (pref : bool) (ts : list lthread) : list lthread -> Prop :=
| ls_acq i l m p h : nth_error ts i = Some {| l_prog := Acq l m :: p; l_held := h |} -> can_acquire pref ts l m ->
    lstep pref ts (set_nth i {| l_prog := p; l_held := (l, m) :: h |} ts)
| ls_rel i l m p h : nth_error ts i = Some {| l_prog := Rel l m :: p; l_held := (l, m) :: h |} ->
    lstep pref ts (set_nth i {| l_prog := p; l_held := h |} ts).

Inductive lsteps (pref : bool) : list lthread -> list lthread -> Prop :=
| lss_nil ts : lsteps pref ts ts
| lss_snoc a b c : lsteps pref a b -> lstep pref b c -> lsteps pref a c.

(** Threads at the beginning: each makes a number of calls. *)
Definition starts (calls : list instr -> Prop) (ts : list lthread) : Prop :=
  forall t, In t ts -> l_held t = [] /\ exists cs, Forall calls cs /\ l_prog t = concat cs.
Definition finished (ts : list lthread) : Prop := forall t, In t ts -> l_prog t = [] /\ l_held t = [].
