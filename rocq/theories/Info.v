(** Constant attributes of the infos supplied by the user. *)
From Coq Require Import List Arith ZArith NArith Lia Bool.
From Verif Require Import Base Sv.
Import ListNotations.

(** code/dnmx/feature_for_mixin.h:16-25. The payload is an opaque number. *)
Record ffm := { ff_info : fptr; ff_payload : nat; ff_bid : Z; ff_prio : Z }.

(** code/dnmx/feature_info.h:17-40 without the id (see the world) and feature_class (unused). *)
Record feature_desc := {
  f_name : sv;
  f_allow_clashes : bool;
  f_default : option nat (* default_payload, null = None *)
}.

(** code/dnmx/mixin_info.h:37-152 without id and dom (see the world), mixin_class, type_info_class,
    user_data (unused by the library). Function pointers are represented by whether they are set;
    what they do is a parameter of the object model. *)
Record mixin_desc := {
  m_name : sv;
  m_size : N;
  m_align : N;
  m_buf_size : N;   (* obj_buf_size *)
  m_buf_off : N;    (* obj_buf_alignment_and_mixin_offset *)
  m_init : bool;
  m_copy_init : bool;
  m_move_init : bool;
  m_copy_asgn : bool;
  m_move_asgn : bool;
  m_destroy : bool;
  m_equals : bool;
  m_compare : bool;
  m_allocator : option nat;
  m_features : list ffm;
  m_order : Z;      (* order_priority *)
  m_force_external : bool;
  m_dependency : bool
}.

(** code/dnmx/mixin_info.h:139-141 external() *)
Definition external (m : mixin_desc) : bool :=
  negb (m_move_init m) || (match m_allocator m with Some _ => true | None => false end) || m_force_external m.

(** What a rule can see of the domain while it runs: domain::get_mixin_info(name) and the ids in the infos. *)
Definition lookup := list N -> option mptr.
Record rview := { rv_lookup : lookup; rv_id : mptr -> option nat }.

(** Result of a rule: the new mixin list, or an error (returned or thrown). *)
Inductive rule_res := RuleOk (l : list mptr) | RuleErr (e : Z).

(** code/dnmx/mutation_rule_info.h:18-38. The apply function together with its user_data is an
    arbitrary function of what is registered in the domain and of the mixins of the mutation. *)
Record rule_desc := {
  r_name : sv;
  r_apply : option (rview -> list mptr -> rule_res);
  r_prio : Z
}.

(** code/dnmx/type_class.h:11-17. The match function is an arbitrary function of the mixins of the type. *)
Record tc_desc := {
  c_name : sv;
  c_matches : option (list mptr -> bool)
}.

(** code/dnmx/domain_settings.h:9-31 *)
Record settings := {
  s_canonicalize : bool;
  s_dup_features : bool;
  s_dup_mixins : bool
}.

(** All constant data of the user: what is found at each address.
    The canonicalize rule of domain [d] (domain.cpp:174-179) is a member of the domain;
    [e_canon d] is its address. *)
Record env := {
  e_mixin : mptr -> mixin_desc;
  e_feature : fptr -> feature_desc;
  e_rule : rptr -> rule_desc;
  e_tc : cptr -> tc_desc;
  e_settings : dptr -> settings;
  e_canon : dptr -> rptr
}.

(** Comparison of ids as integers, the invalid id being the greatest (code/dnmx/bits/id_int_t.h). *)
Definition id_ltb (a b : option nat) : bool :=
  match a, b with
  | Some x, Some y => x <? y
  | Some _, None => true
  | None, _ => false
  end.

(** code/dnmx/mixin_info.h:164-174 dnmx_mixin_canonical_order *)
Definition canonical_less (E : env) (idf : mptr -> option nat) (a b : mptr) : bool :=
  let da := e_mixin E a in
  let db := e_mixin E b in
  if negb (Z.eqb (m_order da) (m_order db)) then Z.ltb (m_order da) (m_order db)
  else
    let c := sv_cmp (m_name da) (m_name db) in
    if negb (Z.eqb c 0) then Z.ltb c 0
    else if negb (opt_eqb (idf a) (idf b)) then id_ltb (idf a) (idf b)
    else a <? b.

(** code/dynamix/domain.cpp:54-58 sort_by_canonical_order *)
Definition rule_canonical (E : env) : rview -> list mptr -> rule_res :=
  fun v l => RuleOk (sort_by (canonical_less E (rv_id v)) l).

(** code/dynamix/domain.cpp:174-179: what the canonicalize rule of every domain contains.
    The name is the literal "canonicalize types"; the model only fixes that it is not empty. *)
Definition canon_ok (E : env) : Prop :=
  forall d,
    r_apply (e_rule E (e_canon E d)) = Some (rule_canonical E) /\
    r_prio (e_rule E (e_canon E d)) = 2147483647%Z /\
    sv_empty (r_name (e_rule E (e_canon E d))) = false.
