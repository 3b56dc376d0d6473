(** Specification of the registries by the history of calls. Nothing here refers to the state of the model. *)
From Coq Require Import List Arith ZArith NArith Bool.
From Verif Require Import Base Sv Info Domain.
Import ListNotations.

(** One call with its outcome. *)
Notation call := (dop * res (option tref))%type.

(** Where each mixin is registered after a history: the last successful register_mixin which was not
    followed by a successful unregister_mixin. *)
Definition mixin_step (cur : mptr -> option dptr) (c : call) : mptr -> option dptr :=
  match c with
  | (DRegMixin d m, Ok _) => fun x => if x =? m then Some d else cur x
  | (DUnregMixin _ m, Ok _) => fun x => if x =? m then None else cur x
  | _ => cur
  end.
Definition mixin_registered (tr : trace) : mptr -> option dptr := fold_left mixin_step tr (fun _ => None).

(** The same for features. register_mixin registers the features of the mixin that are not registered yet
    before it registers the mixin; when it throws, it did so for the first features of the list. *)
Definition add_features (cur : fptr -> option dptr) (d : dptr) (fs : list fptr) : fptr -> option dptr :=
  fun f => match cur f with Some x => Some x | None => if memb f fs then Some d else None end.
Inductive features_registered (E : env) : trace -> (fptr -> option dptr) -> Prop :=
| fr_nil : features_registered E [] (fun _ => None)
| fr_reg tr cur d f x : features_registered E tr cur ->
    features_registered E (tr ++ [(DRegFeature d f, Ok x)]) (fun y => if y =? f then Some d else cur y)
| fr_unreg tr cur d f x : features_registered E tr cur ->
    features_registered E (tr ++ [(DUnregFeature d f, Ok x)]) (fun y => if y =? f then None else cur y)
| fr_mixin tr cur d m x : features_registered E tr cur ->
    features_registered E (tr ++ [(DRegMixin d m, Ok x)]) (add_features cur d (map ff_info (m_features (e_mixin E m))))
| fr_mixin_throw tr cur d m e n : features_registered E tr cur ->
    features_registered E (tr ++ [(DRegMixin d m, Throw e)]) (add_features cur d (firstn n (map ff_info (m_features (e_mixin E m)))))
| fr_other tr cur o r : features_registered E tr cur ->
    (forall d f x, (o, r) <> (DRegFeature d f, Ok x)) -> (forall d f x, (o, r) <> (DUnregFeature d f, Ok x)) ->
    (forall d m, o <> DRegMixin d m) ->
    features_registered E (tr ++ [(o, r)]) cur.

(** Which type classes are registered in a domain. *)
Definition tc_step (d : dptr) (cur : cptr -> bool) (c : call) : cptr -> bool :=
  match c with
  | (DRegTc d' x, Ok _) => if d' =? d then fun y => if y =? x then true else cur y else cur
  | (DUnregTc d' x, Ok _) => if d' =? d then fun y => if y =? x then false else cur y else cur
  | _ => cur
  end.
Definition tc_registered (tr : trace) (d : dptr) : cptr -> bool := fold_left (tc_step d) tr (fun _ => false).

(** How many times a rule counts in a domain: additions minus removals, never below zero.
    The canonicalize rule is there once from the start. *)
Definition rule_step (d : dptr) (cur : rptr -> nat) (c : call) : rptr -> nat :=
  match c with
  | (DAddRule d' x, Ok _) => if d' =? d then fun y => if y =? x then S (cur y) else cur y else cur
  | (DRemRule d' x, Ok _) => if d' =? d then fun y => if y =? x then pred (cur y) else cur y else cur
  | _ => cur
  end.
Definition rule_count (E : env) (tr : trace) (d : dptr) : rptr -> nat :=
  fold_left (rule_step d) tr
    (fun y => if s_canonicalize (e_settings E d) && (y =? e_canon E d) then 1 else 0).

(** Runs in which the program respects a further condition on its calls. *)
Inductive run_where (E : env) (ok : world -> dop -> Prop) : trace -> world -> Prop :=
| rw_nil : run_where E ok [] (init_world E)
| rw_snoc tr w o r w' : run_where E ok tr w -> ok w o -> dstep E w o = (w', r) -> ~ is_ub r ->
    run_where E ok (tr ++ [(o, r)]) w'.

(** The contract of unregister_feature (domain.cpp:249-259): no registered mixin has the feature. *)
Definition features_kept (E : env) (w : world) (o : dop) : Prop :=
  match o with
  | DUnregFeature _ f => forall m d, w_mdom w m = Some d -> ~ In f (map ff_info (m_features (e_mixin E m)))
  | _ => True
  end.
