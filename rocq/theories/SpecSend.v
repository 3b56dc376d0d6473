(** Specification: messages to objects. *)
From Coq Require Import List Arith ZArith NArith Bool Permutation Sorted.
From Verif Require Import Base Sv Info TypeBuild TypeQuery Msg Domain SpecReg SpecMsg Heap Mutation Object SpecObj SpecMut SpecAct.
Import ListNotations.

(** Histories in which features are unregistered only when no registered mixin has them *)
Definition kept_history (E : env) (U : user) (tr : otrace) (s : st) : Prop :=
  orun E U (fun s op => fair E s op /\ forall d, op = ODom d -> features_kept E (s_w s) d) tr s.
(** The calls of domains that the program makes, in order, and their outcomes *)
Definition domain_calls (tr : otrace) : list (dop * res unit) := flat_map (fun x => match fst x with ODom op => [(op, snd x)] | _ => [] end) tr.
Definition came_out {A} (r : res A) : res unit := match r with Ok _ => Ok tt | Throw e => Throw e | Ub u => Ub u end.
Definition outcomes (dtr : trace) : list (dop * res unit) := map (fun x => (fst x, came_out (snd x))) dtr.
(** Calls of domains that objects make: a type for a mutation, and one object more or less of a type *)
Definition by_object (op : dop) : Prop := match op with DGetTypeMut _ _ _ _ | DNewObj _ | DDelObj _ => True | _ => False end.
(** [l] are the calls [own] with calls [P] in between. *)
Inductive mixed {A} (P : A -> Prop) : list A -> list A -> Prop :=
| mixed_nil : mixed P [] []
| mixed_own x own l : mixed P own l -> mixed P (own ++ [x]) (l ++ [x])
| mixed_other x own l : P x -> mixed P own l -> mixed P own (l ++ [x]).
(** What is registered is the same, and types are the same but for the number of their objects. There may be new types. *)
Record registries_kept (w w' : world) : Prop := {
  rk_ids : forall m, w_mid w' m = w_mid w m;
  rk_mdom : forall m, w_mdom w' m = w_mdom w m;
  rk_fids : forall f, w_fid w' f = w_fid w f;
  rk_mixins : forall d, d_mixins (w_dom w' d) = d_mixins (w_dom w d);
  rk_features : forall d, d_features (w_dom w' d) = d_features (w_dom w d);
  rk_classes : forall d, d_tcs (w_dom w' d) = d_tcs (w_dom w d);
  rk_rules : forall d, d_rules (w_dom w' d) = d_rules (w_dom w d);
  rk_types : forall r t, w_type w r = Some t -> exists n, w_type w' r = Some (set_nobj t n)
}.

(** All functions in the mixin infos can be called with their mixins. *)
Definition payloads_fit (E : env) (accepts : nat -> mptr -> bool) : Prop :=
  forall m x, In x (m_features (e_mixin E m)) -> accepts (ff_payload x) m = true.

(** A message executes some listings of features (of mixins of an object, by index): it calls their functions one after the
    other, each with the mixin of the object that lists it, until one throws. *)
Inductive carried_out (E : env) (U : user) (o : nat) : list (nat * ffm) -> st -> st -> res unit -> Prop :=
| co_done s : carried_out E U o [] s s (Ok tt)
| co_next x l s s1 s2 r : fair E s (OUse o (fst x) (ff_payload (snd x))) -> op_run E U (OUse o (fst x) (ff_payload (snd x))) s = (s1, Ok tt) ->
    carried_out E U o l s1 s2 r -> carried_out E U o (x :: l) s s2 r
| co_throw x l s s1 e : fair E s (OUse o (fst x) (ff_payload (snd x))) -> op_run E U (OUse o (fst x) (ff_payload (snd x))) s = (s1, Throw e) ->
    carried_out E U o (x :: l) s s1 (Throw e).
(** The call of the function of listing [x] with the mixin at its index *)
Definition calls_listing (s : st) (o : nat) (x : nat * ffm) (e : ev) : Prop :=
  exists m p v err, holds s o (fst x) m p v /\ e = EvCall (FUpdate (ff_payload (snd x))) m p None err.
Definition failed (e : ev) : bool := match e with EvCall _ _ _ _ err => negb (err =? 0)%Z | _ => false end.
(** Only values of the mixins with these indices of object [o] may be different. *)
Record only_at (s s' : st) (o : nat) (is : list nat) : Prop := {
  oa_objects : forall q, s_obj s' q = s_obj s q;
  oa_types : types_kept s s';
  oa_memory : forall b, allocation s' b = allocation s b;
  oa_data : forall b i, data_slot s' b i = data_slot s b i;
  oa_back : forall q, object_of s' q = object_of s q;
  oa_kind : forall q, option_map i_mixin (instance s' q) = option_map i_mixin (instance s q);
  oa_other : forall q, (forall i m v, In i is -> ~ holds s o i m q v) -> instance s' q = instance s q
}.
(** What carrying out the listings [l] does: the functions of the first of them are called, in order; all of them if none
    fails. The first that fails ends it, and its error is the exception. Nothing but their mixins is changed. *)
Record delivered (s s' : st) (o : nat) (l : list (nat * ffm)) (res : res unit) : Prop := {
  dl_calls : exists evs, did s s' evs /\ Forall2 (calls_listing s o) (firstn (length evs) l) evs /\
    ((res = Ok tt /\ length evs = length l /\ forall e, In e evs -> failed e = false) \/
     (exists before f m p src err, evs = before ++ [EvCall f m p src err] /\ err <> 0%Z /\ res = Throw (EUserFunc err) /\ forall e, In e before -> failed e = false));
  dl_only : only_at s s' o (map fst l)
}.
