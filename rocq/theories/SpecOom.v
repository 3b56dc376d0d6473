(** Specification: what a call that ran out of memory may leave behind. *)
From Coq Require Import List Arith ZArith NArith Bool.
From Verif Require Import Base Sv Info TypeBuild Domain SpecDom Oom.
Import ListNotations.

(** The features of the mixin that was to be registered may be registered; a new type without objects may be there. All else is as before. *)
Definition left_behind (E : env) (w w' : world) (o : dop) : Prop :=
  w_mid w' = w_mid w /\ w_mdom w' = w_mdom w /\
  (forall d, d_mixins (w_dom w' d) = d_mixins (w_dom w d) /\ d_tcs (w_dom w' d) = d_tcs (w_dom w d) /\
     d_rules (w_dom w' d) = d_rules (w_dom w d) /\ d_queries (w_dom w' d) = d_queries (w_dom w d)) /\
  (forall d i f, get_feature_by_id w d (Some i) = Some f -> get_feature_by_id w' d (Some i) = Some f) /\
  (forall d i f, get_feature_by_id w' d (Some i) = Some f -> get_feature_by_id w d (Some i) = Some f \/
     (get_feature_by_id w d (Some i) = None /\ exists m, o = DRegMixin d m /\ In f (map ff_info (m_features (e_mixin E m))))) /\
  (forall d r t, has_type w d r t -> has_type w' d r t) /\
  (forall d r t, has_type w' d r t -> has_type w d r t \/
     (w_type w r = None /\ t_nobj t = 0 /\ exists q a, o = DGetType d q a \/ o = DGetTypeMut d d q a)).

(** The registries agree with the infos; there is one type for each list of mixins; types are made of registered mixins; stored queries lead to types. *)
Definition sound (w : world) : Prop :=
  (forall d i m, get_mixin_by_id w d (Some i) = Some m <-> w_mdom w m = Some d /\ w_mid w m = Some i) /\
  (forall d i f, get_feature_by_id w d (Some i) = Some f -> w_fid w f = Some i) /\
  (forall f i, w_fid w f = Some i -> exists d, get_feature_by_id w d (Some i) = Some f) /\
  (forall d r r' t t', has_type w d r t -> has_type w d r' t' -> (r = r' <-> t_mixins t = t_mixins t')) /\
  (forall d r t, has_type w d r t -> NoDup (t_mixins t) /\ forall m, In m (t_mixins t) -> w_mdom w m = Some d) /\
  (forall d q r, In (q, r) (d_queries (w_dom w d)) -> exists t, has_type w d r t).

(** Calls of [o], one after the other, that all ran out of memory *)

Inductive failed_attempts (E : env) : world -> dop -> world -> Prop :=
| fa_none w o : failed_attempts E w o w
| fa_one w o al w1 w2 : dstep_m E w o al = (w1, Throw EBadAlloc) -> failed_attempts E w1 o w2 -> failed_attempts E w o w2.
