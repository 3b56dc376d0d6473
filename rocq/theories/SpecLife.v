(** Specification: domains that end, and domains side by side. *)
From Coq Require Import List Arith ZArith NArith Bool.
From Verif Require Import Base Sv Info TypeBuild Domain SpecDom Life.
Import ListNotations.

(** No condition *)
Definition any_end (l : lworld) (o : lop) : Prop := True.
(** A domain is destroyed after all its mixins and features were unregistered. *)
Definition clean_end (l : lworld) (o : lop) : Prop :=
  match o with
  | LDestroy d => (forall i, get_mixin_by_id (l_w l) d i = None) /\ (forall i, get_feature_by_id (l_w l) d i = None)
  | _ => True
  end.
(** All that can be seen of domain [d] is the same: its registries, types, stored queries, and the ids of its mixins and features. *)
Definition domain_same (w w' : world) (d : dptr) : Prop :=
  d_mixins (w_dom w' d) = d_mixins (w_dom w d) /\ d_features (w_dom w' d) = d_features (w_dom w d) /\ d_tcs (w_dom w' d) = d_tcs (w_dom w d) /\
  d_rules (w_dom w' d) = d_rules (w_dom w d) /\ d_types (w_dom w' d) = d_types (w_dom w d) /\ d_queries (w_dom w' d) = d_queries (w_dom w d) /\
  (forall r t, has_type w d r t <-> has_type w' d r t) /\
  (forall m, w_mdom w m = Some d <-> w_mdom w' m = Some d) /\
  (forall m, w_mdom w m = Some d -> w_mid w' m = w_mid w m) /\
  (forall f i, get_feature_by_id w d (Some i) = Some f -> w_fid w' f = w_fid w f).
