(** Specification vocabulary for the type registry of a domain. Nothing here computes types. *)
From Coq Require Import List Arith ZArith NArith Bool.
From Verif Require Import Base Sv Info TypeBuild Domain.
Import ListNotations.

(** [r] is a type of domain [d] (its empty type or one of its registered types) and is [t]. *)
Definition has_type (w : world) (d : dptr) (r : tref) (t : type_rec) : Prop :=
  w_type w r = Some t /\ (r = TEmpty d \/ In r (d_types (w_dom w d))).

(** The same world, but domain [d] has forgotten all stored queries. *)
Definition forget_queries (w : world) (d : dptr) : world := {|
  w_mid := w_mid w; w_mdom := w_mdom w; w_fid := w_fid w;
  w_dom := fun x => if x =? d then
    {| d_features := d_features (w_dom w d); d_mixins := d_mixins (w_dom w d); d_tcs := d_tcs (w_dom w d);
       d_rules := d_rules (w_dom w d); d_types := d_types (w_dom w d); d_queries := [] |} else w_dom w x;
  w_type := w_type w; w_next := w_next w |}.

(** The rule functions do not look at the registries of the domain (only at the mixin list). *)
Definition rules_pure (E : env) : Prop :=
  forall r f, r_apply (e_rule E r) = Some f -> forall v v' l, f v l = f v' l.

(** Mixins are registered and unregistered only while no queries are stored. *)
Definition registered_first (w : world) (o : dop) : Prop :=
  match o with
  | DRegMixin _ _ | DUnregMixin _ _ => forall d, d_queries (w_dom w d) = []
  | _ => True
  end.

(** Everything in two worlds except the types and queries of one domain is the same. *)
Definition same_but_types (w w' : world) (d : dptr) : Prop :=
  w_fid w' = w_fid w /\
  (forall d2, d_features (w_dom w' d2) = d_features (w_dom w d2) /\ d_tcs (w_dom w' d2) = d_tcs (w_dom w d2) /\
     d_rules (w_dom w' d2) = d_rules (w_dom w d2)) /\
  (forall d2, d2 <> d -> d_types (w_dom w' d2) = d_types (w_dom w d2) /\ d_queries (w_dom w' d2) = d_queries (w_dom w d2)) /\
  (forall d2 r, d2 <> d -> In r (d_types (w_dom w d2)) -> w_type w' r = w_type w r) /\
  (forall d2, w_type w' (TEmpty d2) = w_type w (TEmpty d2)).
