(** domain_traverse (code/dynamix/domain.cpp:864-908) and the end of domains (914-917). *)
From Coq Require Import List Arith ZArith NArith Lia Bool.
From Verif Require Import Base Sv Info Registry TypeMut Rules TypeBuild TypeQuery Domain.
Import ListNotations.

(** The loops of domain.cpp:879-883, 884-888, 894-898 over a sparse array: null elements are skipped. *)
Fixpoint visit_sparse (s : list (option nat)) : list nat :=
  match s with
  | [] => []
  | Some x :: r => x :: visit_sparse r
  | None :: r => visit_sparse r
  end.
(** domain.cpp:879-908: the arguments that the callback is called with, in order. Simplified: types and queries in the order of their creation, not of the set. *)
Definition traverse_mixins (w : world) (d : dptr) : list mptr := visit_sparse (d_mixins (w_dom w d)).
Definition traverse_features (w : world) (d : dptr) : list fptr := visit_sparse (d_features (w_dom w d)).
Definition traverse_mutation_rules (w : world) (d : dptr) : list (rptr * nat) := d_rules (w_dom w d).
Definition traverse_type_classes (w : world) (d : dptr) : list cptr := visit_sparse (d_tcs (w_dom w d)).
Definition traverse_types (w : world) (d : dptr) : list tref := d_types (w_dom w d).
Definition traverse_type_queries (w : world) (d : dptr) : list (list mptr * tref) := d_queries (w_dom w d).

Section Life.
Variable E : env.

(** Domains that were destroyed; the world keeps for them the state of a domain that was just made, which nothing looks at. *)
Record lworld := { l_w : world; l_dead : dptr -> bool }.

(** The domain that a call is made on; for the counters of types (type.hpp, object.cpp) the one that owns the type. *)
Definition on_domain (w : world) (o : dop) : option dptr :=
  match o with
  | DRegFeature d _ | DUnregFeature d _ | DRegMixin d _ | DUnregMixin d _ | DRegTc d _ | DUnregTc d _ | DAddRule d _ | DRemRule d _
  | DGetType d _ _ | DGetTypeMut d _ _ _ | DGc d => Some d
  | DNewObj r | DDelObj r => match r with TEmpty d => Some d | TReg _ => option_map t_dom (w_type w r) end
  end.

(** domain.cpp:914-917 ~domain: deletes the impl, 78-190, which has no destructor of its own: the types and the registries are freed, no info is written.
    Objects that are alive would use a freed type from now on: undefined. *)
Definition destroy_domain (w : world) (d : dptr) : res world :=
  if existsb (fun r => negb (ref_nobj w r =? 0)) (TEmpty d :: d_types (w_dom w d)) then Ub UbDangling
  else Ok {| w_mid := w_mid w; w_mdom := w_mdom w; w_fid := w_fid w;
             w_dom := upd (w_dom w) d (init_dom E d); w_type := free_types (w_type w) (d_types (w_dom w d)); w_next := w_next w |}.

Inductive lop := LCall (o : dop) | LDestroy (d : dptr).
Definition lstep (l : lworld) (o : lop) : lworld * res (option tref) :=
  match o with
  | LCall c =>
    match on_domain (l_w l) c with
    | Some d =>
      if l_dead l d then (l, Ub UbDangling)
      else let (w', r) := dstep E (l_w l) c in ({| l_w := w'; l_dead := l_dead l |}, r)
    | None => (l, Ub UbDangling)
    end
  | LDestroy d =>
    if l_dead l d then (l, Ub UbDangling)
    else
      match destroy_domain (l_w l) d with
      | Ok w' => ({| l_w := w'; l_dead := upd (l_dead l) d true |}, Ok None)
      | Throw e => (l, Throw e)
      | Ub u => (l, Ub u)
      end
  end.
Definition l_init : lworld := {| l_w := init_world E; l_dead := fun _ => false |}.

(** Histories in which a condition holds for each call *)
Inductive lrun (ok : lworld -> lop -> Prop) (l0 : lworld) : list (lop * res (option tref)) -> lworld -> Prop :=
| lr_nil : lrun ok l0 [] l0
| lr_snoc tr l o l' r : lrun ok l0 tr l -> ok l o -> lstep l o = (l', r) -> ~ is_ub r -> lrun ok l0 (tr ++ [(o, r)]) l'.
End Life.
