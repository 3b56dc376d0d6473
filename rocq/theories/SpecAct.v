(** Specification vocabulary for creating, copying, moving and comparing objects *)
From Coq Require Import List Arith ZArith NArith Bool.
From Verif Require Import Base Sv Info TypeBuild TypeQuery Domain Heap Mutation Object SpecObj SpecMut.
Import ListNotations.

(** Object [o] was created, with allocator [a], type [r] and mixins made as [mk] says; [l] are the events. *)
Record created (E : env) (s s' : st) (o a : nat) (sl : bool) (r : option tref) (mk : makes) (l : list ev) : Prop := {
  cr_did : did s s' l;
  cr_obj : exists x, s_obj s' o = Some x /\ o_type x = r /\ o_alloc x = a /\ o_sealed x = sl;
  cr_type : forall q, r = Some q -> exists t, type_of s' o q t;
  (* every mixin was constructed, once, in new memory *)
  cr_new : forall i m, has_mixin s' o i m -> exists p v f src, holds s' o i m p v /\ allocation s (fst p) = None /\ mk i m f src /\ value_from s m src v /\
    calls m l = [EvCall f m p src 0%Z];
  (* nothing else was called *)
  cr_quiet : forall m, ~ has_some s' o m -> calls m l = [];
  (* other objects and their memory are not changed *)
  cr_objects : forall o', o' <> o -> s_obj s' o' = s_obj s o';
  cr_types : forall o' q t, o' <> o -> type_of s o' q t -> exists n, type_of s' o' q (set_nobj t n);
  cr_frame : forall b, allocation s b <> None -> same_block s s' b;
  (* all new memory belongs to the object *)
  cr_memory : forall b, allocation s' b <> None -> allocation s b <> None \/ owns E s' o b;
  cr_fresh : forall b, owns E s' o b -> allocation s b = None
}.

(** Object [o] was created without type and mixins; nothing else happened but for calls of functions of the program. *)
Record stillborn (s s' : st) (o : nat) : Prop := {
  sb_obj : exists x, s_obj s' o = Some x /\ o_type x = None /\ o_data x = None;
  sb_objects : forall o', o' <> o -> s_obj s' o' = s_obj s o';
  sb_types : forall o' q t, o' <> o -> type_of s o' q t -> type_of s' o' q t;
  sb_memory : forall b, same_block s s' b
}.

(** Object [o] has now what object [src] had: type, sealing, and the very same mixins; [src] is empty. What [o] owned
    before was freed, and all other memory and objects are as before. *)
Record took (E : env) (s s' : st) (o src : nat) : Prop := {
  tk_obj : forall y, s_obj s src = Some y -> exists x, s_obj s' o = Some x /\ o_type x = o_type y /\ o_sealed x = o_sealed y /\ o_alloc x = o_alloc y;
  tk_type : forall q t, type_of s src q t -> exists n, type_of s' o q (set_nobj t n);
  tk_holds : forall i m p v, holds s' o i m p v <-> holds s src i m p v;
  tk_source : forall y d, s_obj s src = Some y -> object_domain s src d -> s_obj s' src = Some {| o_type := Some (TEmpty d); o_data := None; o_alloc := o_alloc y; o_sealed := o_sealed y |};
  tk_objects : forall o', o' <> o -> o' <> src -> s_obj s' o' = s_obj s o';
  tk_others : forall o' i m p v, o' <> o -> o' <> src -> (holds s' o' i m p v <-> holds s o' i m p v);
  tk_freed : forall b, owns E s o b -> allocation s' b = None;
  tk_memory : forall b, ~ owns E s o b -> allocation s' b = allocation s b /\ forall q, instance s' (b, q) = instance s (b, q)
}.

(** The functions called in [l] are the destroy functions of the mixins of object [o]. *)
Definition only_destroys (E : env) (s : st) (o : nat) (l : list ev) : Prop :=
  (forall i m p v, holds s o i m p v -> calls m l = destruction E m p) /\ (forall m, ~ has_some s o m -> calls m l = []).

(** Object [o] has no mixins, and its type is the empty type of domain [d]. *)
Definition is_emptied (s : st) (o : nat) (d : dptr) : Prop := exists x, s_obj s o = Some x /\ o_type x = Some (TEmpty d) /\ o_data x = None.

(** The calls that change the type of an existing object *)
Definition retypes (op : oop) : option nat :=
  match op with
  | OClear o | OReset _ o _ | OMutateTo _ o _ _ | OMutate _ _ o _ | OGradual _ _ o _ | OCMutateTo _ o _ _ | OCMutate _ _ o _ | OPiecewise _ o _ _
  | OCopyFrom _ o _ | OMoveAssign o _ => Some o
  | _ => None
  end.
Definition sealed (s : st) (o : nat) : Prop := exists x, s_obj s o = Some x /\ o_sealed x = true.
(** Calls on [o] that have nothing to do: the object has the type already, or is moved to itself, or the calls of a
    gradual mutation are given up because an exception is in flight. *)
Definition nothing_to_do (E : env) (s : st) (op : oop) : Prop :=
  match op with
  | OMutateTo _ o r ops => ops <> [] /\ exists t, type_of s o r t
  | OMutate _ _ o _ => exists r t, aims_at E s op r /\ type_of s o r t
  | OMoveAssign o src => o = src
  | OGradual unw _ _ _ => unw = true
  | _ => False
  end.

(** [r] is the type that a mutation is to give its object, with the record [t]: the type that was named, or the one that
    the domain gives for the changed list of mixins. *)
Definition changed_to (E : env) (s : st) (o : nat) (aok : bool) (f : lookup -> list mptr -> res (list mptr)) (r : tref) (t : type_rec) : Prop :=
  exists q t0 l w, type_of s o q t0 /\ f (get_mixin_by_name E (s_w s) (t_dom t0)) (t_mixins t0) = Ok l /\
    get_type_mut E aok (s_w s) (t_dom t0) (t_dom t0) l = (w, Ok r) /\ w_type w r = Some t.
Definition wanted (E : env) (s : st) (op : oop) (r : tref) (t : type_rec) : Prop :=
  match op with
  | OReset _ _ q | OMutateTo _ _ q _ | OCMutateTo _ _ q _ | OPiecewise _ _ q _ => r = q /\ w_type (s_w s) r = Some t
  | OMutate _ aok o ops => changed_to E s o aok (fun lk => apply_mutops E lk ops) r t
  | OGradual _ aok o ops => changed_to E s o aok (fun lk => apply_gops E lk ops) r t
  | OCMutate _ aok o cs => changed_to E s o aok (fun lk => apply_cops E lk cs) r t
  | _ => False
  end.

(** Are the values [v] and [w] of mixin [m] equal? *)
Definition val_eq (E : env) (U : user) (m : mptr) (v w : Z) : Prop :=
  if m_equals (e_mixin E m) then u_equals U m v w = true else m_compare (e_mixin E m) = true /\ u_compare U m v w = 0%Z.
(** Objects that have the same values *)
Definition same_values (E : env) (U : user) (s : st) (o o' : nat) : Prop :=
  forall i m p v q w, holds s o i m p v -> holds s o' i m q w -> val_eq E U m v w.
Definition otype (s : st) (o : nat) : option tref := match s_obj s o with Some x => o_type x | None => None end.
(** All mixins of the object can be tested for equality, or compared. *)
Definition can_equal (E : env) (s : st) (o : nat) : Prop := forall m, has_some s o m -> m_equals (e_mixin E m) = true \/ m_compare (e_mixin E m) = true.
Definition can_compare (E : env) (s : st) (o : nat) : Prop := forall m, has_some s o m -> m_compare (e_mixin E m) = true.

(** Both objects have mixin [m]: [o] at [p] with value [v], and [src] at [q] with value [w]. *)
Definition shares (s : st) (o src : nat) (m : mptr) (p q : addr) (v w : Z) : Prop :=
  exists i j, holds s o i m p v /\ holds s src j m q w.
(** Objects, types and memory are as before, and so are all mixins but those that the two objects share: those of [o]
    can have other values and, if [both], also those of [src]. *)
Record only_shared (s s' : st) (o src : nat) (both : bool) : Prop := {
  os_objects : forall o', s_obj s' o' = s_obj s o';
  os_types : types_kept s s';
  os_memory : forall b, allocation s' b = allocation s b;
  os_data : forall b i, data_slot s' b i = data_slot s b i;
  os_back : forall p, object_of s' p = object_of s p;
  os_kind : forall p, option_map i_mixin (instance s' p) = option_map i_mixin (instance s p);
  os_other : forall p, (forall m q v w, ~ shares s o src m p q v w) -> (both = true -> forall m p' v w, ~ shares s o src m p' p v w) -> instance s' p = instance s p
}.
(** The same for one mixin: only the one at address [p] can have another value. *)
Record only_mixin (s s' : st) (p : addr) : Prop := {
  omx_objects : forall o, s_obj s' o = s_obj s o;
  omx_types : types_kept s s';
  omx_memory : forall b, allocation s' b = allocation s b;
  omx_data : forall b i, data_slot s' b i = data_slot s b i;
  omx_back : forall q, object_of s' q = object_of s q;
  omx_kind : forall q, option_map i_mixin (instance s' q) = option_map i_mixin (instance s q);
  omx_other : forall q, q <> p -> instance s' q = instance s q
}.
(** A mixin is moved by its move assignment or else, if that is allowed, by destroying it and constructing it from the
    other. *)
Definition moving (E : env) (m : mptr) (p q : addr) : list ev :=
  if m_move_asgn (e_mixin E m) then [EvCall FMoveAsgn m p (Some q) 0%Z] else destruction E m p ++ [EvCall FMoveInit m p (Some q) 0%Z].

(** The comparison functions of the mixins are orders. *)
Definition user_orders (E : env) (U : user) : Prop :=
  forall m, m_compare (e_mixin E m) = true -> forall v w z, Z.sgn (u_compare U m w v) = (- Z.sgn (u_compare U m v w))%Z /\
    ((u_compare U m v w <= 0)%Z -> (u_compare U m w z <= 0)%Z -> (u_compare U m v z <= 0)%Z).
(** Equality of the values of a mixin is an equivalence. *)
Definition user_equalities (E : env) (U : user) : Prop :=
  forall m, m_equals (e_mixin E m) = true \/ m_compare (e_mixin E m) = true ->
    forall v w z, val_eq E U m v v /\ (val_eq E U m v w -> val_eq E U m w v) /\ (val_eq E U m v w -> val_eq E U m w z -> val_eq E U m v z).
(** Mixins that have both functions agree on equality. *)
Definition user_agrees (E : env) (U : user) : Prop :=
  forall m v w, m_equals (e_mixin E m) = true -> m_compare (e_mixin E m) = true -> (u_equals U m v w = true <-> u_compare U m v w = 0%Z).

(** ** Piecewise mutation: update_at for each index of a list *)
Definition at_calls (l : list (nat * nat)) : list pstep := map (fun ik => PAt (fst ik) (snd ik)) l.
(** Each index is greater than those before, and all are less than [n]. *)
Fixpoint increasing (from n : nat) (l : list (nat * nat)) : Prop :=
  match l with [] => True | (i, _) :: r => from <= i < n /\ increasing (S i) n r end.
(** New mixins with an index of the list are made by its function, the others by their init function. *)
Definition made_at (E : env) (l : list (nat * nat)) : makes := fun i m f src =>
  src = None /\ ((exists k, In (i, k) l /\ f = FOverride k) \/ ((forall k, ~ In (i, k) l) /\ f = FInit /\ m_init (e_mixin E m) = true)).
Definition updated_at (l : list (nat * nat)) : updates := fun i m c =>
  (exists k, In (i, k) l /\ c = Some (FUpdate k, None)) \/ ((forall k, ~ In (i, k) l) /\ c = None).
(** What can be called when the mutation fails *)
Definition maybe_made_at (E : env) (l : list (nat * nat)) : makes := fun i m f src =>
  src = None /\ ((exists k, In (i, k) l /\ f = FOverride k) \/ f = FInit).
Definition maybe_updated_at (l : list (nat * nat)) : updates := fun i m c => c = None \/ exists k, In (i, k) l /\ c = Some (FUpdate k, None).

(** The objects that a call may change: all but the sources of copies *)
Definition may_change (op : oop) : list nat :=
  match op with
  | OEmpty o _ _ | ONew _ o _ _ _ | ODtor o | OClear o | OSeal o | OCopy _ o _ _ | OCopyFrom _ o _ | OCopyMatching o _
  | OReset _ o _ | OMutateTo _ o _ _ | OMutate _ _ o _ | OGradual _ _ o _ | OCMutateTo _ o _ _ | OCMutate _ _ o _ | OPiecewise _ o _ _ | OUse o _ _ => [o]
  | OMoved o src | OMoveAssign o src | OMoveMatching _ o src => [o; src]
  | ODom _ => []
  end.

(** The calls of functions given by the caller to construct mixin [m], and to update it *)
Definition is_override (m : mptr) (e : ev) : bool := match e with EvCall (FOverride _) x _ _ _ => x =? m | _ => false end.
Definition is_update (m : mptr) (e : ev) : bool := match e with EvCall (FUpdate _) x _ _ _ => x =? m | _ => false end.
