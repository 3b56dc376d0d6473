(** Specification: objects as lists of mixins with values. What a program sees of an object are its sealing, and the
    mixins of its type with their values; there is no memory, no allocator and no order of calls here. *)
From Coq Require Import List Arith ZArith NArith Bool.
From Verif Require Import Base Sv Info TypeBuild TypeQuery Domain Heap Mutation Object SpecObj SpecMut SpecAct.
Import ListNotations.

(** An object: sealed or not, and its mixins with their values in the order of the type; [None] is an object without
    type (one that was constructed while an exception was in flight). *)
Record view := { v_sealed : bool; v_mixins : option (list (mptr * Z)) }.
(** The mixin at index [i]: what get_at gives is asked for its kind and value. *)
Definition value_at (s : st) (o i : nat) : option (mptr * Z) :=
  match get_at s o i with
  | Ok (Some p) => match instance s p with Some k => Some (i_mixin k, i_val k) | None => None end
  | _ => None
  end.
Fixpoint values (s : st) (o i n : nat) : list (mptr * Z) :=
  match n with
  | 0 => []
  | S n => match value_at s o i with Some x => x :: values s o (S i) n | None => values s o (S i) n end
  end.
Definition look (s : st) (o : nat) : option view :=
  match s_obj s o with
  | None => None
  | Some x => Some {| v_sealed := o_sealed x;
      v_mixins := match o_type x with
        | None => None
        | Some r => match w_type (s_w s) r with None => None | Some t => Some (values s o 0 (length (t_mixins t))) end
        end |}
  end.

(** ** What happens to lists of mixins *)
Definition mixins (l : list (mptr * Z)) : list mptr := map fst l.
Fixpoint val_of (m : mptr) (l : list (mptr * Z)) : option Z :=
  match l with [] => None | (x, v) :: r => if x =? m then Some v else val_of m r end.
(** The mixins of [l], with the values of [src] where [src] has the mixin too *)
Definition overwrite (l src : list (mptr * Z)) : list (mptr * Z) :=
  map (fun x => match val_of (fst x) src with Some v => (fst x, v) | None => x end) l.
(** The mixins of [l] and [l'] are the same, and so are the values of all mixins without [P]. *)
Definition but_values (P : mptr -> Prop) (l l' : list (mptr * Z)) : Prop :=
  mixins l' = mixins l /\ forall m, ~ P m -> val_of m l' = val_of m l.
(** The mixins are now [ms]; those of them that were there before have the same values as before, but for those with
    [P]. *)
Definition changed_mixins (P : mptr -> Prop) (ms : list mptr) (l l' : list (mptr * Z)) : Prop :=
  mixins l' = ms /\ forall m v, In m ms -> ~ P m -> val_of m l = Some v -> val_of m l' = Some v.

Definition views := nat -> option view.
Definition is_view (V : views) (o : nat) (sl : bool) (l : list (mptr * Z)) : Prop := V o = Some {| v_sealed := sl; v_mixins := Some l |}.
Definition untyped (V : views) (o : nat) : Prop := exists sl, V o = Some {| v_sealed := sl; v_mixins := None |}.
(** The values of object [o] are as before, but for those of mixins with [P]. *)
Definition only_values (P : mptr -> Prop) (V V' : views) (o : nat) : Prop :=
  exists sl l l', is_view V o sl l /\ is_view V' o sl l' /\ but_values P l l'.
(** object [o] has mixin [m] *)
Definition sees (V : views) (o : nat) (m : mptr) : Prop := exists sl l, is_view V o sl l /\ In m (mixins l).
(** its mixin at index [i] is [m] *)
Definition sees_at (V : views) (o i : nat) (m : mptr) : Prop := exists sl l, is_view V o sl l /\ nth_error (mixins l) i = Some m.

(** The mixins on which a mutation calls functions given by the caller, if the object has them already: those with an
    update function of dnmx_mutate_to, and those that the calls of a piecewise mutation can reach *)
Definition may_update (E : env) (s : st) (op : oop) (m : mptr) : Prop :=
  match op with
  | OPiecewise _ _ r ps => exists p t i, In p ps /\ w_type (s_w s) r = Some t /\ nth_error (t_mixins t) i = Some m /\
      match p with PAt j _ => i = j | PNext _ | PEach _ None => True | PEach _ (Some n) => i < n | _ => False end
  | _ => exists k, upds E op m k
  end.
Definition mutated_object (op : oop) : option (nat * bool) :=
  match op with OPiecewise unw o _ _ => Some (o, unw) | _ => mutates op end.

(** Object [o] takes over what object [src] is, and [src] has no mixins then. *)
Definition handed_over (V V' : views) (o src : nat) : Prop :=
  exists sl l, is_view V src sl l /\ is_view V' o sl l /\ is_view V' src sl [].

(** ** The calls, when they return *)
Definition effect (E : env) (s : st) (op : oop) (V V' : views) : Prop :=
  match op with
  | OEmpty o _ _ => is_view V' o false []
  | ONew unw o r _ sl => (exists t l, w_type (s_w s) r = Some t /\ is_view V' o sl l /\ mixins l = t_mixins t) \/ (unw = true /\ untyped V' o)
  | OMoved o src => handed_over V V' o src
  | ODtor o => V' o = None
  | OMoveAssign o src => if o =? src then V' o = V o else (exists l, is_view V o false l) /\ handed_over V V' o src
  | OCopy unw o src _ => (exists y, V src = Some y /\ V' o = Some {| v_sealed := false; v_mixins := v_mixins y |}) \/ (unw = true /\ untyped V' o)
  | OCopyFrom unw o src =>
      (exists y l, is_view V o false l /\ V src = Some y /\ V' o = Some {| v_sealed := false; v_mixins := v_mixins y |}) \/
      (unw = true /\ only_values (sees V src) V V' o)
  | OCopyMatching o src => exists sl sl' l ls, is_view V o sl l /\ is_view V src sl' ls /\ is_view V' o sl (overwrite l ls)
  | OMoveMatching _ o src => if o =? src then only_values (fun _ => True) V V' o else
      (exists sl sl' l ls, is_view V o sl l /\ is_view V src sl' ls /\ is_view V' o sl (overwrite l ls)) /\ only_values (sees V o) V V' src
  | OClear o => (exists l, is_view V o false l) /\ is_view V' o false []
  | OSeal o => exists x, V o = Some x /\ V' o = Some {| v_sealed := true; v_mixins := v_mixins x |}
  | ODom _ => True
  | OUse o i _ => only_values (sees_at V o i) V V' o
  | OReset unw o _ | OMutateTo unw o _ _ | OMutate unw _ o _ | OGradual unw _ o _ | OCMutateTo unw o _ _ | OCMutate unw _ o _ | OPiecewise unw o _ _ =>
      (exists r t sl l l', wanted E s op r t /\ is_view V o sl l /\ is_view V' o sl l' /\ changed_mixins (may_update E s op) (t_mixins t) l l') \/
      (unw = true /\ only_values (may_update E s op) V V' o)
  end.
(** ** The calls, when they throw: all objects are as before, but for values of mixins on which functions were called *)
Definition no_effect (E : env) (s : st) (op : oop) (V V' : views) : Prop :=
  match op with
  | OCopyFrom _ o src | OCopyMatching o src => only_values (sees V src) V V' o
  | OCMutateTo _ o _ _ | OPiecewise _ o _ _ => only_values (may_update E s op) V V' o
  | OUse o i _ => only_values (sees_at V o i) V V' o
  | _ => forall o, V' o = V o
  end.
Definition behaves (E : env) (s : st) (op : oop) (res : res unit) (V V' : views) : Prop :=
  (forall o, ~ In o (may_change op) -> V' o = V o) /\
  match res with Ok _ => effect E s op V V' | Throw _ => no_effect E s op V V' | Ub _ => False end.

(** ** Values over time *)
(** The value of mixin [m] of object [o] *)
Definition value (V : views) (o : nat) (m : mptr) : option Z :=
  match V o with Some {| v_mixins := Some l |} => val_of m l | _ => None end.
(** The call does not write to mixin [m] of object [o]: nothing is copied or moved to the object, or to its mixin [m], or
    moved from its mixin [m], and no function of the caller updates it. *)
Definition leaves_alone (E : env) (s : st) (op : oop) (o : nat) (m : mptr) : Prop :=
  match op with
  | OMoveAssign o' src => o' = o -> src = o
  | OCopyFrom _ o' _ => o' <> o
  | OCopyMatching o' src => o' = o -> ~ sees (look s) src m
  | OMoveMatching _ o' src => (o' = o -> ~ sees (look s) src m) /\ (src = o -> ~ sees (look s) o' m)
  | OUse o' i _ => o' = o -> ~ sees_at (look s) o i m
  | _ => (exists unw, mutated_object op = Some (o, unw)) -> ~ may_update E s op m
  end.
(** A run of calls, whether they return or throw, that leave mixin [m] of object [o] alone, and the object has it all the time *)
Inductive undisturbed (E : env) (U : user) (o : nat) (m : mptr) : st -> st -> Prop :=
| ud_start s : sees (look s) o m -> undisturbed E U o m s s
| ud_call s s1 op s2 res : undisturbed E U o m s s1 -> fair E s1 op -> op_run E U op s1 = (s2, res) -> leaves_alone E s1 op o m -> sees (look s2) o m ->
    undisturbed E U o m s s2.

(** ** Values that go from object to object *)
(** The call moves or copies what object [o] is, or has in common, to object [o']. *)
Definition passes (op : oop) (o o' : nat) : Prop :=
  match op with
  | OMoved a src | OMoveAssign a src | OCopy false a src _ | OCopyFrom false a src | OCopyMatching a src => a = o' /\ src = o
  | OMoveMatching _ a src => a = o' /\ src = o /\ o <> o'
  | _ => False
  end.
(** The way of a value of mixin [m] from object [o] in state [s] to object [o'] in state [s']: it stays in its object during
    calls that leave the mixin alone, and otherwise it is passed on to another object. *)
Inductive journey (E : env) (U : user) (m : mptr) : st -> nat -> st -> nat -> Prop :=
| jn_start s o : sees (look s) o m -> journey E U m s o s o
| jn_stay s o s1 o1 op s2 res : journey E U m s o s1 o1 -> fair E s1 op -> op_run E U op s1 = (s2, res) -> leaves_alone E s1 op o1 m -> sees (look s2) o1 m ->
    journey E U m s o s2 o1
| jn_pass s o s1 o1 op s2 o2 : journey E U m s o s1 o1 -> fair E s1 op -> op_run E U op s1 = (s2, Ok tt) -> passes op o1 o2 -> sees (look s2) o2 m ->
    journey E U m s o s2 o2.
