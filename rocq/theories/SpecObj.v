(** Specification vocabulary for objects *)
From Coq Require Import List Arith ZArith NArith Bool.
From Verif Require Import Base Sv Info TypeBuild TypeQuery Domain SpecLayout Heap Mutation Object.
Import ListNotations.

(** ** What a program can see of the memory *)

(** allocator, size and alignment of an allocated block *)
Definition allocation (s : st) (b : nat) : option (aid * N * N) :=
  match s_blk s b with Some k => Some (b_alloc k, b_size k, b_align k) | None => None end.
(** the mixin instance at an address *)
Definition instance (s : st) (p : addr) : option inst :=
  match s_blk s (fst p) with Some k => aget (snd p) (b_inst k) | None => None end.
(** element [i] of the array of mixin data at the beginning of a block *)
Definition data_slot (s : st) (b i : nat) : option mdata :=
  match s_blk s b with Some k => b_data k i | None => None end.

(** Block [b] was not changed. *)
Definition same_block (s s' : st) (b : nat) : Prop :=
  allocation s' b = allocation s b /\ (forall i, data_slot s' b i = data_slot s b i) /\
  (forall q, instance s' (b, q) = instance s (b, q)) /\ (forall q, object_of s' (b, q) = object_of s (b, q)).
(** No object and nothing in memory was changed. *)
Definition unchanged (s s' : st) : Prop :=
  (forall o, s_obj s' o = s_obj s o) /\ (forall b, same_block s s' b).

(** The mixins of the type of an object *)
Definition type_of (s : st) (o : nat) (r : tref) (t : type_rec) : Prop :=
  exists x, s_obj s o = Some x /\ o_type x = Some r /\ w_type (s_w s) r = Some t.
Definition has_mixin (s : st) (o i : nat) (m : mptr) : Prop :=
  exists r t, type_of s o r t /\ nth_error (t_mixins t) i = Some m.
(** Object [o] has mixin [m] at index [i] and address [p] with value [v]: get_at finds it, and a living instance is
    there. *)
Definition holds (s : st) (o i : nat) (m : mptr) (p : addr) (v : Z) : Prop :=
  has_mixin s o i m /\ get_at s o i = Ok (Some p) /\ instance s p = Some {| i_mixin := m; i_val := v |}.
Definition is_nonempty (s : st) (o : nat) : Prop := exists x, s_obj s o = Some x /\ o_data x <> None.

(** The memory of an object: the block of its mixins, and one for each of its external mixins *)
Definition owns (E : env) (s : st) (o b : nat) : Prop :=
  exists x c, s_obj s o = Some x /\ o_data x = Some c /\
    (b = c \/ exists i m d, has_mixin s o i m /\ external (e_mixin E m) = true /\ data_slot s c i = Some d /\ md_buf d = Some b).

(** ** What was called: the events of a call are those after [s_log s]. *)
Definition is_call (m : mptr) (e : ev) : bool := match e with EvCall _ x _ _ _ => x =? m | _ => false end.
(** the calls of functions of mixin [m] *)
Definition calls (m : mptr) (l : list ev) : list ev := filter (is_call m) l.
Definition did (s s' : st) (l : list ev) : Prop := s_log s' = s_log s ++ l.

(** ** Contracts: what a program must respect *)

(** All buffers of all types are smaller than 4 GiB. *)
Definition types_small (E : env) (w : world) : Prop := forall r t, w_type w r = Some t -> (space E (t_mixins t) < 4294967296)%N.

Definition with_type_set (s : st) (o : nat) : Prop := exists x, s_obj s o = Some x /\ o_type x <> None.
(** [r] is a living type; if the object has mixins, then a type of the domain of the object *)
Definition may_become (s : st) (o : nat) (r : tref) : Prop :=
  exists x t, s_obj s o = Some x /\ w_type (s_w s) r = Some t /\
    (o_data x <> None -> forall q t0, o_type x = Some q -> w_type (s_w s) q = Some t0 -> t_dom t0 = t_dom t).
(** the type has mixins, or the object has this type already *)
Definition not_to_empty (s : st) (o : nat) (r : tref) : Prop :=
  (exists t, w_type (s_w s) r = Some t /\ t_mixins t <> []) \/ (exists x, s_obj s o = Some x /\ o_type x = Some r).
(** both objects have mixins only if they are of the same domain *)
Definition same_domain (s : st) (o o' : nat) : Prop :=
  forall x y r r' t t', s_obj s o = Some x -> s_obj s o' = Some y -> o_type x = Some r -> o_type y = Some r' ->
    w_type (s_w s) r = Some t -> w_type (s_w s) r' = Some t' -> t_mixins t <> [] -> t_mixins t' <> [] -> t_dom t = t_dom t'.

(** Which mixin is initialised by an op of mutate_to *)
Definition op_mixin (E : env) (w : world) (d : dptr) (op : mop) : option mptr :=
  match op with MSimple => None | MInit _ m => Some m | MInitName _ nm => get_mixin_by_name E w d nm end.
Definition op_num (op : mop) : option nat := match op with MSimple => None | MInit k _ | MInitName k _ => Some k end.
(** Some op gives function [k] for mixin [m]. *)
Definition op_gives (E : env) (w : world) (d : dptr) (ops : list mop) (m : mptr) (k : nat) : Prop :=
  exists op, In op ops /\ op_num op = Some k /\ op_mixin E w d op = Some m.
(** names are registered in domain [d], mixins are of the domain [dt] of the target (or of none), and each has at most
    one override *)
Definition ops_fine (E : env) (w : world) (d dt : dptr) (ops : list mop) : Prop :=
  (forall k nm, In (MInitName k nm) ops -> get_mixin_by_name E w d nm <> None) /\
  (forall op m, In op ops -> op_mixin E w d op = Some m -> w_mdom w m = None \/ w_mdom w m = Some dt) /\
  (forall i j a b m, nth_error ops i = Some a -> nth_error ops j = Some b -> op_mixin E w d a = Some m -> op_mixin E w d b = Some m -> i = j).
Definition object_domain (s : st) (o : nat) (d : dptr) : Prop := exists r t, type_of s o r t /\ t_dom t = d.

(** the type of a mutation can be made without undefined behaviour and is small; [empty_ok]: it may be the empty type *)
Definition can_mutate (E : env) (s : st) (o : nat) (aok empty_ok : bool) (f : lookup -> list mptr -> res (list mptr)) : Prop :=
  forall r t s1 x, type_of s o r t -> mutated_type E aok t f s = (s1, x) ->
    ~ is_ub x /\ types_small E (s_w s1) /\ (empty_ok = false -> forall q, x = Ok q -> not_to_empty s1 o q).

(** The calls of a piecewise mutation: no explicit finalize or rollback, and for a type without mixins no
    update_at and update_next_mixin *)
Definition steps_fine (n : nat) (ps : list pstep) : Prop :=
  forall p, In p ps -> match p with PFinalize | PRollback => False | PAt _ _ | PNext _ => n <> 0 | _ => True end.

Definition fair (E : env) (s : st) (op : oop) : Prop :=
  match op with
  | OEmpty o d a => s_obj s o = None
  | ONew unw o r a sl => s_obj s o = None /\ w_type (s_w s) r <> None
  | OMoved o src => s_obj s o = None /\ with_type_set s src
  | ODtor o | OSeal o => s_obj s o <> None
  | OClear o | OUse o _ _ => with_type_set s o
  | OMoveAssign o src => with_type_set s o /\ with_type_set s src
  | OCopy unw o src a => s_obj s o = None /\ s_obj s src <> None
  | OCopyFrom unw o src => with_type_set s o /\ s_obj s src <> None /\ same_domain s o src
  | OCopyMatching o src => with_type_set s o /\ with_type_set s src /\ same_domain s o src
  | OMoveMatching fb o src => with_type_set s o /\ with_type_set s src /\ same_domain s o src /\ (fb = true -> o <> src)
  | OReset unw o r => with_type_set s o /\ may_become s o r
  | OMutateTo unw o r ops => with_type_set s o /\ may_become s o r /\
      (ops <> [] -> not_to_empty s o r /\ forall d t, object_domain s o d -> w_type (s_w s) r = Some t -> ops_fine E (s_w s) d (t_dom t) ops)
  | OMutate unw aok o ops => with_type_set s o /\ ops <> [] /\ can_mutate E s o aok false (fun lk => apply_mutops E lk ops) /\
      forall d, object_domain s o d -> ops_fine E (s_w s) d d (map mop_of ops)
  | OGradual unw aok o ops => with_type_set s o /\ can_mutate E s o aok true (fun lk => apply_gops E lk ops)
  | OCMutateTo unw o r cs => with_type_set s o /\ may_become s o r /\ not_to_empty s o r
  | OCMutate unw aok o cs => with_type_set s o /\ can_mutate E s o aok false (fun lk => apply_cops E lk cs)
  | OPiecewise unw o r ps => with_type_set s o /\ may_become s o r /\ not_to_empty s o r /\ forall t, w_type (s_w s) r = Some t -> steps_fine (length (t_mixins t)) ps
  | ODom op => match op with DNewObj _ | DDelObj _ => False | _ => True end /\ ~ is_ub (snd (dstep E (s_w s) op)) /\ types_small E (fst (dstep E (s_w s) op))
  end.

(** The states of programs that respect the contracts *)
Definition history (E : env) (U : user) (tr : otrace) (s : st) : Prop := orun E U (fair E) tr s.
