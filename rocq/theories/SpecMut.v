(** Specification vocabulary for mutations of objects: what has to be there after one *)
From Coq Require Import List Arith ZArith NArith Bool.
From Verif Require Import Base Sv Info TypeBuild TypeQuery Domain Heap Mutation Object SpecObj.
Import ListNotations.

(** object [o] has mixin [m] *)
Definition has_some (s : st) (o : nat) (m : mptr) : Prop := exists i, has_mixin s o i m.

(** Destroying a mixin: a call of its destroy function, if it has one. *)
Definition destruction (E : env) (m : mptr) (p : addr) : list ev :=
  if m_destroy (e_mixin E m) then [EvCall FDestroy m p None 0%Z] else [].
(** A call that worked, if there was one to make *)
Definition worked (m : mptr) (p : addr) (c : option (fn * option addr)) : list ev :=
  match c with Some (f, src) => [EvCall f m p src 0%Z] | None => [] end.
(** The value of a mixin [m] made or assigned from the mixin at [src] is the value there. *)
Definition value_from (s : st) (m : mptr) (src : option addr) (v : Z) : Prop :=
  forall p, src = Some p -> instance s p = Some {| i_mixin := m; i_val := v |}.
(** The value [v'] of a mixin with value [v] after the call [c] of a function on it; without a call it is kept, a copy
    gives the value of the source, and the user's function decides otherwise. *)
Definition value_after (s : st) (m : mptr) (v : Z) (c : option (fn * option addr)) (v' : Z) : Prop :=
  match c with None => v' = v | Some (_, src) => value_from s m src v' end.

(** What a mutation does with the mixins: [mk i m f src] says that the new mixin [m] at index [i] of the target is
    to be constructed by [f] (from [src]), [up i m c] says that [c] is to be called on the common mixin [m]. *)
Definition makes := nat -> mptr -> fn -> option addr -> Prop.
Definition updates := nat -> mptr -> option (fn * option addr) -> Prop.

(** Object [o] was mutated to type [r]; [l] are the events. *)
Record mutated (E : env) (s s' : st) (o : nat) (r : tref) (mk : makes) (up : updates) (l : list ev) : Prop := {
  (* the events are [l], and the object has type r *)
  mt_did : did s s' l;
  mt_type : exists t, type_of s' o r t;
  (* exactly the new mixins were constructed, each once, in new memory *)
  mt_new : forall i m, has_mixin s' o i m -> ~ has_some s o m ->
    exists p v f src, holds s' o i m p v /\ allocation s (fst p) = None /\ mk i m f src /\ value_from s m src v /\
      calls m l = [EvCall f m p src 0%Z];
  (* a common external mixin stays where it is, and so do all if the object had the type already *)
  mt_stay : forall i j m p v, has_mixin s' o i m -> holds s o j m p v -> external (e_mixin E m) = true \/ (exists t, type_of s o r t) ->
    exists v' c, holds s' o i m p v' /\ up i m c /\ value_after s m v c v' /\ calls m l = worked m p c;
  (* other common mixins are moved to new memory, and the old ones are destroyed *)
  mt_moved : forall i j m p v, has_mixin s' o i m -> holds s o j m p v -> external (e_mixin E m) = false -> ~ (exists t, type_of s o r t) ->
    exists p' v' c, holds s' o i m p' v' /\ allocation s (fst p') = None /\ allocation s' (fst p) = None /\ up i m c /\ value_after s m v c v' /\
      calls m l = worked m p c ++ [EvCall FMoveInit m p' (Some p) 0%Z] ++ destruction E m p;
  (* a mixin that the object does not have any more is destroyed and its memory freed *)
  mt_gone : forall j m p v, holds s o j m p v -> ~ has_some s' o m -> calls m l = destruction E m p /\ allocation s' (fst p) = None;
  (* no function of any other mixin is called *)
  mt_quiet : forall m, ~ has_some s o m -> ~ has_some s' o m -> calls m l = [];
  (* no other object is changed, and no memory of others *)
  mt_objects : forall o', o' <> o -> s_obj s' o' = s_obj s o';
  mt_types : forall o' q t, o' <> o -> type_of s o' q t -> exists n, type_of s' o' q (set_nobj t n);
  mt_frame : forall b, allocation s b <> None -> ~ owns E s o b -> same_block s s' b;
  (* nothing leaks: all memory is from before and not of the object, or belongs to the object now *)
  mt_memory : forall b, allocation s' b <> None -> (allocation s b <> None /\ ~ owns E s o b) \/ owns E s' o b;
  mt_fresh : forall b, owns E s' o b -> allocation s b = None \/ owns E s o b
}.

(** A mutation of object [o] to a type with the mixins [ms] failed: objects, memory, and all mixins but those on which
    a function was called are as before. *)
Record failed (E : env) (s s' : st) (o : nat) (ms : list mptr) (mk : makes) (up : updates) (l : list ev) : Prop := {
  fd_did : did s s' l;
  (* all objects have the type they had, and no memory was allocated or freed *)
  fd_objects : forall o', s_obj s' o' = s_obj s o';
  fd_types : forall o' q t, type_of s o' q t -> type_of s' o' q t;
  fd_memory : forall b, allocation s' b = allocation s b;
  fd_data : forall b i, data_slot s' b i = data_slot s b i;
  fd_back : forall p, object_of s' p = object_of s p;
  (* nothing else in memory is touched *)
  fd_other : forall p, (forall j m v, ~ holds s o j m p v) -> instance s' p = instance s p;
  (* the mixins of the object are where they were, and keep their value if nothing was called *)
  fd_mixins : forall j m p v, holds s o j m p v -> exists v', holds s' o j m p v' /\ (calls m l = [] -> v' = v);
  (* a new mixin that was constructed was destroyed *)
  fd_new : forall i m, nth_error ms i = Some m -> ~ has_some s o m -> calls m l = [] \/
    exists p f src, mk i m f src /\
      (calls m l = EvCall f m p src 0%Z :: destruction E m p \/ exists err, err <> 0%Z /\ calls m l = [EvCall f m p src err]);
  (* on a common mixin at most one function was called *)
  fd_common : forall i j m p v, nth_error ms i = Some m -> holds s o j m p v -> calls m l = [] \/
    exists f src err, up i m (Some (f, src)) /\ calls m l = [EvCall f m p src err];
  fd_quiet : forall m, ~ In m ms -> calls m l = []
}.

(** Object [o] lost all its mixins: they were destroyed, and its memory was freed; nothing else happened. *)
Record wiped (E : env) (s s' : st) (o : nat) (l : list ev) : Prop := {
  wp_did : did s s' l;
  wp_calls : forall j m p v, holds s o j m p v -> calls m l = destruction E m p;
  wp_quiet : forall m, ~ has_some s o m -> calls m l = [];
  wp_freed : forall b, owns E s o b -> allocation s b <> None /\ allocation s' b = None;
  wp_objects : forall o', o' <> o -> s_obj s' o' = s_obj s o';
  wp_types : forall o' q t, o' <> o -> type_of s o' q t -> exists n, type_of s' o' q (set_nobj t n);
  wp_frame : forall b, ~ owns E s o b -> same_block s s' b
}.

(** ** What the calls of the library ask for *)

(** New mixins are made by their init function, and common ones are left alone. *)
Definition default_made (E : env) : makes := fun _ m f src => f = FInit /\ src = None /\ m_init (e_mixin E m) = true.
Definition no_updates : updates := fun _ _ c => c = None.
(** New mixins are made by function number [k] of the program if [ov m k], and by their init function otherwise. *)
Definition made_with (E : env) (ov : mptr -> nat -> Prop) : makes := fun _ m f src =>
  src = None /\ ((exists k, ov m k /\ f = FOverride k) \/ ((forall k, ~ ov m k) /\ f = FInit /\ m_init (e_mixin E m) = true)).
(** Common mixins are updated by function number [k] of the program if [uv m k]. *)
Definition updated_with (uv : mptr -> nat -> Prop) : updates := fun _ m c =>
  (exists k, uv m k /\ c = Some (FUpdate k, None)) \/ ((forall k, ~ uv m k) /\ c = None).
(** All mixins are copied from the mixins of object [src]. *)
Definition copies_made (E : env) (s : st) (src : nat) : makes := fun i m f p =>
  f = FCopyInit /\ m_copy_init (e_mixin E m) = true /\ exists q v, p = Some q /\ holds s src i m q v.
Definition copies_assigned (E : env) (s : st) (src : nat) : updates := fun i m c =>
  exists q v, c = Some (FCopyAsgn, Some q) /\ m_copy_asgn (e_mixin E m) = true /\ holds s src i m q v.

(** An override of dnmx_mutate_to names a mixin: by its info or, if there is none, by its name. *)
Definition cover_for (E : env) (c : cover) (m : mptr) : Prop :=
  co_mixin c = Some m \/ (co_mixin c = None /\ co_name c = sv_bytes (m_name (e_mixin E m))).
(** [c] is the first override of [cs] for [m]. *)
Definition first_cover (E : env) (cs : list cover) (m : mptr) (c : cover) : Prop :=
  exists before after, cs = before ++ c :: after /\ cover_for E c m /\ forall c', In c' before -> ~ cover_for E c' m.
Definition cover_inits (E : env) (cs : list cover) (m : mptr) (k : nat) : Prop := exists c, first_cover E cs m c /\ co_init c = Some k.
Definition cover_updates (E : env) (cs : list cover) (m : mptr) (k : nat) : Prop := exists c, first_cover E cs m c /\ co_update c = Some k.
(** [c] is the first op of dnmx_mutate that adds [m] with an init function. *)
Definition cop_for (E : env) (c : cop) (m : mptr) : Prop :=
  cp_op c = 0%Z /\ cp_init c <> None /\ (cp_mixin c = Some m \/ (cp_mixin c = None /\ cp_name c = sv_bytes (m_name (e_mixin E m)))).
Definition cop_inits (E : env) (cs : list cop) (m : mptr) (k : nat) : Prop :=
  exists c before after, cs = before ++ c :: after /\ cop_for E c m /\ (forall c', In c' before -> ~ cop_for E c' m) /\ cp_init c = Some k.

(** ** Calls that mutate an object *)

(** The object that is mutated, and whether the call is made while an exception is in flight *)
Definition mutates (op : oop) : option (nat * bool) :=
  match op with
  | OReset unw o _ | OMutateTo unw o _ _ | OMutate unw _ o _ | OGradual unw _ o _ | OCMutateTo unw o _ _ | OCMutate unw _ o _ => Some (o, unw)
  | _ => None
  end.
(** [r] is the type that the domain of the object gives for the mixins of its type, changed by [f]. *)
Definition changed_type (E : env) (s : st) (o : nat) (aok : bool) (f : lookup -> list mptr -> res (list mptr)) (r : tref) : Prop :=
  exists q t l w, type_of s o q t /\ f (get_mixin_by_name E (s_w s) (t_dom t)) (t_mixins t) = Ok l /\
    get_type_mut E aok (s_w s) (t_dom t) (t_dom t) l = (w, Ok r).
(** the type that the object is to get *)
Definition aims_at (E : env) (s : st) (op : oop) (r : tref) : Prop :=
  match op with
  | OReset _ _ q | OMutateTo _ _ q _ | OCMutateTo _ _ q _ => r = q
  | OMutate _ aok o ops => changed_type E s o aok (fun lk => apply_mutops E lk ops) r
  | OGradual _ aok o ops => changed_type E s o aok (fun lk => apply_gops E lk ops) r
  | OCMutate _ aok o cs => changed_type E s o aok (fun lk => apply_cops E lk cs) r
  | _ => False
  end.
(** Function [k] of the program is given to initialise mixin [m]. *)
Definition inits (E : env) (s : st) (op : oop) : mptr -> nat -> Prop :=
  match op with
  | OMutateTo _ o _ ops => fun m k => exists d, object_domain s o d /\ op_gives E (s_w s) d ops m k
  | OMutate _ _ _ ops => fun m k => In (MAddInit k m) ops
  | OCMutateTo _ _ _ cs => cover_inits E cs
  | OCMutate _ _ _ cs => cop_inits E cs
  | _ => fun _ _ => False
  end.
(** Function [k] of the program is given to update the common mixin [m]. *)
Definition upds (E : env) (op : oop) : mptr -> nat -> Prop :=
  match op with OCMutateTo _ _ _ cs => cover_updates E cs | _ => fun _ _ => False end.
(** All objects kept their types, and the types their numbers of objects. *)
Definition types_kept (s s' : st) : Prop := forall o q t, type_of s o q t -> type_of s' o q t.

(** ** Why calls fail *)

(** All functions of the program that were called worked. *)
Definition all_worked (l : list ev) : Prop := forall f m p src err, In (EvCall f m p src err) l -> err = 0%Z.
(** What the events [l] of a call must show if it ends with the exception [e]. For a user error exactly one function
    of the program reported an error, and it is this error; for an allocation error an allocator failed, or there is no
    memory for a new type ([no_mem]). For other exceptions no function reported an error. *)
Definition blames (U : user) (no_mem : Prop) (s s' : st) (l : list ev) (e : exn) : Prop :=
  match e with
  | EUserFunc err => err <> 0%Z /\ exists l1 f m p src l2, l = l1 ++ EvCall f m p src err :: l2 /\ all_worked l1 /\ all_worked l2
  | EBadAlloc => all_worked l /\ (no_mem \/ exists k, s_calls s <= k < s_calls s' /\ an_err (u_ans U k) <> 0%Z)
  | _ => all_worked l
  end.
(** The exceptions of a mutation of [o] to type [r] whose new mixins are made as [ov] says *)
Definition may_throw (E : env) (s s' : st) (o : nat) (r : tref) (ov : mptr -> nat -> Prop) (e : exn) : Prop :=
  match e with
  | ESealed => exists x, s_obj s o = Some x /\ o_sealed x = true
  | EMissingFunc => exists t m, w_type (s_w s') r = Some t /\ In m (t_mixins t) /\ ~ has_some s o m /\ (forall k, ~ ov m k) /\ m_init (e_mixin E m) = false
  | EUserFunc _ | EBadAlloc => True
  | _ => False
  end.
(** There is no memory for a new type. *)
Definition no_type_memory (op : oop) : Prop :=
  match op with OMutate _ aok _ _ | OGradual _ aok _ _ | OCMutate _ aok _ _ => aok = false | _ => False end.
