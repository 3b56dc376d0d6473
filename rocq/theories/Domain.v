(** The world of domains: code/dynamix/domain.cpp 245-335, 337-371, 405-547, 689-861 *)
From Coq Require Import List Arith ZArith NArith Lia Bool.
From Verif Require Import Base Sv Info Registry TypeMut Rules TypeBuild TypeQuery.
Import ListNotations.

(** Address of a type: the empty type of a domain is a member of the domain (domain.cpp:172), others are
    allocated. Addresses of allocated types are not reused in the model, so that the use of a freed type
    is visible. *)
Inductive tref := TEmpty (d : dptr) | TReg (n : nat).
Definition tref_eqb (a b : tref) : bool :=
  match a, b with
  | TEmpty x, TEmpty y => x =? y
  | TReg x, TReg y => x =? y
  | _, _ => false
  end.

(** domain.cpp:86-98 element_registry, 153-169 type_registry.
    [d_types] is the set, in no particular order, [d_queries] the map. *)
Record dom_st := {
  d_features : list (option fptr);
  d_mixins : list (option mptr);
  d_tcs : list (option cptr);
  d_rules : list (rptr * nat);
  d_types : list tref;
  d_queries : list (list mptr * tref)
}.

(** The whole state: the mutable members of the infos, the domains and the types that are alive. *)
Record world := {
  w_mid : mptr -> option nat;      (* mixin_info::id *)
  w_mdom : mptr -> option dptr;    (* mixin_info::dom *)
  w_fid : fptr -> option nat;      (* feature_info::id *)
  w_dom : dptr -> dom_st;
  w_type : tref -> option type_rec; (* None: freed or never created *)
  w_next : nat                     (* address of the next type *)
}.

Section Domain.
Variable E : env.

Definition set_dom (w : world) (d : dptr) (s : dom_st) : world := {|
  w_mid := w_mid w; w_mdom := w_mdom w; w_fid := w_fid w;
  w_dom := upd (w_dom w) d s; w_type := w_type w; w_next := w_next w |}.

(** Update of the address of a type. *)
Definition tupd {A} (f : tref -> A) (k : tref) (v : A) : tref -> A :=
  fun x => if tref_eqb x k then v else f x.

(** domain.cpp:181-192: all domains just after their construction; no info is registered. *)
Definition init_dom (d : dptr) : dom_st := {|
  d_features := []; d_mixins := []; d_tcs := [];
  d_rules := if s_canonicalize (e_settings E d) then fst (rules_incr E (e_canon E d) []) else [];
  d_types := []; d_queries := [] |}.
Definition init_world : world := {|
  w_mid := fun _ => None; w_mdom := fun _ => None; w_fid := fun _ => None;
  w_dom := init_dom;
  w_type := fun r => match r with TEmpty d => Some (empty_type d) | TReg _ => None end;
  w_next := 0 |}.

Definition fname (f : fptr) : sv := f_name (e_feature E f).
Definition mname (m : mptr) : sv := m_name (e_mixin E m).

Definition with_features (s : dom_st) (l : list (option fptr)) : dom_st := {|
  d_features := l; d_mixins := d_mixins s; d_tcs := d_tcs s; d_rules := d_rules s;
  d_types := d_types s; d_queries := d_queries s |}.
Definition with_mixins (s : dom_st) (l : list (option mptr)) : dom_st := {|
  d_features := d_features s; d_mixins := l; d_tcs := d_tcs s; d_rules := d_rules s;
  d_types := d_types s; d_queries := d_queries s |}.
Definition with_tcs (s : dom_st) (l : list (option cptr)) : dom_st := {|
  d_features := d_features s; d_mixins := d_mixins s; d_tcs := l; d_rules := d_rules s;
  d_types := d_types s; d_queries := d_queries s |}.
Definition with_rules (s : dom_st) (l : list (rptr * nat)) (q : list (list mptr * tref)) : dom_st := {|
  d_features := d_features s; d_mixins := d_mixins s; d_tcs := d_tcs s; d_rules := l;
  d_types := d_types s; d_queries := q |}.
Definition with_types (s : dom_st) (l : list tref) (q : list (list mptr * tref)) : dom_st := {|
  d_features := d_features s; d_mixins := d_mixins s; d_tcs := d_tcs s; d_rules := d_rules s;
  d_types := l; d_queries := q |}.

(** domain.cpp:245-247 register_feature *)
Definition register_feature (w : world) (d : dptr) (f : fptr) : world * res unit :=
  let s := w_dom w d in
  match basic_register fname (w_fid w) (d_features s) (negb (s_dup_features (e_settings E d))) f with
  | Ok (sp, id) =>
    ({| w_mid := w_mid w; w_mdom := w_mdom w; w_fid := upd (w_fid w) f (Some id);
        w_dom := upd (w_dom w) d (with_features s sp); w_type := w_type w; w_next := w_next w |}, Ok tt)
  | Throw e => (w, Throw e)
  | Ub u => (w, Ub u)
  end.

(** domain.cpp:260-262 unregister_feature *)
Definition unregister_feature (w : world) (d : dptr) (f : fptr) : world * res unit :=
  let s := w_dom w d in
  match basic_unregister (w_fid w) (d_features s) f with
  | Ok sp =>
    ({| w_mid := w_mid w; w_mdom := w_mdom w; w_fid := upd (w_fid w) f None;
        w_dom := upd (w_dom w) d (with_features s sp); w_type := w_type w; w_next := w_next w |}, Ok tt)
  | Throw e => (w, Throw e)
  | Ub u => (w, Ub u)
  end.

(** domain.cpp:268-280: registration of the features of a mixin; the assert of line 272 is modelled *)
Fixpoint register_features_of (w : world) (d : dptr) (fs : list ffm) : world * res unit :=
  match fs with
  | [] => (w, Ok tt)
  | f :: r =>
    match w_fid w (ff_info f) with
    | Some i =>
      match nth_error (d_features (w_dom w d)) i with
      | Some (Some p) => if p =? ff_info f then register_features_of w d r else (w, Ub UbAssert)
      | Some None => (w, Ub UbAssert)
      | None => (w, Ub UbOutOfBounds)
      end
    | None =>
      match register_feature w d (ff_info f) with
      | (w', Ok _) => register_features_of w' d r
      | (w', x) => (w', x)
      end
    end
  end.

(** domain.cpp:264-285 register_mixin *)
Definition register_mixin (w : world) (d : dptr) (m : mptr) : world * res unit :=
  if match w_mdom w m with Some d' => negb (d' =? d) | None => false end then (w, Throw EInfoHasDomain)
  else
    match register_features_of w d (m_features (e_mixin E m)) with
    | (w1, Ok _) =>
      let s := w_dom w1 d in
      match basic_register mname (w_mid w1) (d_mixins s) (negb (s_dup_mixins (e_settings E d))) m with
      | Ok (sp, id) =>
        ({| w_mid := upd (w_mid w1) m (Some id); w_mdom := upd (w_mdom w1) m (Some d); w_fid := w_fid w1;
            w_dom := upd (w_dom w1) d (with_mixins s sp); w_type := w_type w1; w_next := w_next w1 |}, Ok tt)
      | Throw e => (w1, Throw e)
      | Ub u => (w1, Ub u)
      end
    | (w1, x) => (w1, x)
    end.

(** Is the reference to a type which was freed? *)
Definition dangling (w : world) (r : tref) : bool := negb (is_some (w_type w r)).

(** t->has(info.id) for a type that is alive *)
Definition ref_has_id (w : world) (id : option nat) (r : tref) : bool :=
  match w_type w r with Some t => type_has_id t id | None => false end.

(** t->num_objects() *)
Definition ref_nobj (w : world) (r : tref) : nat :=
  match w_type w r with Some t => t_nobj t | None => 0 end.

(** Free the types satisfying a condition. *)
Definition free_types (f : tref -> option type_rec) (dead : list tref) : tref -> option type_rec :=
  fun r => if existsb (tref_eqb r) dead then None else f r.

(** The first part of unregister_mixin, domain.cpp:292-325: erase the queries and the types that have the mixin.
    Simplified: the two erase loops are filters (what is erased does not depend on the earlier erasures).
    The assert of line 318 is modelled. *)
Definition purge_types (w : world) (d : dptr) (m : mptr) : res world :=
  let s := w_dom w d in
  let id := w_mid w m in
  if existsb (fun q => dangling w (snd q)) (d_queries s) then Ub UbDangling
  else
    let queries := filter (fun q => negb (ref_has_id w id (snd q) || memb m (fst q))) (d_queries s) in
    let dead := filter (ref_has_id w id) (d_types s) in
    let types := filter (fun r => negb (ref_has_id w id r)) (d_types s) in
    if existsb (fun r => negb (ref_nobj w r =? 0)) dead then Ub UbAssert
    else
      Ok {| w_mid := w_mid w; w_mdom := w_mdom w; w_fid := w_fid w;
            w_dom := upd (w_dom w) d (with_types s types queries);
            w_type := free_types (w_type w) dead; w_next := w_next w |}.

(** The second part of unregister_mixin, domain.cpp:327-334: the element registry *)
Definition unregister_mixin_elem (w : world) (d : dptr) (m : mptr) : world * res unit :=
  let s := w_dom w d in
  match basic_unregister (w_mid w) (d_mixins s) m with
  | Ok sp =>
    ({| w_mid := upd (w_mid w) m None; w_mdom := upd (w_mdom w) m None; w_fid := w_fid w;
        w_dom := upd (w_dom w) d (with_mixins s sp); w_type := w_type w; w_next := w_next w |}, Ok tt)
  | Throw e => (w, Throw e)
  | Ub u => (w, Ub u)
  end.

(** domain.cpp:287-335 unregister_mixin *)
Definition unregister_mixin (w : world) (d : dptr) (m : mptr) : world * res unit :=
  match purge_types w d m with
  | Ok w1 => unregister_mixin_elem w1 d m
  | Throw e => (w, Throw e)
  | Ub u => (w, Ub u)
  end.

(** domain.cpp:337-360 register_type_class *)
Definition register_type_class (w : world) (d : dptr) (c : cptr) : world * res unit :=
  match register_tc (e_tc E) (d_tcs (w_dom w d)) c with
  | Ok sp => (set_dom w d (with_tcs (w_dom w d) sp), Ok tt)
  | Throw e => (w, Throw e)
  | Ub u => (w, Ub u)
  end.

(** domain.cpp:362-371 unregister_type_class *)
Definition unregister_type_class (w : world) (d : dptr) (c : cptr) : world * res unit :=
  (set_dom w d (with_tcs (w_dom w d) (unregister_tc (d_tcs (w_dom w d)) c)), Ok tt).

(** domain.cpp:387-403 the getters *)
Definition get_mixin_by_id (w : world) (d : dptr) (id : option nat) : option mptr := get_by_id id (d_mixins (w_dom w d)).
Definition get_mixin_by_name (w : world) (d : dptr) (nm : list N) : option mptr := get_by_name mname nm (d_mixins (w_dom w d)).
Definition get_feature_by_id (w : world) (d : dptr) (id : option nat) : option fptr := get_by_id id (d_features (w_dom w d)).
Definition get_feature_by_name (w : world) (d : dptr) (nm : list N) : option fptr := get_by_name fname nm (d_features (w_dom w d)).
Definition get_type_class (w : world) (d : dptr) (nm : list N) : option cptr :=
  get_by_name (fun c => c_name (e_tc E c)) nm (d_tcs (w_dom w d)).

(** domain.cpp:405-416 add_mutation_rule *)
Definition add_rule (w : world) (d : dptr) (r : rptr) : world * res unit :=
  match r_apply (e_rule E r) with
  | None => (w, Throw ENoFunc)
  | Some _ =>
    let s := w_dom w d in
    let (rules, first) := rules_incr E r (d_rules s) in
    (set_dom w d (with_rules s rules (if first then [] else d_queries s)), Ok tt)
  end.

(** domain.cpp:417-431 remove_mutation_rule *)
Definition remove_rule (w : world) (d : dptr) (r : rptr) : world * res unit :=
  let s := w_dom w d in
  match rules_decr E r (d_rules s) with
  | Ok (rules, last) => (set_dom w d (with_rules s rules (if last then [] else d_queries s)), Ok tt)
  | Throw e => (w, Throw e)
  | Ub u => (w, Ub u)
  end.

(** domain.cpp:988-990 num_types, 997-999 num_type_queries, 1001-1003 num_mutation_rules.
    The same containers are visible through domain_traverse (domain.cpp:880-908): the rules with their
    counts, the types, and the stored queries with their types. *)
Definition num_types (w : world) (d : dptr) : nat := length (d_types (w_dom w d)).
Definition num_type_queries (w : world) (d : dptr) : nat := length (d_queries (w_dom w d)).
Definition num_mutation_rules (w : world) (d : dptr) : nat := length (d_rules (w_dom w d)).

(** domain.cpp:65-71 mixin_span_less: the key order of the set of types and of the map of queries.
    Pointers are compared as numbers. *)
Fixpoint lex_less (a b : list mptr) : bool :=
  match a, b with
  | _, [] => false
  | [], _ :: _ => true
  | x :: a', y :: b' => if x <? y then true else if y <? x then false else lex_less a' b'
  end.
Definition span_less (a b : list mptr) : bool :=
  if negb (length a =? length b) then length a <? length b else lex_less a b.
(** Equivalence of keys in std::set and std::map. *)
Definition span_equiv (a b : list mptr) : bool := negb (span_less a b) && negb (span_less b a).

(** std::map::find on the queries, domain.cpp:498, 537 *)
Fixpoint find_query (q : list mptr) (qs : list (list mptr * tref)) : option tref :=
  match qs with
  | [] => None
  | (k, t) :: r => if span_equiv k q then Some t else find_query q r
  end.

(** type_queries[q] = t, domain.cpp:528, 834 *)
Fixpoint store_query (q : list mptr) (t : tref) (qs : list (list mptr * tref)) : list (list mptr * tref) :=
  match qs with
  | [] => [(q, t)]
  | (k, x) :: r => if span_equiv k q then (k, t) :: r else (k, x) :: store_query q t r
  end.

(** std::set::find on the types, domain.cpp:511; also the search of emplace, line 819 *)
Fixpoint find_type (w : world) (ms : list mptr) (ts : list tref) : option tref :=
  match ts with
  | [] => None
  | r :: l =>
    match w_type w r with
    | Some t => if span_equiv (t_mixins t) ms then Some r else find_type w ms l
    | None => find_type w ms l
    end
  end.

(** What the rules of a domain see. *)
Definition view (w : world) (d : dptr) : rview := {|
  rv_lookup := get_mixin_by_name w d; rv_id := w_mid w |}.

(** The part of get_type under the shared lock, domain.cpp:495-513:
    either a stored query, or the query to store, the mixins and maybe the type found. *)
Inductive looked := LStored (t : tref) | LNew (q ms : list mptr) (found : option tref).
Definition lookup_type (w : world) (d : dptr) (q : list mptr) : res looked :=
  let s := w_dom w d in
  match find_query q (d_queries s) with
  | Some t => Ok (LStored t)
  | None =>
    do r <- apply_rules E (view w d) (d_rules s) q;
    Ok (LNew (fst r) (snd r)
         (match snd r with
          | [] => Some (TEmpty d)
          | _ => find_type w (snd r) (d_types s)
          end))
  end.

(** The part of get_type under the unique lock when the type exists, domain.cpp:527-529 *)
Definition store_found (w : world) (d : dptr) (q : list mptr) (t : tref) : world :=
  let s := w_dom w d in
  set_dom w d (with_types s (d_types s) (store_query q t (d_queries s))).

(** The part of create_type under the unique lock, domain.cpp:818-835. The new type is dropped if an
    equivalent one is in the set. *)
Definition insert_type (w : world) (d : dptr) (q : list mptr) (t : type_rec) : world * tref :=
  let s := w_dom w d in
  match find_type w (t_mixins t) (d_types s) with
  | Some r => (store_found w d q r, r)
  | None =>
    let r := TReg (w_next w) in
    ({| w_mid := w_mid w; w_mdom := w_mdom w; w_fid := w_fid w;
        w_dom := upd (w_dom w) d (with_types s (d_types s ++ [r]) (store_query q r (d_queries s)));
        w_type := tupd (w_type w) r (Some t); w_next := S (w_next w) |}, r)
  end.

(** domain.cpp:489-531 get_type(mutation) of domain [d] for a mutation of domain [dm]; when no other
    thread runs. [alloc_ok]: does the allocation of the type succeed? *)
Definition get_type_mut (alloc_ok : bool) (w : world) (d dm : dptr) (q : list mptr) : world * res tref :=
  if negb (dm =? d) then (w, Throw EForeignMutation)
  else
    match lookup_type w d q with
    | Ok (LStored t) => (w, Ok t)
    | Ok (LNew oq ms (Some t)) => (store_found w d oq t, Ok t)
    | Ok (LNew oq ms None) =>
      match build_type E (w_fid w) (w_mid w) (w_mdom w) alloc_ok d ms with
      | Ok t => let (w', r) := insert_type w d oq t in (w', Ok r)
      | Throw e => (w, Throw e)
      | Ub u => (w, Ub u)
      end
    | Throw e => (w, Throw e)
    | Ub u => (w, Ub u)
    end.

(** domain.cpp:533-547 get_type(mixins) *)
Definition get_type (alloc_ok : bool) (w : world) (d : dptr) (q : list mptr) : world * res tref :=
  match find_query q (d_queries (w_dom w d)) with
  | Some t => (w, Ok t)
  | None => get_type_mut alloc_ok w d d q
  end.

(** domain.cpp:838-861 garbage_collect_types.
    Simplified: the nested erase loops are filters. A type in the set that was freed would be UB. *)
Definition gc (w : world) (d : dptr) : world * res unit :=
  let s := w_dom w d in
  if existsb (dangling w) (d_types s) then (w, Ub UbDangling)
  else
    let dead := filter (fun r => ref_nobj w r =? 0) (d_types s) in
    let types := filter (fun r => negb (ref_nobj w r =? 0)) (d_types s) in
    let queries := filter (fun q => negb (existsb (tref_eqb (snd q)) dead)) (d_queries s) in
    ({| w_mid := w_mid w; w_mdom := w_mdom w; w_fid := w_fid w;
        w_dom := upd (w_dom w) d (with_types s types queries);
        w_type := free_types (w_type w) dead; w_next := w_next w |}, Ok tt).

(** code/dynamix/type.cpp:136-145: the counter of objects of a type, changed when object buffers are
    allocated and freed (the rest of these functions is in the object model). *)
Definition set_nobj (t : type_rec) (n : nat) : type_rec := {|
  t_dom := t_dom t; t_mixins := t_mixins t; t_ftable := t_ftable t; t_offsets := t_offsets t;
  t_buf_size := t_buf_size t; t_buf_align := t_buf_align t; t_sparse := t_sparse t; t_nobj := n |}.
Definition with_type (w : world) (r : tref) (t : type_rec) : world := {|
  w_mid := w_mid w; w_mdom := w_mdom w; w_fid := w_fid w; w_dom := w_dom w;
  w_type := tupd (w_type w) r (Some t); w_next := w_next w |}.
Definition incr_nobj (w : world) (r : tref) : world * res unit :=
  match w_type w r with
  | None => (w, Ub UbDangling)
  | Some t => (with_type w r (set_nobj t (S (t_nobj t))), Ok tt)
  end.
Definition decr_nobj (w : world) (r : tref) : world * res unit :=
  match w_type w r with
  | None => (w, Ub UbDangling)
  | Some t =>
    match t_nobj t with
    | O => (w, Ub UbOverflow)
    | S n => (with_type w r (set_nobj t n), Ok tt)
    end
  end.

(** ** Operations and runs *)

Inductive dop :=
| DRegFeature (d : dptr) (f : fptr)
| DUnregFeature (d : dptr) (f : fptr)
| DRegMixin (d : dptr) (m : mptr)
| DUnregMixin (d : dptr) (m : mptr)
| DRegTc (d : dptr) (c : cptr)
| DUnregTc (d : dptr) (c : cptr)
| DAddRule (d : dptr) (r : rptr)
| DRemRule (d : dptr) (r : rptr)
| DGetType (d : dptr) (q : list mptr) (alloc_ok : bool)
| DGetTypeMut (d dm : dptr) (q : list mptr) (alloc_ok : bool)
| DGc (d : dptr)
| DNewObj (r : tref)    (* an object buffer of the type is allocated *)
| DDelObj (r : tref).   (* an object buffer of the type is freed *)

Definition forget {A} (x : world * res A) : world * res (option tref) :=
  (fst x, match snd x with Ok _ => Ok None | Throw e => Throw e | Ub u => Ub u end).
Definition retty (x : world * res tref) : world * res (option tref) :=
  (fst x, match snd x with Ok t => Ok (Some t) | Throw e => Throw e | Ub u => Ub u end).

(** One call of the public interface of a domain. *)
Definition dstep (w : world) (o : dop) : world * res (option tref) :=
  match o with
  | DRegFeature d f => forget (register_feature w d f)
  | DUnregFeature d f => forget (unregister_feature w d f)
  | DRegMixin d m => forget (register_mixin w d m)
  | DUnregMixin d m => forget (unregister_mixin w d m)
  | DRegTc d c => forget (register_type_class w d c)
  | DUnregTc d c => forget (unregister_type_class w d c)
  | DAddRule d r => forget (add_rule w d r)
  | DRemRule d r => forget (remove_rule w d r)
  | DGetType d q a => retty (get_type a w d q)
  | DGetTypeMut d dm q a => retty (get_type_mut a w d dm q)
  | DGc d => forget (gc w d)
  | DNewObj r => forget (incr_nobj w r)
  | DDelObj r => forget (decr_nobj w r)
  end.

(** A run with the results of the calls. Calls that throw are survived by the program, undefined
    behaviour ends it. *)
Definition trace := list (dop * res (option tref)).
Inductive run : world -> trace -> world -> Prop :=
| run_nil w : run w [] w
| run_snoc w tr w1 o r w2 :
    run w tr w1 -> dstep w1 o = (w2, r) -> ~ is_ub r -> run w (tr ++ [(o, r)]) w2.

Definition reachable (w : world) : Prop := exists tr, run init_world tr w.

End Domain.
