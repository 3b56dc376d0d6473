(** Objects and mutations of objects: code/dynamix/object.cpp, object.hpp, mutate_to.hpp, mutate_to_ops.hpp,
    mutate.hpp, mutate_ops.hpp, mutate-c.cpp *)
From Coq Require Import List Arith ZArith NArith Lia Bool.
From Verif Require Import Base Sv Info TypeMut TypeBuild TypeQuery Domain Heap Mutation.
Import ListNotations.

Definition with_otype (x : obj) (r : option tref) : obj := {|
  o_type := r; o_data := o_data x; o_alloc := o_alloc x; o_sealed := o_sealed x |}.
Definition with_odata (x : obj) (b : option nat) : obj := {|
  o_type := o_type x; o_data := b; o_alloc := o_alloc x; o_sealed := o_sealed x |}.
Definition with_sealed (x : obj) (b : bool) : obj := {|
  o_type := o_type x; o_data := o_data x; o_alloc := o_alloc x; o_sealed := b |}.

Section Object.
Variable E : env.
Variable U : user.

(** object.cpp:59-62 get_type; the assert is modelled *)
Definition the_type (x : obj) : M st (tref * type_rec) :=
  match o_type x with
  | Some r => let* t := get_ty r in ret (r, t)
  | None => ub UbAssert
  end.

(** Storage for a new object must not hold a living one. *)
Definition fresh_obj (o : nat) : M st unit := fun s =>
  match s_obj s o with None => (s, Ok tt) | Some _ => (s, Ub UbLifetime) end.
Definition mod_obj (o : nat) (f : obj -> obj) : M st unit :=
  let* x := get_obj o in put_obj o (Some (f x)).

(** Executes a member function of an object_mutation. *)
Definition run_mut (mu : omut) (a : M mst unit) : M st unit := fun s =>
  let '((_, s'), r) := a (mu, s) in (s', r).

(** object.cpp:295-301 clear_mixin_data *)
Definition clear_mixin_data (o : nat) : M st unit :=
  let* x := get_obj o in
  match o_data x with
  | None => ret tt
  | Some _ =>
    let* rt := the_type x in
    run_mut (inverse_mut o x (fst rt) (snd rt)) (rollback E);;
    mod_obj o (fun x => with_odata x None)
  end.

(** object.cpp:308-311: the loop of usurp *)
Fixpoint redirect_loop (b o : nat) (is : list nat) : M st unit :=
  match is with
  | [] => ret tt
  | i :: r =>
    let* d := read_data b i in
    set_object (md_mixin d) o;;
    redirect_loop b o r
  end.
(** object.cpp:303-316 usurp; indexing a null array is undefined *)
Definition usurp (o other : nat) : M st unit :=
  let* y := get_obj other in
  mod_obj o (fun x => {| o_type := o_type y; o_data := o_data y; o_alloc := o_alloc x; o_sealed := o_sealed y |});;
  let* rt := the_type y in
  (match o_data y with
   | Some b => redirect_loop b o (seq 0 (num_mixins (snd rt)))
   | None => if num_mixins (snd rt) =? 0 then ret tt else ub UbNull
   end);;
  mod_obj other (fun y => with_odata (with_otype y (Some (TEmpty (t_dom (snd rt))))) None).

(** object.cpp:13-16 object(domain, alloc) *)
Definition new_empty (o : nat) (d : dptr) (a : nat) : M st unit :=
  fresh_obj o;;
  put_obj o (Some {| o_type := Some (TEmpty d); o_data := None; o_alloc := a; o_sealed := false |}).

(** object.cpp:42-44 the destructor *)
Definition obj_dtor (o : nat) : M st unit := clear_mixin_data o;; put_obj o None.

(** object.cpp:242-254 reset_type; the assert of line 248 is modelled *)
Definition reset_type (unw : bool) (o : nat) (r : tref) : M st unit :=
  let* x := get_obj o in
  if o_sealed x then (let* _ := the_type x in raise ESealed)
  else if (match o_type x with Some q => tref_eqb r q | None => false end) then ret tt
  else
    let* t := get_ty r in
    if num_mixins t =? 0 then
      (if tref_eqb r (TEmpty (t_dom t)) then ret tt else ub UbAssert);;
      clear_mixin_data o;;
      mod_obj o (fun x => with_otype x (Some r))
    else perform E U unw o r (default_each E U None).

(** A constructor that delegates to object(nullptr, alloc) (object.cpp:37-40): when the body throws, the
    destructor is called *)
Definition with_new (o a : nat) (body : M st unit) : M st unit :=
  fresh_obj o;;
  put_obj o (Some {| o_type := None; o_data := None; o_alloc := a; o_sealed := false |});;
  fun s =>
    match body s with
    | (s', Throw e) => (obj_dtor o;; raise e) s'
    | x => x
    end.
(** object.cpp:24-29 object(type, alloc, create_sealed) *)
Definition new_of_type (unw : bool) (o : nat) (r : tref) (a : nat) (seal : bool) : M st unit :=
  with_new o a (reset_type unw o r;; mod_obj o (fun x => with_sealed x seal)).

(** object.cpp:31-35 object(object&&) *)
Definition new_moved (o src : nat) : M st unit :=
  let* y := get_obj src in
  fresh_obj o;;
  put_obj o (Some {| o_type := None; o_data := None; o_alloc := o_alloc y; o_sealed := false |});;
  usurp o src.

(** object.cpp:46-57 operator=(object&&) *)
Definition move_assign (o src : nat) : M st unit :=
  let* x := get_obj o in
  let* y := get_obj src in
  if o =? src then ret tt
  else if o_alloc x =? o_alloc y then
    if o_sealed x then (let* _ := the_type x in raise ESealed)
    else clear_mixin_data o;; usurp o src
  else (let* _ := the_type x in raise EMismatchedAllocators).

(** o.m_mixin_data[i].mixin for an object that may be empty *)
Definition data_at (x : obj) (i : nat) : M st addr :=
  match o_data x with
  | Some b => let* d := read_data b i in ret (md_mixin d)
  | None => ub UbNull
  end.

(** object.cpp:68-87 copy: [o] is the address of the returned object (the local variable is the result object) *)
Definition copy_new (y : obj) : cb_new := fun m p ti =>
  let* src := data_at y ti in
  if m_copy_init (e_mixin E m) then construct E U FCopyInit m p (Some src) else raise EMissingFunc.
Definition copy (unw : bool) (o src a : nat) : M st unit :=
  let* y := get_obj src in
  with_new o a (
    match o_data y with
    | None => mod_obj o (fun x => with_otype x (o_type y))
    | Some _ =>
      let* rt := the_type y in
      perform E U unw o (fst rt) (construct_each (copy_new y) None)
    end).

(** object.cpp:99-109: the availability check of copy_from *)
Fixpoint check_copy (mid : mptr -> option nat) (own : type_rec) (ms : list mptr) : res unit :=
  match ms with
  | [] => Ok tt
  | m :: r =>
    if type_has_id own (mid m) then
      if m_copy_asgn (e_mixin E m) then check_copy mid own r else Throw EMissingFunc
    else
      if m_copy_init (e_mixin E m) then check_copy mid own r else Throw EMissingFunc
  end.
Definition copy_common (y : obj) : cb_common := fun m p ti _ =>
  let* src := data_at y ti in
  if m_copy_asgn (e_mixin E m) then copy_asgn U m p src else ub UbNull.
Definition copy_new_checked (y : obj) : cb_new := fun m p ti =>
  let* src := data_at y ti in
  if m_copy_init (e_mixin E m) then construct E U FCopyInit m p (Some src) else ub UbNull.
Definition the_mid : M st (mptr -> option nat) := fun s => (s, Ok (w_mid (s_w s))).
(** object.cpp:89-123 copy_from *)
Definition copy_from (unw : bool) (o src : nat) : M st unit :=
  let* x := get_obj o in
  let* y := get_obj src in
  match o_data y with
  | None =>
    if o_sealed x then (let* _ := the_type x in raise ESealed)
    else clear_mixin_data o;; mod_obj o (fun x => with_otype x (o_type y))
  | Some _ =>
    let* yt := the_type y in
    let* xt := the_type x in
    let* mid := the_mid in
    (fun s => (s, check_copy mid (snd xt) (t_mixins (snd yt))));;
    perform E U unw o (fst yt) (update_each (copy_new_checked y) (copy_common y) None)
  end.

(** object.cpp:129-135 and 138-149: check and loop of copy_matching_from *)
Fixpoint check_copy_matching (mid : mptr -> option nat) (own : type_rec) (ms : list mptr) : res unit :=
  match ms with
  | [] => Ok tt
  | m :: r =>
    if type_has_id own (mid m) then
      if m_copy_asgn (e_mixin E m) then check_copy_matching mid own r else Throw EMissingFunc
    else check_copy_matching mid own r
  end.
Fixpoint copy_matching_loop (mid : mptr -> option nat) (x y : obj) (own : type_rec) (ms : list (nat * mptr)) : M st unit :=
  match ms with
  | [] => ret tt
  | (si, m) :: r =>
    (match index_of own (mid m) with
     | None => ret tt
     | Some oi =>
       let* p := data_at x oi in
       let* q := data_at y si in
       if m_copy_asgn (e_mixin E m) then copy_asgn U m p q else ub UbNull
     end);;
    copy_matching_loop mid x y own r
  end.
(** object.cpp:125-150 copy_matching_from *)
Definition copy_matching_from (o src : nat) : M st unit :=
  let* x := get_obj o in
  let* y := get_obj src in
  let* yt := the_type y in
  let* xt := the_type x in
  let* mid := the_mid in
  (fun s => (s, check_copy_matching mid (snd xt) (t_mixins (snd yt))));;
  copy_matching_loop mid x y (snd xt) (enumerate 0 (t_mixins (snd yt))).

(** object.cpp:156-165 and 167-187: check and loop of move_matching_from; the asserts are modelled *)
Fixpoint check_move_matching (fb : bool) (mid : mptr -> option nat) (own : type_rec) (ms : list mptr) : res unit :=
  match ms with
  | [] => Ok tt
  | m :: r =>
    if type_has_id own (mid m) then
      if m_move_asgn (e_mixin E m) || (fb && m_move_init (e_mixin E m)) then check_move_matching fb mid own r else Throw EMissingFunc
    else check_move_matching fb mid own r
  end.
Fixpoint move_matching_loop (fb : bool) (mid : mptr -> option nat) (x y : obj) (own : type_rec) (ms : list (nat * mptr)) : M st unit :=
  match ms with
  | [] => ret tt
  | (si, m) :: r =>
    (match index_of own (mid m) with
     | None => ret tt
     | Some oi =>
       let* p := data_at x oi in
       let* q := data_at y si in
       if m_move_asgn (e_mixin E m) then move_asgn U m p q
       else if negb fb then ub UbAssert
       else
         destroy E m p;;
         if m_move_init (e_mixin E m) then move_init E U m p q else ub UbAssert
     end);;
    move_matching_loop fb mid x y own r
  end.
(** object.cpp:152-188 move_matching_from *)
Definition move_matching_from (fb : bool) (o src : nat) : M st unit :=
  let* x := get_obj o in
  let* y := get_obj src in
  let* yt := the_type y in
  let* xt := the_type x in
  let* mid := the_mid in
  (fun s => (s, check_move_matching fb mid (snd xt) (t_mixins (snd yt))));;
  move_matching_loop fb mid x y (snd xt) (enumerate 0 (t_mixins (snd yt))).

(** object.cpp:236-240 clear *)
Definition clear (o : nat) : M st unit :=
  let* x := get_obj o in
  let* rt := the_type x in
  if o_sealed x then raise ESealed
  else clear_mixin_data o;; mod_obj o (fun x => with_otype x (Some (TEmpty (t_dom (snd rt))))).

(** object.hpp:188 seal *)
Definition seal (o : nat) : M st unit := mod_obj o (fun x => with_sealed x true).

(** ** Queries; they do not change anything *)

(** object.hpp:142-149 get_at *)
Definition get_at (s : st) (o i : nat) : res (option addr) :=
  snd ((let* x := get_obj o in
        let* rt := the_type x in
        if i <? num_mixins (snd rt) then let* p := data_at x i in ret (Some p) else ret None) s).
(** object.cpp:208-225 get(id), get(info); object.cpp:226-234 get(name) *)
Definition get_by (s : st) (o : nat) (idx : type_rec -> option nat) : res (option addr) :=
  snd ((let* x := get_obj o in
        let* rt := the_type x in
        match idx (snd rt) with
        | Some i => let* p := data_at x i in ret (Some p)
        | None => ret None
        end) s).
Definition get (s : st) (o : nat) (id : option nat) : res (option addr) := get_by s o (fun t => index_of t id).
Definition get_name (s : st) (o : nat) (nm : list N) : res (option addr) := get_by s o (fun t => index_of_name E t nm).
(** object.cpp:198-206 has *)
Definition has (s : st) (o : nat) (id : option nat) : res bool :=
  snd ((let* x := get_obj o in let* rt := the_type x in ret (type_has_id (snd rt) id)) s).
(** object.hpp:181 empty *)
Definition is_empty (s : st) (o : nat) : res bool :=
  snd ((let* x := get_obj o in ret (match o_data x with None => true | Some _ => false end)) s).

(** object.cpp:260-273: the loop of equals *)
Fixpoint equals_loop (x y : obj) (ms : list (nat * mptr)) : M st bool :=
  match ms with
  | [] => ret true
  | (i, m) :: r =>
    let* p := data_at x i in
    let* q := data_at y i in
    if m_equals (e_mixin E m) then
      let* a := live m p in
      let* b := live m q in
      if u_equals U m (i_val a) (i_val b) then equals_loop x y r else ret false
    else if m_compare (e_mixin E m) then
      let* a := live m p in
      let* b := live m q in
      if (u_compare U m (i_val a) (i_val b) =? 0)%Z then equals_loop x y r else ret false
    else ret false
  end.
Definition same_otype (x y : obj) : bool :=
  match o_type x, o_type y with
  | Some a, Some b => tref_eqb a b
  | None, None => true
  | _, _ => false
  end.
(** object.cpp:256-276 equals *)
Definition equals (s : st) (o other : nat) : res bool :=
  snd ((let* x := get_obj o in
        let* y := get_obj other in
        if o =? other then ret true
        else if negb (same_otype x y) then ret false
        else let* rt := the_type x in equals_loop x y (enumerate 0 (t_mixins (snd rt)))) s).

(** object.cpp:284-290: the loop of compare *)
Fixpoint compare_loop (x y : obj) (ms : list (nat * mptr)) : M st Z :=
  match ms with
  | [] => ret 0%Z
  | (i, m) :: r =>
    if m_compare (e_mixin E m) then
      let* p := data_at x i in
      let* q := data_at y i in
      let* a := live m p in
      let* b := live m q in
      let c := u_compare U m (i_val a) (i_val b) in
      if (c =? 0)%Z then compare_loop x y r else ret c
    else raise EMissingFunc
  end.
(** object.cpp:278-293 compare *)
Definition compare (s : st) (o other : nat) : res Z :=
  snd ((let* x := get_obj o in
        let* y := get_obj other in
        if o =? other then ret 0%Z
        else
          let* xt := the_type x in
          let* yt := the_type y in
          let* c := (fun s => (s, type_compare E (w_mid (s_w s)) (tref_eqb (fst xt) (fst yt)) (snd xt) (snd yt))) in
          if negb (c =? 0)%Z then ret c
          else compare_loop x y (enumerate 0 (t_mixins (snd xt)))) s).

(** ** mutate_to *)

(** An op given to mutate_to (object_mutate_ops.hpp:17-64, mutate_to_ops.hpp:14-39): one that has nothing to do
    with the initialisation, an override number [k] for a mixin, or one for a mixin given by name.
    The function of override [k] constructs the mixin it was made for. *)
Inductive mop := MSimple | MInit (k : nat) (m : mptr) | MInitName (k : nat) (nm : list N).

(** to_obj_mutate (object_mutate_ops.hpp:24, mutate_to_ops.hpp:22-25, mutate_ops.hpp:11-13) and the filter of
    mutate_to.hpp:33-40: number, mixin and index of an op, or nothing. A name that is not registered leads to a
    null pointer. *)
Definition resolve_op (w : world) (d : dptr) (t : type_rec) (op : mop) : res (list (nat * mptr * nat)) :=
  let found k m := match index_of t (w_mid w m) with Some i => Ok [(k, m, i)] | None => Ok [] end in
  match op with
  | MSimple => Ok []
  | MInit k m => found k m
  | MInitName k nm => match get_mixin_by_name E w d nm with Some m => found k m | None => Ub UbNull end
  end.
Fixpoint resolve_ops (w : world) (d : dptr) (t : type_rec) (ops : list mop) : res (list (nat * mptr * nat)) :=
  match ops with
  | [] => Ok []
  | op :: r => do a <- resolve_op w d t op; do b <- resolve_ops w d t r; Ok (a ++ b)
  end.
(** mutate_to.hpp:43-45 the sort by index. For equal indices std::sort may give any order; the model keeps one. *)
Definition sort_ops : list (nat * mptr * nat) -> list (nat * mptr * nat) := sort_by (fun a b => snd a <? snd b).

(** do_init of override [k] made for [m] (object_mutate_ops.hpp:38-40, 61-63), called on another mixin's buffer if
    the library does so *)
Definition do_init (k : nat) (m : mptr) : cb_new := fun _ p _ => construct E U (FOverride k) m p None.

(** mutate_to.hpp:49-55 *)
Fixpoint ops_loop (ops : list (nat * mptr * nat)) : M mst unit :=
  match ops with
  | [] => ret tt
  | (k, m, i) :: r =>
    default_each E U (Some i);;
    update_next (do_init k m) noop_common;;
    ops_loop r
  end.

(** mutate_to.hpp:12-14 for no ops, 16-56 for some *)
Definition mutate_to (unw : bool) (o : nat) (r : tref) (ops : list mop) : M st unit :=
  match ops with
  | [] => reset_type unw o r
  | _ =>
    let* x := get_obj o in
    let* xt := the_type x in
    if tref_eqb (fst xt) r then ret tt
    else
      let* t := get_ty r in
      let* l := (fun s => (s, resolve_ops (s_w s) (t_dom (snd xt)) t ops)) in
      perform E U unw o r (ops_loop (sort_ops l))
  end.

(** ** mutate *)

(** An op given to mutate (mutate_ops.hpp:25-82). [AddInit k m] is add with arguments or with a function. *)
Inductive mutop :=
| MAdd (m : mptr) | MAddName (nm : list N) | MAddInit (k : nat) (m : mptr)
| MRemove (m : mptr) | MRemoveName (nm : list N)
| MBack (m : mptr) | MBackName (nm : list N).

(** apply_to_type_mutation, mutate_ops.hpp:25-82 *)
Definition apply_mutop (lk : lookup) (op : mutop) (l : list mptr) : res (list mptr) :=
  match op with
  | MAdd m | MAddInit _ m => Ok (tm_add m l)
  | MAddName nm => tm_add_name lk nm l
  | MRemove m => Ok (fst (tm_remove m l))
  | MRemoveName nm => Ok (fst (tm_remove_name E nm l))
  | MBack m => tm_to_back m l
  | MBackName nm => tm_to_back_name E nm l
  end.
Fixpoint apply_mutops (lk : lookup) (ops : list mutop) (l : list mptr) : res (list mptr) :=
  match ops with
  | [] => Ok l
  | op :: r => do l' <- apply_mutop lk op l; apply_mutops lk r l'
  end.
Definition mop_of (op : mutop) : mop := match op with MAddInit k m => MInit k m | _ => MSimple end.

(** The type for a mutation of the type [t] of an object: type_mutation (type_mutation.cpp:25-29) of it, changed by
    [f], given to get_type; mutate.hpp:13-17, 100-102, mutate-c.cpp:74-97.
    [aok]: can the type be allocated? *)
Definition mutated_type (aok : bool) (t : type_rec) (f : lookup -> list mptr -> res (list mptr)) : M st tref :=
  let d := t_dom t in
  let* l := (fun s => (s, f (get_mixin_by_name E (s_w s) d) (t_mixins t))) in
  on_world (fun w => get_type_mut E aok w d d l).

(** mutate.hpp:11-20 mutate(obj, ops...) with at least one op *)
Definition mutate (unw aok : bool) (o : nat) (ops : list mutop) : M st unit :=
  let* x := get_obj o in
  let* xt := the_type x in
  let* r := mutated_type aok (snd xt) (fun lk => apply_mutops lk ops) in
  mutate_to unw o r (map mop_of ops).

(** mutate.hpp:24-112 gradual_mutation: its calls, then apply in the destructor (or nothing when an exception is
    in flight, line 34). GradMut.v has mutations that live longer, with apply and cancel. *)
Inductive gop := GOp (op : mutop) | GAddIfLacking (m : mptr) | GAddIfLackingName (nm : list N).
Definition apply_gop (lk : lookup) (op : gop) (l : list mptr) : res (list mptr) :=
  match op with
  | GOp op => apply_mutop lk op l
  | GAddIfLacking m => Ok (tm_add_if_lacking m l)
  | GAddIfLackingName nm => tm_add_if_lacking_name E lk nm l
  end.
Fixpoint apply_gops (lk : lookup) (ops : list gop) (l : list mptr) : res (list mptr) :=
  match ops with
  | [] => Ok l
  | op :: r => do l' <- apply_gop lk op l; apply_gops lk r l'
  end.
Definition gradual (unw aok : bool) (o : nat) (ops : list gop) : M st unit :=
  let* x := get_obj o in
  let* xt := the_type x in
  if unw then
    (fun s => (s, do _ <- apply_gops (get_mixin_by_name E (s_w s) (t_dom (snd xt))) ops (t_mixins (snd xt)); Ok tt))
  else
    let* r := mutated_type aok (snd xt) (fun lk => apply_gops lk ops) in
    reset_type unw o r.

(** ** The C functions. An exception inside makes them return -1; here the exception is the result. *)

(** code/dnmx/mutate.h:28-34 dnmx_mutate_to_override; functions by their number *)
Record cover := { co_mixin : option mptr; co_name : list N; co_init : option nat; co_update : option nat }.
(** mutate-c.cpp:30-33 *)
Definition cover_matches (m : mptr) (c : cover) : bool :=
  match co_mixin c with
  | Some x => x =? m
  | None => bytes_eqb (co_name c) (sv_bytes (m_name (e_mixin E m)))
  end.
(** mutate-c.cpp:36-46 wrap_init *)
Definition wrap_init (c : cover) : cb_new := fun m p ti =>
  match co_init c with
  | Some k => construct E U (FOverride k) m p None
  | None => default_init E U m p ti
  end.
(** mutate-c.cpp:48-58 wrap_update *)
Definition wrap_update (c : cover) : cb_common := fun m p ti oi =>
  match co_update c with
  | Some k => update U k m p
  | None => noop_common m p ti oi
  end.
(** mutate-c.cpp:28-61 *)
Fixpoint cover_loop (cs : list cover) (ms : list (nat * mptr)) : M mst unit :=
  match ms with
  | [] => ret tt
  | (i, m) :: r =>
    (match find (cover_matches m) cs with
     | None => ret tt
     | Some c => update_at E U i (wrap_init c) (wrap_update c)
     end);;
    cover_loop cs r
  end.
(** mutate-c.cpp:22-68 dnmx_mutate_to *)
Definition c_mutate_to (unw : bool) (o : nat) (r : tref) (cs : list cover) : M st unit :=
  let* t := get_ty r in
  perform E U unw o r (cover_loop cs (enumerate 0 (t_mixins t))).

(** code/dnmx/mutate.h:42-54 dnmx_mutate_op: 0 add, 1 remove, 2 to_back *)
Record cop := { cp_op : Z; cp_mixin : option mptr; cp_name : list N; cp_init : option nat }.
(** mutate-c.cpp:76-95; an unknown kind returns -1 (EAddUnknown stands for it) *)
Definition cop_mutop (c : cop) : option mutop :=
  match cp_op c, cp_mixin c with
  | 0%Z, Some m => Some (MAdd m)
  | 0%Z, None => Some (MAddName (cp_name c))
  | 1%Z, Some m => Some (MRemove m)
  | 1%Z, None => Some (MRemoveName (cp_name c))
  | 2%Z, Some m => Some (MBack m)
  | 2%Z, None => Some (MBackName (cp_name c))
  | _, _ => None
  end.
Fixpoint apply_cops (lk : lookup) (cs : list cop) (l : list mptr) : res (list mptr) :=
  match cs with
  | [] => Ok l
  | c :: r =>
    match cop_mutop c with
    | None => Throw EAddUnknown
    | Some op => do l' <- apply_mutop lk op l; apply_cops lk r l'
    end
  end.
(** mutate-c.cpp:102-109 *)
Definition cop_matches (m : mptr) (c : cop) : bool :=
  (cp_op c =? 0)%Z &&
  match cp_init c with None => false | Some _ => true end &&
  match cp_mixin c with
  | Some x => x =? m
  | None => bytes_eqb (cp_name c) (sv_bytes (m_name (e_mixin E m)))
  end.
(** mutate-c.cpp:111-116 *)
Definition wrap_cop (c : cop) : cb_new := fun m p _ =>
  match cp_init c with
  | Some k => construct E U (FOverride k) m p None
  | None => ub UbNull
  end.
(** mutate-c.cpp:100-119 *)
Fixpoint cop_loop (cs : list cop) (ms : list (nat * mptr)) : M mst unit :=
  match ms with
  | [] => ret tt
  | (i, m) :: r =>
    (match find (cop_matches m) cs with
     | None => ret tt
     | Some c => update_at E U i (wrap_cop c) noop_common
     end);;
    cop_loop cs r
  end.
(** mutate-c.cpp:70-126 dnmx_mutate *)
Definition c_mutate (unw aok : bool) (o : nat) (cs : list cop) : M st unit :=
  let* x := get_obj o in
  let* xt := the_type x in
  let* r := mutated_type aok (snd xt) (fun lk => apply_cops lk cs) in
  let* t := get_ty r in
  perform E U unw o r (cop_loop cs (enumerate 0 (t_mixins t))).

(** ** Direct use of object_mutation *)

(** One call of a member function with functions number [k] *)
Inductive pstep :=
| PAt (i k : nat)                 (* update_at *)
| PNext (k : nat)                 (* update_next_mixin *)
| PEach (k : nat) (upto : option nat)   (* update_each_mixin *)
| PDefault (upto : option nat)    (* default_construct_each_new_mixin *)
| PFinalize | PRollback.
Definition user_new (k : nat) : cb_new := fun m p _ => construct E U (FOverride k) m p None.
Definition user_common (k : nat) : cb_common := fun m p _ _ => update U k m p.
Definition run_pstep (p : pstep) : M mst unit :=
  match p with
  | PAt i k => update_at E U i (user_new k) (user_common k)
  | PNext k => update_next (user_new k) (user_common k)
  | PEach k u => update_each (user_new k) (user_common k) u
  | PDefault u => default_each E U u
  | PFinalize => finalize E U
  | PRollback => rollback E
  end.
Fixpoint run_psteps (ps : list pstep) : M mst unit :=
  match ps with
  | [] => ret tt
  | p :: r => run_pstep p;; run_psteps r
  end.
Definition piecewise (unw : bool) (o : nat) (r : tref) (ps : list pstep) : M st unit := perform E U unw o r (run_psteps ps).

(** ** Use of mixins by the program *)

(** object.hpp:142-149 get_at (or get, 135-164, or a message): the program asks object [o] for its mixin at index [i] and
    calls its own function number [k] with it, which leaves any value in the mixin and may throw. Nothing is called when
    there is no such mixin (null). Simplified: the function works on that mixin only and does not call the library. *)
Definition use_mixin (o i k : nat) : M st unit :=
  let* x := get_obj o in
  let* xt := the_type x in
  match nth_error (t_mixins (snd xt)) i with
  | None => ret tt
  | Some m => let* p := data_at x i in update U k m p
  end.

(** ** Operations and histories *)

(** One call of the public interface, or the use of one mixin. [unw]: the call is made while an exception is in flight. *)
Inductive oop :=
| OEmpty (o : nat) (d : dptr) (a : nat)
| ONew (unw : bool) (o : nat) (r : tref) (a : nat) (sealed : bool)
| OMoved (o src : nat)
| ODtor (o : nat)
| OMoveAssign (o src : nat)
| OCopy (unw : bool) (o src a : nat)
| OCopyFrom (unw : bool) (o src : nat)
| OCopyMatching (o src : nat)
| OMoveMatching (fb : bool) (o src : nat)
| OClear (o : nat)
| OReset (unw : bool) (o : nat) (r : tref)
| OSeal (o : nat)
| OMutateTo (unw : bool) (o : nat) (r : tref) (ops : list mop)
| OMutate (unw aok : bool) (o : nat) (ops : list mutop)
| OGradual (unw aok : bool) (o : nat) (ops : list gop)
| OCMutateTo (unw : bool) (o : nat) (r : tref) (cs : list cover)
| OCMutate (unw aok : bool) (o : nat) (cs : list cop)
| OPiecewise (unw : bool) (o : nat) (r : tref) (ps : list pstep)
| ODom (op : dop)
| OUse (o i k : nat).

Definition op_run (op : oop) : M st unit :=
  match op with
  | OEmpty o d a => new_empty o d a
  | ONew unw o r a sl => new_of_type unw o r a sl
  | OMoved o src => new_moved o src
  | ODtor o => obj_dtor o
  | OMoveAssign o src => move_assign o src
  | OCopy unw o src a => copy unw o src a
  | OCopyFrom unw o src => copy_from unw o src
  | OCopyMatching o src => copy_matching_from o src
  | OMoveMatching fb o src => move_matching_from fb o src
  | OClear o => clear o
  | OReset unw o r => reset_type unw o r
  | OSeal o => seal o
  | OMutateTo unw o r ops => mutate_to unw o r ops
  | OMutate unw aok o ops => mutate unw aok o ops
  | OGradual unw aok o ops => gradual unw aok o ops
  | OCMutateTo unw o r cs => c_mutate_to unw o r cs
  | OCMutate unw aok o cs => c_mutate unw aok o cs
  | OPiecewise unw o r ps => piecewise unw o r ps
  | ODom op => let* _ := on_world (fun w => dstep E w op) in ret tt
  | OUse o i k => use_mixin o i k
  end.

(** No object, no memory, fresh domains. *)
Definition init_st : st := {|
  s_w := init_world E; s_blk := fun _ => None; s_next := 0; s_obj := fun _ => None; s_calls := 0; s_log := []; s_seen := [] |}.

(** Histories: [ok] restricts the calls of the program. Exceptions are survived, undefined behaviour ends it. *)
Definition otrace := list (oop * res unit).
Inductive orun (ok : st -> oop -> Prop) : otrace -> st -> Prop :=
| or_nil : orun ok [] init_st
| or_snoc tr s op r s' : orun ok tr s -> ok s op -> op_run op s = (s', r) -> ~ is_ub r ->
    orun ok (tr ++ [(op, r)]) s'.

End Object.
