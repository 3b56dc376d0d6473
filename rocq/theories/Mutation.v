(** object_mutation: code/dynamix/object_mutation.cpp, object_mutation.hpp *)
From Coq Require Import List Arith ZArith NArith Lia Bool.
From Verif Require Import Base Sv Info TypeBuild TypeQuery Domain Heap.
Import ListNotations.

(** object_mutation.hpp:125-164: the members.
    Simplified: next to the reference of a type there is its record, because all of its members that are used
    here are constant (type.hpp:27-69). *)
Record omut := {
  mu_obj : nat;                          (* m_object *)
  mu_old : option (tref * type_rec);     (* m_old_type *)
  mu_odata : option nat;                 (* m_old_mixin_data *)
  mu_ref : tref;                         (* m_target_type *)
  mu_ty : type_rec;
  mu_tdata : option nat;                 (* m_target_mixin_data *)
  mu_au : nat;                           (* m_allocated_upto *)
  mu_uu : nat;                           (* m_updated_upto *)
  mu_complete : bool;
  mu_moved : bool                        (* m_moved_out_from *)
}.

Definition mst := (omut * st)%type.

Definition with_tdata (mu : omut) (b : option nat) : omut := {|
  mu_obj := mu_obj mu; mu_old := mu_old mu; mu_odata := mu_odata mu; mu_ref := mu_ref mu; mu_ty := mu_ty mu;
  mu_tdata := b; mu_au := mu_au mu; mu_uu := mu_uu mu; mu_complete := mu_complete mu; mu_moved := mu_moved mu |}.
Definition with_au (mu : omut) (n : nat) : omut := {|
  mu_obj := mu_obj mu; mu_old := mu_old mu; mu_odata := mu_odata mu; mu_ref := mu_ref mu; mu_ty := mu_ty mu;
  mu_tdata := mu_tdata mu; mu_au := n; mu_uu := mu_uu mu; mu_complete := mu_complete mu; mu_moved := mu_moved mu |}.
Definition with_uu (mu : omut) (n : nat) (c : bool) : omut := {|
  mu_obj := mu_obj mu; mu_old := mu_old mu; mu_odata := mu_odata mu; mu_ref := mu_ref mu; mu_ty := mu_ty mu;
  mu_tdata := mu_tdata mu; mu_au := mu_au mu; mu_uu := n; mu_complete := c; mu_moved := mu_moved mu |}.
Definition with_moved (mu : omut) : omut := {|
  mu_obj := mu_obj mu; mu_old := mu_old mu; mu_odata := mu_odata mu; mu_ref := mu_ref mu; mu_ty := mu_ty mu;
  mu_tdata := mu_tdata mu; mu_au := mu_au mu; mu_uu := mu_uu mu; mu_complete := mu_complete mu; mu_moved := true |}.
Definition with_old_null (mu : omut) : omut := {|
  mu_obj := mu_obj mu; mu_old := None; mu_odata := None; mu_ref := mu_ref mu; mu_ty := mu_ty mu;
  mu_tdata := mu_tdata mu; mu_au := mu_au mu; mu_uu := mu_uu mu; mu_complete := mu_complete mu; mu_moved := mu_moved mu |}.

Section Mutation.
Variable E : env.
Variable U : user.

Definition lift {A} (x : M st A) : M mst A := fun p => let (s, r) := x (snd p) in ((fst p, s), r).
Definition get_mu : M mst omut := fun p => (p, Ok (fst p)).
Definition set_mu (f : omut -> omut) : M mst unit := fun p => ((f (fst p), snd p), Ok tt).
(** the ids in the mixin infos *)
Definition get_mid : M mst (mptr -> option nat) := fun p => (p, Ok (w_mid (s_w (snd p)))).

(** &m_target_type == m_old_type *)
Definition same_type (mu : omut) : bool :=
  match mu_old mu with Some (r, _) => tref_eqb r (mu_ref mu) | None => false end.

(** m_old_mixin_data && m_old_type->has(info.id), and then m_old_type->sparse_mixin_indices[info.iid()]:
    the block and the index of the old mixin.
    The members are never such that the data is there and the type is null (object_mutation.hpp:128-130). *)
Definition old_slot (mu : omut) (mid : mptr -> option nat) (m : mptr) : option (nat * nat) :=
  match mu_odata mu, mu_old mu with
  | Some ob, Some (_, ot) => match index_of ot (mid m) with Some oi => Some (ob, oi) | None => None end
  | _, _ => None
  end.

(** m_target_type.mixins[ti], mixin_offsets[ti], m_target_mixin_data *)
Definition target_mixin (mu : omut) (ti : nat) : M mst mptr :=
  match nth_error (t_mixins (mu_ty mu)) ti with Some m => ret m | None => ub UbOutOfBounds end.
Definition target_offset (mu : omut) (ti : nat) : M mst N :=
  match nth_error (t_offsets (mu_ty mu)) ti with Some o => ret o | None => ub UbOutOfBounds end.
Definition target_data (mu : omut) : M mst nat :=
  match mu_tdata mu with Some b => ret b | None => ub UbNull end.
Definition num_mixins (t : type_rec) : nat := length (t_mixins t).

(** The allocator of an external mixin: its own or the one of the object; object_mutation.cpp:119-126, 68-85 *)
Definition ext_alloc (o : obj) (m : mptr) : aid :=
  match m_allocator (e_mixin E m) with Some a => AMix a | None => AObj (o_alloc o) end.
Definition alloc_external (o : obj) (m : mptr) : M st nat :=
  alloc U (ext_alloc o m) (m_buf_size (e_mixin E m)) (m_buf_off (e_mixin E m)).
(** object_mutation.cpp:155-162, 237-244 *)
Definition free_external (o : obj) (m : mptr) (b : nat) : M st unit :=
  free E (ext_alloc o m) b (m_buf_size (e_mixin E m)) (m_buf_off (e_mixin E m)).

(** object_mutation.cpp:106-137: the body of the loop for one index *)
Definition alloc_one (ti : nat) : M mst unit :=
  let* mu := get_mu in
  let* off := target_offset mu ti in
  let* tb := target_data mu in
  (if negb (off =? 0)%N then
     lift (write_data tb ti {| md_buf := None; md_mixin := (tb, off) |});;
     lift (set_object (tb, off) (mu_obj mu))
   else
     let* m := target_mixin mu ti in
     let* mid := get_mid in
     match old_slot mu mid m with
     | Some (ob, oi) =>
       let* d := lift (read_data ob oi) in
       lift (write_data tb ti d)
     | None =>
       let* o := lift (get_obj (mu_obj mu)) in
       let* e := lift (alloc_external o m) in
       lift (write_data tb ti {| md_buf := Some e; md_mixin := (e, m_buf_off (e_mixin E m)) |});;
       lift (set_object (e, m_buf_off (e_mixin E m)) (mu_obj mu))
     end);;
  set_mu (fun mu => with_au mu (S ti)).
Fixpoint alloc_loop (tis : list nat) : M mst unit :=
  match tis with
  | [] => ret tt
  | ti :: r => alloc_one ti;; alloc_loop r
  end.

(** object_mutation.cpp:87-138 allocate_mixin_data *)
Definition allocate_mixin_data : M mst unit :=
  let* mu := get_mu in
  if same_type mu then set_mu (fun mu => with_tdata mu (mu_odata mu))
  else
    let* o := lift (get_obj (mu_obj mu)) in
    let* b := lift (allocate_object_buffer U (mu_ref mu) (mu_ty mu) (o_alloc o)) in
    set_mu (fun mu => with_tdata mu (Some b));;
    alloc_loop (seq 0 (num_mixins (mu_ty mu))).

(** object_mutation.cpp:143-163: the body of the loop for one index *)
Definition dealloc_one (ti : nat) : M mst unit :=
  let* mu := get_mu in
  let* tb := target_data mu in
  let* d := lift (read_data tb ti) in
  match md_buf d with
  | None => ret tt
  | Some b =>
    let* m := target_mixin mu ti in
    let* mid := get_mid in
    match old_slot mu mid m with
    | Some _ => ret tt
    | None => let* o := lift (get_obj (mu_obj mu)) in lift (free_external o m b)
    end
  end.
(** for (ti = n; ti-- > 0;) *)
Fixpoint down_loop (f : nat -> M mst unit) (n : nat) : M mst unit :=
  match n with
  | O => ret tt
  | S k => f k;; down_loop f k
  end.

(** object_mutation.cpp:140-174 deallocate_mixin_data; the assert of line 141 is modelled *)
Definition deallocate_mixin_data : M mst unit :=
  let* mu := get_mu in
  if negb (mu_uu mu =? 0) then ub UbAssert
  else
    down_loop dealloc_one (mu_au mu);;
    set_mu (fun mu => with_au mu 0);;
    match mu_tdata mu with
    | None => ret tt
    | Some tb =>
      let* o := lift (get_obj (mu_obj mu)) in
      lift (deallocate_object_buffer E (mu_ref mu) (mu_ty mu) (o_alloc o) tb);;
      set_mu (fun mu => with_tdata mu None)
    end.

(** object_mutation.cpp:178-183: the body of the loop for one index *)
Definition destroy_one (ti : nat) : M mst unit :=
  let* mu := get_mu in
  let* m := target_mixin mu ti in
  let* mid := get_mid in
  match old_slot mu mid m with
  | Some _ => ret tt
  | None =>
    if m_destroy (e_mixin E m) then
      let* tb := target_data mu in
      let* d := lift (read_data tb ti) in
      lift (destroy E m (md_mixin d))
    else ret tt
  end.
(** object_mutation.cpp:176-185 destroy_new_mixins *)
Definition destroy_new_mixins : M mst unit :=
  let* mu := get_mu in
  down_loop destroy_one (mu_uu mu);;
  set_mu (fun mu => with_uu mu 0 (mu_complete mu)).

(** object_mutation.cpp:187-196 rollback *)
Definition rollback : M mst unit :=
  set_mu (fun mu => with_uu mu (mu_uu mu) false);;
  let* mu := get_mu in
  (if negb (same_type mu) then destroy_new_mixins;; deallocate_mixin_data else ret tt);;
  set_mu with_moved.

(** object_mutation.cpp:208-246: the body of the loop for one index *)
Definition finalize_one (ob : nat) (ot : type_rec) (oi : nat) : M mst unit :=
  let* mu := get_mu in
  let* m := (match nth_error (t_mixins ot) oi with Some m => ret m | None => ub UbOutOfBounds end) in
  let* d := lift (read_data ob oi) in
  let* mid := get_mid in
  match index_of (mu_ty mu) (mid m) with
  | Some ti =>
    match md_buf d with
    | Some _ => ret tt
    | None =>
      let* tb := target_data mu in
      let* nd := lift (read_data tb ti) in
      (if m_move_init (e_mixin E m) then lift (move_init E U m (md_mixin nd) (md_mixin d)) else ub UbNull);;
      lift (destroy E m (md_mixin d))
    end
  | None =>
    lift (destroy E m (md_mixin d));;
    match md_buf d with
    | None => ret tt
    | Some b => let* o := lift (get_obj (mu_obj mu)) in lift (free_external o m b)
    end
  end.
Fixpoint finalize_loop (ob : nat) (ot : type_rec) (ois : list nat) : M mst unit :=
  match ois with
  | [] => ret tt
  | oi :: r => finalize_one ob ot oi;; finalize_loop ob ot r
  end.

(** object_mutation.cpp:253-255: the object gets the target *)
Definition install : M mst unit :=
  let* mu := get_mu in
  let* o := lift (get_obj (mu_obj mu)) in
  lift (put_obj (mu_obj mu) (Some {| o_type := Some (mu_ref mu); o_data := mu_tdata mu;
                                     o_alloc := o_alloc o; o_sealed := o_sealed o |})).

(** object_mutation.cpp:198-256 finalize *)
Definition finalize : M mst unit :=
  let* mu := get_mu in
  if negb (mu_complete mu) then ret tt
  else if same_type mu then set_mu with_old_null
  else
    (match mu_odata mu with
     | None => ret tt
     | Some ob =>
       match mu_old mu with
       | None => ub UbAssert
       | Some (r, ot) =>
         finalize_loop ob ot (seq 0 (num_mixins ot));;
         let* o := lift (get_obj (mu_obj mu)) in
         lift (deallocate_object_buffer E r ot (o_alloc o) ob);;
         set_mu with_old_null
       end
     end);;
    install.

(** What update_next_mixin calls: for a new mixin (info, buffer, target index) and for a common one
    (the same and the index in the source); object_mutation_funcs.hpp:11-21 *)
Definition cb_new := mptr -> addr -> nat -> M st unit.
Definition cb_common := mptr -> addr -> nat -> nat -> M st unit.

(** object_mutation.hpp:37-55 update_next_mixin *)
Definition update_next (cn : cb_new) (uc : cb_common) : M mst unit :=
  let* mu := get_mu in
  if mu_complete mu then ret tt
  else
    let ti := mu_uu mu in
    let* m := target_mixin mu ti in
    let* mid := get_mid in
    (match old_slot mu mid m with
     | Some (ob, oi) =>
       let* d := lift (read_data ob oi) in
       lift (uc m (md_mixin d) ti oi)
     | None =>
       let* tb := target_data mu in
       let* d := lift (read_data tb ti) in
       lift (cn m (md_mixin d) ti)
     end);;
    set_mu (fun mu => with_uu mu (S ti) (S ti =? num_mixins (mu_ty mu))).

(** while (m_updated_upto < upto) update_next_mixin(...): [n] is the number of turns *)
Fixpoint update_turns (cn : cb_new) (uc : cb_common) (n : nat) : M mst unit :=
  match n with
  | O => ret tt
  | S k => update_next cn uc;; update_turns cn uc k
  end.
(** object_mutation.hpp:59-66 update_each_mixin; None is invalid_mixin_index *)
Definition update_each (cn : cb_new) (uc : cb_common) (upto : option nat) : M mst unit :=
  let* mu := get_mu in
  let n := num_mixins (mu_ty mu) in
  let upto := match upto with Some u => if n <? u then n else u | None => n end in
  update_turns cn uc (upto - mu_uu mu).

(** object_mutation_funcs.hpp:25 noop_udpate_common_func *)
Definition noop_common : cb_common := fun _ _ _ _ => ret tt.
(** object_mutation.cpp:259-264 default_init_new_func *)
Definition default_init : cb_new := fun m p _ =>
  if m_init (e_mixin E m) then construct E U FInit m p None else raise EMissingFunc.

(** object_mutation.hpp:71-76 construct_each_new_mixin *)
Definition construct_each (cn : cb_new) (upto : option nat) : M mst unit := update_each cn noop_common upto.
(** object_mutation.cpp:267-269 default_construct_each_new_mixin *)
Definition default_each (upto : option nat) : M mst unit := construct_each default_init upto.

(** object_mutation.hpp:85-92 update_at *)
Definition update_at (i : nat) (cn : cb_new) (uc : cb_common) : M mst unit :=
  let* mu := get_mu in
  if (i <? mu_uu mu) || (num_mixins (mu_ty mu) <? i) then raise EBadPiecewise
  else default_each (Some i);; update_next cn uc.

(** object_mutation.cpp:25-36 the delegated constructor *)
Definition new_mut (o : nat) (x : obj) (old : option (tref * type_rec)) (r : tref) (t : type_rec) : omut := {|
  mu_obj := o; mu_old := old; mu_odata := o_data x; mu_ref := r; mu_ty := t; mu_tdata := None;
  mu_au := 0; mu_uu := 0; mu_complete := false; mu_moved := false |}.
(** object_mutation.cpp:39-46 the "inverse" constructor *)
Definition inverse_mut (o : nat) (x : obj) (r : tref) (t : type_rec) : omut := {|
  mu_obj := o; mu_old := None; mu_odata := None; mu_ref := r; mu_ty := t; mu_tdata := o_data x;
  mu_au := num_mixins t; mu_uu := num_mixins t; mu_complete := false; mu_moved := false |}.

(** object_mutation.cpp:21-22: the body of the constructor *)
Definition start (x : obj) : M mst unit :=
  if o_sealed x then raise ESealed else allocate_mixin_data.

(** Destruction after an exception, object_mutation.cpp:49-54: [e] goes on after the rollback *)
Definition unwind {A} (e : exn) : M mst A :=
  let* mu := get_mu in
  (if mu_moved mu then ret tt else rollback);; raise e.

(** object_mutation.cpp:48-66 the destructor. [unw]: std::uncaught_exceptions() is not 0 although this
    mutation was successful so far. The assert of line 64 is not modelled: finalize does nothing when the
    mutation is not complete. *)
Definition finish (unw : bool) : M mst unit :=
  let* mu := get_mu in
  if mu_moved mu then ret tt
  else if unw then rollback
  else fun p =>
    match default_each None p with
    | (p', Throw e) => (rollback;; raise e) p'
    | (p', Ok _) => finalize p'
    | (p', Ub u) => (p', Ub u)
    end.

(** A scope with an object_mutation of object [o] to type [r] in which [body] is executed;
    object_mutation.cpp:14-23 and perform_object_mutation, object_mutation.hpp:168-183 *)
Definition get_old (x : obj) : M st (option (tref * type_rec)) :=
  match o_type x with
  | None => ret None
  | Some r => let* t := get_ty r in ret (Some (r, t))
  end.
Definition perform (unw : bool) (o : nat) (r : tref) (body : M mst unit) : M st unit :=
  let* x := get_obj o in
  let* old := get_old x in
  let* t := get_ty r in
  fun s =>
    let '((_, s'), res) :=
      match (start x;; body) (new_mut o x old r t, s) with
      | (p, Ok _) => finish unw p
      | (p, Throw e) => unwind e p
      | (p, Ub u) => (p, Ub u)
      end in
    (s', res).

End Mutation.
