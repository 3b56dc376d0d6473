(** Threads: the calls of a domain as sequences of critical sections.
    code/dynamix/domain.cpp 153-169 and 264-547, 815-861: each section is executed under a lock of the type registry or of the
    element registry (an exclusive one if it changes something), so that sections are atomic with respect to each other.
    What a call does outside of locks (building a new type) reads only its own data and the ids of infos.
    Simplified: the rules applied in a section see the element registry as it is at the beginning of the section, although
    registrations need only the other lock; the ids of infos are read when the type is built (lines 692-815). *)
From Coq Require Import List Arith ZArith NArith Bool.
From Verif Require Import Base Sv Info Registry Rules TypeBuild TypeQuery Domain.
Import ListNotations.

(** Where a call is: before which of its critical sections. *)
Inductive pos :=
| PAtomic (o : dop)                                   (* a call with a single section *)
| PFirst (d : dptr) (q : list mptr) (aok : bool)      (* get_type(mixins), domain.cpp:536 *)
| PShared (d : dptr) (q : list mptr) (aok : bool)     (* get_type(mutation), domain.cpp:497 *)
| PStore (d : dptr) (q : list mptr) (t : tref)        (* it found a type, domain.cpp:525 *)
| PBuild (d : dptr) (q ms : list mptr) (aok : bool)   (* it did not, domain.cpp:689-815, no lock *)
| PInsert (d : dptr) (q : list mptr) (t : type_rec)   (* the type is built, domain.cpp:818 *)
| PPurge (d : dptr) (m : mptr)                        (* unregister_mixin, domain.cpp:289 *)
| PUnreg (d : dptr) (m : mptr)                        (* unregister_mixin, domain.cpp:325 *)
| PDone (r : res (option tref)).                      (* the result was not returned yet *)

(** The call made by a thread, or none *)
Record cst := { c_w : world; c_th : nat -> option pos }.

Section Conc.
Variable E : env.

(** domain.cpp:489-490, 533: the beginning of a call *)
Definition enter (o : dop) : pos :=
  match o with
  | DGetType d q a => PFirst d q a
  | DGetTypeMut d dm q a => if dm =? d then PShared d q a else PDone (Throw EForeignMutation)
  | DUnregMixin d m => PPurge d m
  | _ => PAtomic o
  end.

Definition got (t : tref) : pos := PDone (Ok (Some t)).

(** One section of a call *)
Definition section (w : world) (p : pos) : world * pos :=
  match p with
  | PAtomic o => let (w', r) := dstep E w o in (w', PDone r)
  | PFirst d q a =>
    match find_query q (d_queries (w_dom w d)) with
    | Some t => (w, got t)
    | None => (w, PShared d q a)
    end
  | PShared d q a =>
    match lookup_type E w d q with
    | Ok (LStored t) => (w, got t)
    | Ok (LNew oq ms (Some t)) => (w, PStore d oq t)
    | Ok (LNew oq ms None) => (w, PBuild d oq ms a)
    | Throw e => (w, PDone (Throw e))
    | Ub u => (w, PDone (Ub u))
    end
  | PStore d q t => (store_found w d q t, got t)
  | PBuild d q ms a =>
    match build_type E (w_fid w) (w_mid w) (w_mdom w) a d ms with
    | Ok t => (w, PInsert d q t)
    | Throw e => (w, PDone (Throw e))
    | Ub u => (w, PDone (Ub u))
    end
  | PInsert d q t => let (w', r) := insert_type w d q t in (w', got r)
  | PPurge d m =>
    match purge_types w d m with
    | Ok w1 => (w1, PUnreg d m)
    | Throw e => (w, PDone (Throw e))
    | Ub u => (w, PDone (Ub u))
    end
  | PUnreg d m => let (w', r) := unregister_mixin_elem w d m in (w', PDone (snd (forget (w', r))))
  | PDone r => (w, PDone r)
  end.

(** What can be seen from outside: calls and returns. *)
Inductive hev := HCall (i : nat) (o : dop) | HRet (i : nat) (r : res (option tref)).

Definition set_th (f : nat -> option pos) (i : nat) (p : option pos) : nat -> option pos := fun x => if x =? i then p else f x.

(** Executions from a world: any thread may call something when it does nothing, go on with its call, or return.
    [ok] restricts which thread may go on. Undefined behaviour ends an execution. *)
Inductive crun (ok : cst -> nat -> pos -> Prop) (w0 : world) : list hev -> cst -> Prop :=
| cr_nil : crun ok w0 [] {| c_w := w0; c_th := fun _ => None |}
| cr_call h s i o : crun ok w0 h s -> c_th s i = None ->
    crun ok w0 (h ++ [HCall i o]) {| c_w := c_w s; c_th := set_th (c_th s) i (Some (enter o)) |}
| cr_step h s i p w' p' : crun ok w0 h s -> c_th s i = Some p -> ok s i p -> section (c_w s) p = (w', p') ->
    (forall u, p' <> PDone (Ub u)) ->
    crun ok w0 h {| c_w := w'; c_th := set_th (c_th s) i (Some p') |}
| cr_ret h s i r : crun ok w0 h s -> c_th s i = Some (PDone r) ->
    crun ok w0 (h ++ [HRet i r]) {| c_w := c_w s; c_th := set_th (c_th s) i None |}.

(** Without restriction *)
Definition any_step (s : cst) (i : nat) (p : pos) : Prop := True.

(** A call between two of its sections that relies on what the first one saw *)
Definition mid_call (p : pos) : Prop :=
  match p with
  | PStore _ _ _ | PBuild _ _ _ _ | PInsert _ _ _ | PUnreg _ _ => True
  | _ => False
  end.
(** A call of get_type between two of its sections in domain [d] *)
Definition in_get_type (d : dptr) (p : pos) : Prop :=
  match p with PStore d' _ _ | PBuild d' _ _ _ | PInsert d' _ _ => d' = d | _ => False end.

(** Does the next section of a call ([p]) change what another call ([pj]) relies on?
    - a change of the rules of the domain, during get_type;
    - a collection, between the moment when get_type found a type without objects and the moment when it stored the query;
    - (un)registrations of features and mixins, during any call. *)
Definition affects (w : world) (p pj : pos) : Prop :=
  match p with
  | PAtomic (DAddRule d _) | PAtomic (DRemRule d _) => in_get_type d pj
  | PAtomic (DGc d) => exists q t, pj = PStore d q t /\ t <> TEmpty d /\ ref_nobj w t = 0
  | PAtomic (DRegFeature _ _) | PAtomic (DUnregFeature _ _) | PAtomic (DRegMixin _ _) | PPurge _ _ => mid_call pj
  | _ => False
  end.
(** No call changes what another one relies on, and nothing takes place between the two sections of unregister_mixin. *)
Definition quiet (s : cst) (i : nat) (p : pos) : Prop :=
  forall j pj, j <> i -> c_th s j = Some pj -> ~ affects (c_w s) p pj /\ (forall d m, pj <> PUnreg d m).

End Conc.
