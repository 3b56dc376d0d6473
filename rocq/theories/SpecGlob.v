(** Specification: global definitions. *)
From Coq Require Import List Arith ZArith NArith Bool Permutation.
From Verif Require Import Base Sv Info TypeBuild Domain Define SpecDefine Globals.
Import ListNotations.

(** How many global objects have type [r] *)
Fixpoint global_objects (r : tref) (l : list sobj) : nat :=
  match l with [] => 0 | SObj r' :: l' => (if tref_eqb r' r then 1 else 0) + global_objects r l' | _ :: l' => global_objects r l' end.
(** The contract before the end of the program: only mixins with a definition are defined; calls do not destroy global objects; the rest as [tidy] for definitions of C66. *)
Definition orderly (data : mptr -> option (list rptr)) (s : gst) (o : gop) : Prop :=
  match o with
  | GGet _ | GClass _ _ | GObj _ => True
  | GInfo m | GDefine _ m => data m <> None
  | GCall (DDelObj r) => forall t, w_type (g_w s) r = Some t -> global_objects r (g_stack s) < t_nobj t
  | GCall o => tidy data [] (g_w s) (XDom o)
  end.
(** A rule that is part of the data of a mixin is given to that mixin only; canonicalize rules are not part of any. *)
Definition own_rules (E : env) (data : mptr -> option (list rptr)) (owner : rptr -> option mptr) : Prop :=
  (forall m rs r m', data m = Some rs -> In r rs -> owner r = Some m' -> m' = m) /\ (forall d, owner (e_canon E d) = None).
(** All objects that are alive are global. *)
Definition only_globals (s : gst) : Prop := forall r t, w_type (g_w s) r = Some t -> t_nobj t = global_objects r (g_stack s).
(** How a call ends the program or not. *)
Definition ends_as {A} (r : res A) (uncaught : ended) : ended := match r with Ok _ => EReturns | Throw _ => uncaught | Ub u => EUb u end.
(** The definitions of mixins in a program *)
Definition definitions (tr : list gop) : list (dptr * mptr) := flat_map (fun o => match o with GDefine d m => [(d, m)] | _ => [] end) tr.
(** Domain [d] has nothing left of the definitions [data], and of rules only the canonicalize rule. *)
Definition left_clean (E : env) (data : mptr -> option (list rptr)) (w : world) (d : dptr) : Prop :=
  (forall m, data m <> None -> w_mdom w m <> Some d) /\ (forall r c, In (r, c) (d_rules (w_dom w d)) <-> c = canon_count E d r /\ 0 < c).
