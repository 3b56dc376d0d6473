(** gradual_mutation as an object that lives for a while: code/dynamix/mutate.hpp:24-112. Between its construction and its
    end the program makes calls on it and any other calls. Object.v has the common case without other calls in between. *)
From Coq Require Import List Arith ZArith NArith Lia Bool.
From Verif Require Import Base Sv Info TypeMut TypeBuild TypeQuery Domain Heap Mutation Object.
Import ListNotations.

Section GradMut.
Variable E : env.
Variable U : user.

(** mutate.hpp:25-27: m_obj; m_type_mut with its domain and its list of mixins (type_mutation.hpp:22-29); m_applied *)
Record gmut := { gm_obj : nat; gm_dom : dptr; gm_mixins : list mptr; gm_applied : bool }.
(** mutate.hpp:29-32, type_mutation.cpp:25-29: the list starts with the mixins of the type of the object *)
Definition gm_new (o : nat) : M st gmut :=
  let* x := get_obj o in
  let* xt := the_type x in
  ret {| gm_obj := o; gm_dom := t_dom (snd xt); gm_mixins := t_mixins (snd xt); gm_applied := false |}.
(** mutate.hpp:44-98 add, add_if_lacking, remove, to_back. They change the list only, and not when they throw. *)
Definition gm_call (op : gop) (g : gmut) (s : st) : gmut * res unit :=
  match apply_gop E (get_mixin_by_name E (s_w s) (gm_dom g)) op (gm_mixins g) with
  | Ok l => ({| gm_obj := gm_obj g; gm_dom := gm_dom g; gm_mixins := l; gm_applied := gm_applied g |}, Ok tt)
  | Throw e => (g, Throw e)
  | Ub u => (g, Ub u)
  end.
(** The list after get_type (domain.cpp:489-531): the rules change it in place (line 505), unless the query is stored (line
    500) or the mutation is foreign (line 490). [junk]: what it is when a rule failed (lines 468-478). *)
Definition gm_left (junk : list mptr) (w : world) (d : dptr) (g : gmut) : list mptr :=
  if negb (gm_dom g =? d) then gm_mixins g
  else match lookup_type E w d (gm_mixins g) with
       | Ok (LStored _) => gm_mixins g
       | Ok (LNew _ ms _) => ms
       | _ => junk
       end.
(** mutate.hpp:104-106 cancel *)
Definition gm_cancel (g : gmut) : gmut := {| gm_obj := gm_obj g; gm_dom := gm_dom g; gm_mixins := gm_mixins g; gm_applied := true |}.
(** mutate.hpp:101-102: get_type of the domain that the object has now, and reset_type *)
Definition gm_commit (unw aok : bool) (g : gmut) : M st unit :=
  let* x := get_obj (gm_obj g) in
  let* xt := the_type x in
  let* r := on_world (fun w => get_type_mut E aok w (t_dom (snd xt)) (gm_dom g) (gm_mixins g)) in
  reset_type E U unw (gm_obj g) r.
(** mutate.hpp:99-103 apply; m_applied is set first. [unw]: is an exception in flight? *)
Definition gm_apply (unw aok : bool) (junk : list mptr) (g : gmut) (s : st) : (st * gmut) * res unit :=
  let d := match (let* x := get_obj (gm_obj g) in the_type x) s with (_, Ok xt) => t_dom (snd xt) | _ => 0 end in
  let (s', r) := gm_commit unw aok g s in
  ((s', {| gm_obj := gm_obj g; gm_dom := gm_dom g; gm_mixins := gm_left junk (s_w s) d g; gm_applied := true |}), r).
(** mutate.hpp:33-37 the destructor *)
Definition gm_end (unw aok : bool) (junk : list mptr) (g : gmut) (s : st) : (st * gmut) * res unit :=
  if unw then ((s, g), Ok tt)
  else if gm_applied g then ((s, g), Ok tt)
  else gm_apply unw aok junk g s.

(** What a program does while a gradual mutation lives: calls on it, and any other call *)
Inductive gact := GaCall (op : gop) | GaApply (unw aok : bool) (junk : list mptr) | GaCancel | GaOther (op : oop).
Definition gact_run (a : gact) (g : gmut) (s : st) : (st * gmut) * res unit :=
  match a with
  | GaCall op => let (g', r) := gm_call op g s in ((s, g'), r)
  | GaApply unw aok junk => gm_apply unw aok junk g s
  | GaCancel => ((s, gm_cancel g), Ok tt)
  | GaOther op => let (s', r) := op_run E U op s in ((s', g), r)
  end.
(** Runs of such programs, with the outcomes of the calls; no undefined behaviour. [ok]: the contracts *)
Inductive grun (ok : st -> gmut -> gact -> Prop) (s : st) (g : gmut) : list (gact * res unit) -> st -> gmut -> Prop :=
| gr_nil : grun ok s g [] s g
| gr_snoc tr s1 g1 a r s2 g2 : grun ok s g tr s1 g1 -> ok s1 g1 a -> gact_run a g1 s1 = ((s2, g2), r) -> ~ is_ub r -> grun ok s g (tr ++ [(a, r)]) s2 g2.
(** Some calls one after the other, until one throws; as in mutate(obj).add<A>().remove<B>() *)
Fixpoint gm_calls (ops : list gop) (g : gmut) (s : st) : gmut * res unit :=
  match ops with
  | [] => (g, Ok tt)
  | op :: l => match gm_call op g s with (g', Ok _) => gm_calls l g' s | x => x end
  end.

End GradMut.
