(** Specification: gradual mutations that live while other calls are made. *)
From Coq Require Import List Arith ZArith NArith Bool.
From Verif Require Import Base Sv Info TypeMut TypeBuild TypeQuery Domain Heap Mutation Object GradMut SpecObj SpecMut SpecAct SpecAbs.
Import ListNotations.

(** The first element of [l] with [P] is [m], and [rest] is the list without it. *)
Definition first_out (P : mptr -> Prop) (l : list mptr) (m : mptr) (rest : list mptr) : Prop :=
  exists l1 l2, l = l1 ++ m :: l2 /\ (forall x, In x l1 -> ~ P x) /\ P m /\ rest = l1 ++ l2.
Definition has_name (E : env) (nm : list N) (m : mptr) : Prop := sv_bytes (m_name (e_mixin E m)) = nm.

(** What the calls do to the list of mixins; names of mixins to add are those of the domain [d] at the time of the call *)
Definition edit (E : env) (w : world) (d : dptr) (op : gop) (l l' : list mptr) : Prop :=
  match op with
  | GOp (MAdd m) | GOp (MAddInit _ m) => l' = l ++ [m]
  | GOp (MAddName nm) => exists m, get_mixin_by_name E w d nm = Some m /\ l' = l ++ [m]
  | GOp (MRemove m) => (~ In m l /\ l' = l) \/ first_out (eq m) l m l'
  | GOp (MRemoveName nm) => ((forall m, In m l -> ~ has_name E nm m) /\ l' = l) \/ exists m, first_out (has_name E nm) l m l'
  | GOp (MBack m) => exists rest, first_out (eq m) l m rest /\ l' = rest ++ [m]
  | GOp (MBackName nm) => exists m rest, first_out (has_name E nm) l m rest /\ l' = rest ++ [m]
  | GAddIfLacking m => (In m l /\ l' = l) \/ (~ In m l /\ l' = l ++ [m])
  | GAddIfLackingName nm => ((exists m, In m l /\ has_name E nm m) /\ l' = l) \/
      ((forall m, In m l -> ~ has_name E nm m) /\ exists m, get_mixin_by_name E w d nm = Some m /\ l' = l ++ [m])
  end.
(** When they throw *)
Definition edit_fails (E : env) (w : world) (d : dptr) (op : gop) (l : list mptr) (e : exn) : Prop :=
  match op with
  | GOp (MAddName nm) => get_mixin_by_name E w d nm = None /\ e = EAddUnknown
  | GOp (MBack m) => ~ In m l /\ e = EToBackMissing
  | GOp (MBackName nm) => (forall m, In m l -> ~ has_name E nm m) /\ e = EToBackMissing
  | GAddIfLackingName nm => (forall m, In m l -> ~ has_name E nm m) /\ get_mixin_by_name E w d nm = None /\ e = EAddUnknown
  | _ => False
  end.
(** From state [s] with the list [l] to state [s'] with the list [l']: the calls that return change the list, those that throw do
    not, and no other call does, whatever it does to the object. *)
Inductive drafted (E : env) (U : user) (d : dptr) : list (gact * res unit) -> st -> list mptr -> st -> list mptr -> Prop :=
| dr_start s l : drafted E U d [] s l s l
| dr_edit tr s l s1 l1 op l2 : drafted E U d tr s l s1 l1 -> edit E (s_w s1) d op l1 l2 -> drafted E U d (tr ++ [(GaCall op, Ok tt)]) s l s1 l2
| dr_fails tr s l s1 l1 op e : drafted E U d tr s l s1 l1 -> edit_fails E (s_w s1) d op l1 e -> drafted E U d (tr ++ [(GaCall op, Throw e)]) s l s1 l1
| dr_other tr s l s1 l1 op s2 r : drafted E U d tr s l s1 l1 -> op_run E U op s1 = (s2, r) -> drafted E U d (tr ++ [(GaOther op, r)]) s l s2 l1.

(** ** Contracts *)
(** The object has a type, and the type for the list can be made without undefined behaviour and is small. *)
Definition can_apply (E : env) (s : st) (aok : bool) (g : gmut) : Prop :=
  with_type_set s (gm_obj g) /\ forall d, object_domain s (gm_obj g) d ->
    ~ is_ub (snd (get_type_mut E aok (s_w s) d (gm_dom g) (gm_mixins g))) /\ types_small E (fst (get_type_mut E aok (s_w s) d (gm_dom g) (gm_mixins g))).
Definition gfair (E : env) (s : st) (g : gmut) (a : gact) : Prop :=
  match a with GaCall _ | GaCancel => True | GaApply _ aok _ => can_apply E s aok g | GaOther op => fair E s op end.
Definition drafting (tr : list (gact * res unit)) : Prop := forall a r, In (a, r) tr -> match a with GaCall _ | GaOther _ => True | _ => False end.
(** The other calls *)
Definition other_calls (tr : list (gact * res unit)) : otrace := flat_map (fun x => match fst x with GaOther op => [(op, snd x)] | _ => [] end) tr.
(** The calls that a gradual mutation of object [o] makes *)
Definition by_mutation (o : nat) (x : oop * res unit) : Prop :=
  match fst x with ODom (DGetTypeMut _ _ _ _) => True | OReset _ o' _ => o' = o | _ => False end.

(** ** What apply does to object [o] of domain [d] for the mixins [ms] of domain [dm] *)
Definition applied (E : env) (s : st) (o : nat) (d dm : dptr) (unw aok : bool) (ms : list mptr) (s' : st) (res : res unit) : Prop :=
  (forall o', o' <> o -> look s' o' = look s o') /\
  match res with
  | Ok _ =>
    (exists w r t sl l l', get_type_mut E aok (s_w s) d dm ms = (w, Ok r) /\ w_type w r = Some t /\
       is_view (look s) o sl l /\ is_view (look s') o sl l' /\ changed_mixins (fun _ => False) (t_mixins t) l l') \/
    (unw = true /\ only_values (fun _ => False) (look s) (look s') o)
  | Throw _ => look s' o = look s o
  | Ub _ => False
  end.
