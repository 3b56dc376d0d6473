(** What calls of the C interface mean in C++ *)
From Coq Require Import List Arith ZArith NArith Bool.
From Verif Require Import Base Info Domain Heap Mutation Object SpecList SpecObj CApi.
Import ListNotations.

(** The C++ operation that a call stands for. None: the call only asks something, only uses a type mutation, or memory ran out before. *)
Definition cpp_of (c : cstate) (x : ccall) : option oop :=
  match x with
  | CCreateEmpty true o d => Some (OEmpty o d default_allocator)
  | CCreateDefault true unw o t => Some (ONew unw o t default_allocator false)
  | CCreateCopy true unw o src => Some (OCopy unw o src default_allocator)
  | CCreateUsurp true o src => Some (OMoved o src)
  | CDestroy o => Some (ODtor o)
  | CCopyFrom unw o src => Some (OCopyFrom unw o src)
  | CClear o => match s_obj (cs_s c) o with Some y => if o_sealed y then None else Some (OClear o) | None => None end
  | CReset unw o (Some t) => Some (OReset unw o t)
  | CReset unw o None => Some (OClear o)
  | CSeal o => Some (OSeal o)
  | CRegFeature d f => Some (ODom (DRegFeature d f))
  | CUnregFeature d f => Some (ODom (DUnregFeature d f))
  | CRegMixin d m => Some (ODom (DRegMixin d m))
  | CUnregMixin d m => Some (ODom (DUnregMixin d m))
  | CRegTc d k => Some (ODom (DRegTc d k))
  | CUnregTc d k => Some (ODom (DUnregTc d k))
  | CAddRule d r => Some (ODom (DAddRule d r))
  | CRemRule d r => Some (ODom (DRemRule d r))
  | CGetTypeInfos aok d q => Some (ODom (DGetType d q aok))
  | CGetType aok d h => match cs_tm c h with Some (dm, q) => Some (ODom (DGetTypeMut d dm q aok)) | None => None end
  | CGc d => Some (ODom (DGc d))
  | CMutateTo unw o t cs => Some (OCMutateTo unw o t cs)
  | CMutate unw aok o cs => Some (OCMutate unw aok o cs)
  | _ => None
  end.

(** The results that tell of a failure *)
Definition failure (v : cret) : Prop := v = CCode false \/ v = CHandle None \/ v = CType None.
(** A call ends as the C++ operation does: an exception becomes a failure, or leaves the function. *)
Definition reports (out : cout) (r : res unit) : Prop :=
  match r with
  | Ok _ => exists v, out = CRet v /\ ~ failure v
  | Throw e => (exists v, out = CRet v /\ failure v) \/ out = CEscape e
  | Ub u => out = CUb u
  end.

(** The contracts of the C++ operations hold. *)
Definition c_fair (E : env) (c : cstate) (x : ccall) : Prop := forall op, cpp_of c x = Some op -> fair E (cs_s c) op.

(** The calls that let an exception out *)
Definition lets_out (c : cstate) (x : ccall) : Prop :=
  match x with
  | CReset _ o None => exists y, s_obj (cs_s c) o = Some y /\ o_sealed y = true
  | CUnregFeature d f => ~ In (Some f) (d_features (w_dom (s_w (cs_s c)) d))
  | CUnregMixin d m => w_mdom (s_w (cs_s c)) m <> Some d
  | _ => False
  end.

(** The type mutation that a call is made with *)
Definition mutation_of (x : ccall) : option nat :=
  match x with
  | CGetType _ _ h | CTmEmpty _ h _ | CTmFromType _ h _ | CTmDestroy h | CTmAdd _ h _ | CTmAddIfLacking _ h _ | CTmRemove h _ | CTmRemoveName h _
  | CTmToBack h _ | CTmToBackName h _ | CTmDedup h | CTmSetMixins _ h _ => Some h
  | _ => None
  end.

(** The result of a call whose C++ operation succeeds: the handle of the new object, success, or nothing. The calls that give a type say which in C70_types. *)
Definition answer (x : ccall) (v : cret) : Prop :=
  match x with
  | CCreateEmpty _ o _ | CCreateDefault _ _ o _ | CCreateCopy _ _ o _ | CCreateUsurp _ o _ => v = CHandle (Some o)
  | CCopyFrom _ _ _ | CClear _ | CReset _ _ _ | CRegFeature _ _ | CRegMixin _ _ | CRegTc _ _ | CAddRule _ _ | CMutateTo _ _ _ _ | CMutate _ _ _ _ => v = CCode true
  | CGetTypeInfos _ _ _ | CGetType _ _ _ => exists t, v = CType (Some t)
  | _ => v = CVoid
  end.

(** What a call does with the mixins [l] of the type mutation it is given: they become [l'], and the result is [v]. *)
Definition edits (E : env) (x : ccall) (l l' : list mptr) (v : cret) : Prop :=
  match x with
  | CTmAdd aok _ m => (aok = true /\ l' = l ++ [m] /\ v = CCode true) \/ (aok = false /\ l' = l /\ v = CCode false)
  | CTmAddIfLacking aok _ m => (aok = true /\ ~ In m l /\ l' = l ++ [m] /\ v = CCode true) \/ ((aok = false \/ In m l) /\ l' = l /\ v = CCode false)
  | CTmRemove _ m => (exists l1 l2, l = l1 ++ m :: l2 /\ ~ In m l1 /\ l' = l1 ++ l2 /\ v = CCode true) \/ (~ In m l /\ l' = l /\ v = CCode false)
  | CTmRemoveName _ nm =>
    (exists l1 m l2, l = l1 ++ m :: l2 /\ named E nm m /\ (forall x, In x l1 -> ~ named E nm x) /\ l' = l1 ++ l2 /\ v = CMixin (Some m)) \/
    ((forall x, In x l -> ~ named E nm x) /\ l' = l /\ v = CMixin None)
  | CTmToBack _ m => (exists l1 l2, l = l1 ++ m :: l2 /\ ~ In m l1 /\ l' = l1 ++ l2 ++ [m] /\ v = CCode true) \/ (~ In m l /\ l' = l /\ v = CCode false)
  | CTmToBackName _ nm =>
    (exists l1 m l2, l = l1 ++ m :: l2 /\ named E nm m /\ (forall x, In x l1 -> ~ named E nm x) /\ l' = l1 ++ l2 ++ [m] /\ v = CMixin (Some m)) \/
    ((forall x, In x l -> ~ named E nm x) /\ l' = l /\ v = CMixin None)
  | CTmDedup _ => last_only l l' /\ v = CVoid
  | CTmSetMixins aok _ l0 => (aok = true /\ l' = l0 /\ v = CCode true) \/ (aok = false /\ l' = l /\ v = CCode false)
  | _ => False
  end.
(** The calls that change or read a type mutation in place *)
Definition edits_mutation (x : ccall) (h : nat) : Prop :=
  match x with
  | CTmAdd _ h' _ | CTmAddIfLacking _ h' _ | CTmRemove h' _ | CTmRemoveName h' _ | CTmToBack h' _ | CTmToBackName h' _ | CTmDedup h' | CTmSetMixins _ h' _ => h' = h
  | _ => False
  end.
