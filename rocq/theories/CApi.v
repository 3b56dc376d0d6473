(** The functions of the C interface that change something or turn an exception into a result:
    code/dynamix/object-c.cpp, domain-c.cpp, type-c.cpp, type_mutation-c.cpp. (dnmx_mutate and dnmx_mutate_to of mutate-c.cpp are in Object.v;
    the other functions of these files only call the C++ function of the same name.)
    Simplified: handles of objects and mutations are addresses given by operator new; what C code does with a null handle is not modelled. *)
From Coq Require Import List Arith ZArith NArith Bool.
From Verif Require Import Base Sv Info TypeMut TypeQuery TypeBuild Domain Heap Mutation Object.
Import ListNotations.

(** The state of C++ and the type mutations made with new *)
Record cstate := { cs_s : st; cs_tm : nat -> option (dptr * list mptr) }.

(** Results: nothing; 0 or -1 (or, of type bool, true or false), given as "success?"; a handle or pointer, or null; a comparison *)
Inductive cret := CVoid | CCode (success : bool) | CHandle (h : option nat) | CType (t : option tref) | CMixin (m : option mptr) | CInt (z : option Z).
(** How a call ends: it returns; an exception leaves a function with C linkage; undefined behaviour *)
Inductive cout := CRet (v : cret) | CEscape (e : exn) | CUb (u : ubk).

(** The calls. [nok], [aok]: does operator new, or an allocation of the function, succeed? *)
Inductive ccall :=
| CCreateEmpty (nok : bool) (o : nat) (d : dptr)
| CCreateDefault (nok unw : bool) (o : nat) (t : tref)
| CCreateCopy (nok unw : bool) (o src : nat)
| CCreateUsurp (nok : bool) (o src : nat)
| CDestroy (o : nat)
| CCopyFrom (unw : bool) (o src : nat)
| CClear (o : nat)
| CReset (unw : bool) (o : nat) (t : option tref)
| CSeal (o : nat)
| CCompare (o other : nat)
| CIsOf (t : tref) (nm : list N)
| CRegFeature (d : dptr) (f : fptr)
| CUnregFeature (d : dptr) (f : fptr)
| CRegMixin (d : dptr) (m : mptr)
| CUnregMixin (d : dptr) (m : mptr)
| CRegTc (d : dptr) (c : cptr)
| CUnregTc (d : dptr) (c : cptr)
| CAddRule (d : dptr) (r : rptr)
| CRemRule (d : dptr) (r : rptr)
| CGetTypeInfos (aok : bool) (d : dptr) (q : list mptr)
| CGetType (aok : bool) (d : dptr) (h : nat)
| CGc (d : dptr)
| CTmEmpty (nok : bool) (h : nat) (d : dptr)
| CTmFromType (nok : bool) (h : nat) (t : tref)
| CTmDestroy (h : nat)
| CTmAdd (aok : bool) (h : nat) (m : mptr)
| CTmAddIfLacking (aok : bool) (h : nat) (m : mptr)
| CTmRemove (h : nat) (m : mptr)
| CTmRemoveName (h : nat) (nm : list N)
| CTmToBack (h : nat) (m : mptr)
| CTmToBackName (h : nat) (nm : list N)
| CTmDedup (h : nat)
| CTmSetMixins (aok : bool) (h : nat) (l : list mptr)
| CMutateTo (unw : bool) (o : nat) (t : tref) (cs : list cover)
| CMutate (unw aok : bool) (o : nat) (cs : list cop).

Section CApi.
Variable E : env.
Variable U : user.

(** The allocator that objects have by default: object.hpp:36 *)
Definition default_allocator : nat := 0.

Definition with_s (c : cstate) (s : st) : cstate := {| cs_s := s; cs_tm := cs_tm c |}.
Definition with_tm (c : cstate) (h : nat) (v : option (dptr * list mptr)) : cstate := {| cs_s := cs_s c; cs_tm := upd (cs_tm c) h v |}.

(** try { ...; return good; } catch (std::exception&) { return bad; } All exceptions of the library are of that type (exception.hpp:10-31),
    and so is std::bad_alloc. *)
Definition guarded (c : cstate) (op : oop) (good bad : cret) : cstate * cout :=
  match op_run E U op (cs_s c) with
  | (s', Ok _) => (with_s c s', CRet good)
  | (s', Throw _) => (with_s c s', CRet bad)
  | (s', Ub u) => (with_s c s', CUb u)
  end.
(** The same without try *)
Definition unguarded (c : cstate) (op : oop) (good : cret) : cstate * cout :=
  match op_run E U op (cs_s c) with
  | (s', Ok _) => (with_s c s', CRet good)
  | (s', Throw e) => (with_s c s', CEscape e)
  | (s', Ub u) => (with_s c s', CUb u)
  end.
(** A function that returns a type, with try *)
Definition guarded_type (c : cstate) (op : dop) : cstate * cout :=
  match dstep E (s_w (cs_s c)) op with
  | (w, Ok t) => (with_s c (set_w (cs_s c) w), CRet (CType t))
  | (w, Throw _) => (with_s c (set_w (cs_s c) w), CRet (CType None))
  | (w, Ub u) => (with_s c (set_w (cs_s c) w), CUb u)
  end.
(** A use of a type mutation: [f] gives the new list and the result *)
Definition on_tm (c : cstate) (h : nat) (f : list mptr -> list mptr * cret) : cstate * cout :=
  match cs_tm c h with
  | Some (d, l) => let (l', v) := f l in (with_tm c h (Some (d, l')), CRet v)
  | None => (c, CUb UbDangling)
  end.

Definition c_run (c : cstate) (x : ccall) : cstate * cout :=
  match x with
  (* object-c.cpp:15-23; operator new comes first *)
  | CCreateEmpty nok o d => if nok then guarded c (OEmpty o d default_allocator) (CHandle (Some o)) (CHandle None) else (c, CRet (CHandle None))
  (* 24-32 *)
  | CCreateDefault nok unw o t => if nok then guarded c (ONew unw o t default_allocator false) (CHandle (Some o)) (CHandle None) else (c, CRet (CHandle None))
  (* 33-41 *)
  | CCreateCopy nok unw o src => if nok then guarded c (OCopy unw o src default_allocator) (CHandle (Some o)) (CHandle None) else (c, CRet (CHandle None))
  (* 42-50 *)
  | CCreateUsurp nok o src => if nok then guarded c (OMoved o src) (CHandle (Some o)) (CHandle None) else (c, CRet (CHandle None))
  (* 51-53 *)
  | CDestroy o => unguarded c (ODtor o) CVoid
  (* 55-63 *)
  | CCopyFrom unw o src => guarded c (OCopyFrom unw o src) (CCode true) (CCode false)
  (* 102-106 *)
  | CClear o =>
    match s_obj (cs_s c) o with
    | Some y => if o_sealed y then (c, CRet (CCode false)) else unguarded c (OClear o) (CCode true)
    | None => (c, CUb UbDangling)
    end
  (* 107-121 *)
  | CReset unw o (Some t) => guarded c (OReset unw o t) (CCode true) (CCode false)
  | CReset unw o None => unguarded c (OClear o) (CCode true)
  (* 127-129 *)
  | CSeal o => unguarded c (OSeal o) CVoid
  (* 139-149 *)
  | CCompare o other =>
    match compare E U (cs_s c) o other with
    | Ok z => (c, CRet (CInt (Some z)))
    | Throw _ => (c, CRet (CInt None))
    | Ub u => (c, CUb u)
    end
  (* type-c.cpp:53-60 *)
  | CIsOf t nm =>
    match w_type (s_w (cs_s c)) t with
    | Some ty =>
      match is_of E ty (get_type_class E (s_w (cs_s c)) (t_dom ty) nm) with
      | Ok b => (c, CRet (CCode b))
      | Throw _ => (c, CRet (CCode false))
      | Ub u => (c, CUb u)
      end
    | None => (c, CUb UbDangling)
    end
  (* domain-c.cpp:32-43 *)
  | CRegFeature d f => guarded c (ODom (DRegFeature d f)) (CCode true) (CCode false)
  | CUnregFeature d f => unguarded c (ODom (DUnregFeature d f)) CVoid
  (* 45-56 *)
  | CRegMixin d m => guarded c (ODom (DRegMixin d m)) (CCode true) (CCode false)
  | CUnregMixin d m => unguarded c (ODom (DUnregMixin d m)) CVoid
  (* 74-86 *)
  | CRegTc d k => guarded c (ODom (DRegTc d k)) (CCode true) (CCode false)
  | CUnregTc d k => unguarded c (ODom (DUnregTc d k)) CVoid
  (* 92-103 *)
  | CAddRule d r => guarded c (ODom (DAddRule d r)) (CCode true) (CCode false)
  | CRemRule d r => unguarded c (ODom (DRemRule d r)) CVoid
  (* 105-112 *)
  | CGetTypeInfos aok d q => guarded_type c (DGetType d q aok)
  (* 114-123: the mutation is deleted in any case *)
  | CGetType aok d h =>
    match cs_tm c h with
    | Some (dm, q) => guarded_type (with_tm c h None) (DGetTypeMut d dm q aok)
    | None => (c, CUb UbDangling)
    end
  (* 133-135 *)
  | CGc d => unguarded c (ODom (DGc d)) CVoid
  (* type_mutation-c.cpp:14-32 *)
  | CTmEmpty nok h d => if nok then (with_tm c h (Some (d, [])), CRet (CHandle (Some h))) else (c, CRet (CHandle None))
  | CTmFromType nok h t =>
    match w_type (s_w (cs_s c)) t with
    | Some ty => if nok then (with_tm c h (Some (t_dom ty, t_mixins ty)), CRet (CHandle (Some h))) else (c, CRet (CHandle None))
    | None => (c, CUb UbDangling)
    end
  (* 34-36 *)
  | CTmDestroy h => match cs_tm c h with Some _ => (with_tm c h None, CRet CVoid) | None => (c, CUb UbDangling) end
  (* 58-66 *)
  | CTmAdd aok h m => on_tm c h (fun l => if aok then (tm_add m l, CCode true) else (l, CCode false))
  (* 67-74 *)
  | CTmAddIfLacking aok h m => on_tm c h (fun l => if tm_has m l then (l, CCode false) else if aok then (tm_add m l, CCode true) else (l, CCode false))
  (* 75-80 *)
  | CTmRemove h m => on_tm c h (fun l => let (l', b) := tm_remove m l in (l', CCode b))
  | CTmRemoveName h nm => on_tm c h (fun l => let (l', b) := tm_remove_name E nm l in (l', CMixin b))
  (* 81-97 *)
  | CTmToBack h m => on_tm c h (fun l => match tm_to_back m l with Ok l' => (l', CCode true) | _ => (l, CCode false) end)
  | CTmToBackName h nm => on_tm c h (fun l => match tm_to_back_name E nm l with Ok l' => (l', CMixin (find (by_name E nm) l)) | _ => (l, CMixin None) end)
  (* 98-100 *)
  | CTmDedup h => on_tm c h (fun l => (tm_dedup l, CVoid))
  (* 108-116 *)
  | CTmSetMixins aok h l => on_tm c h (fun l0 => if aok then (l, CCode true) else (l0, CCode false))
  (* mutate-c.cpp; the functions catch std::exception as well *)
  | CMutateTo unw o t cs => guarded c (OCMutateTo unw o t cs) (CCode true) (CCode false)
  | CMutate unw aok o cs => guarded c (OCMutate unw aok o cs) (CCode true) (CCode false)
  end.

(** Programs in C: no objects, no mutations at the beginning. An exception that leaves a C function ends the program, and so does undefined behaviour. *)
Definition c_init : cstate := {| cs_s := init_st E; cs_tm := fun _ => None |}.
Inductive c_hist (ok : cstate -> ccall -> Prop) : list (ccall * cret) -> cstate -> Prop :=
| ch_nil : c_hist ok [] c_init
| ch_snoc tr c x v c' : c_hist ok tr c -> ok c x -> c_run c x = (c', CRet v) -> c_hist ok (tr ++ [(x, v)]) c'.
End CApi.
