(** Outcomes of operations and small helpers shared by the whole model. *)
From Coq Require Import List Arith ZArith NArith Lia Bool.
Import ListNotations.

(** Exceptions thrown by the library.
    Models the functions of code/dynamix/throw_exception.cpp (all), one constructor per function, and
    std::bad_alloc. Simplified: the texts of the messages are not modelled. *)
Inductive exn :=
| EIdRegistered            (* throw_exception::id_registered *)
| EEmptyName               (* throw_exception::empty_name *)
| EDuplicateName           (* throw_exception::duplicate_name *)
| EUnregForeign            (* throw_exception::unreg_foreign *)
| EInfoHasDomain           (* throw_exception::info_has_domain *)
| ENoFunc                  (* throw_exception::no_func *)
| ERuleUser (err : Z)      (* throw_exception::mutation_rule_user_error, or the exception of a rule *)
| ECyclicRules             (* throw_exception::cyclic_rule_deps *)
| EForeignMutation         (* throw_exception::foreign_mutation *)
| EUnregisteredMixin       (* throw_exception::type_mut_error "unregistered" *)
| EForeignMixin            (* throw_exception::foreign_mixin *)
| EDuplicateMixin          (* throw_exception::type_mut_error "duplicate" *)
| EFeatureClash            (* throw_exception::feature_clash *)
| EToBackMissing           (* throw_exception::type_mut_error "to_back..." *)
| EAddUnknown              (* throw_exception::type_mut_error "add" *)
| ERuleNoDep               (* throw_exception::type_mut_error "rule with no dep" *)
| EUnknownTypeClass        (* throw_exception::unknown_type_class *)
| ENotImplemented          (* throw_exception::generic_feature_error *)
| ESealed                  (* throw_exception::obj_mut_sealed_object *)
| EMissingFunc             (* throw_exception::obj_mut_error "missing ..." *)
| EUserFunc (err : Z)      (* throw_exception::obj_mut_user_error *)
| EBadPiecewise            (* object_mutation::throw_bad_piecewise_mutation *)
| EMismatchedAllocators    (* object.cpp:54 obj_error *)
| EBadAlloc.               (* std::bad_alloc or whatever an allocator throws *)

(** Kinds of undefined behaviour (and failed asserts) that the code can run into. *)
Inductive ubk :=
| UbAssert                 (* a failed assert() *)
| UbNull                   (* null pointer dereference *)
| UbOutOfBounds            (* index outside an array *)
| UbDangling               (* use of a destroyed object or type, or of a dead local *)
| UbOverflow               (* arithmetic whose wrap-around breaks the following accesses *)
| UbLifetime               (* mixin function on memory in the wrong lifetime state *)
| UbFree                   (* wrong or double deallocation *)
| UbModel.                 (* the bound of a model loop is exhausted: shown to be unreachable *)

(** Result of an operation. *)
Inductive res (A : Type) :=
| Ok (a : A)
| Throw (e : exn)
| Ub (u : ubk).
Arguments Ok {A} a.
Arguments Throw {A} e.
Arguments Ub {A} u.

Definition bind {A B} (x : res A) (f : A -> res B) : res B :=
  match x with Ok a => f a | Throw e => Throw e | Ub u => Ub u end.

Declare Scope res_scope.
Notation "'do' x <- a ; b" := (bind a (fun x => b)) (at level 200, x pattern, a at level 100, b at level 200) : res_scope.
Open Scope res_scope.

Definition is_ub {A} (x : res A) : Prop := match x with Ub _ => True | _ => False end.
Definition is_ok {A} (x : res A) : Prop := match x with Ok _ => True | _ => False end.
Definition is_throw {A} (x : res A) : Prop := match x with Throw _ => True | _ => False end.

(** Addresses of user owned infos and of domains (C++ object addresses). *)
Notation mptr := nat (only parsing).  (* const mixin_info* *)
Notation fptr := nat (only parsing).  (* const feature_info* *)
Notation rptr := nat (only parsing).  (* const mutation_rule_info* *)
Notation cptr := nat (only parsing).  (* const type_class* *)
Notation dptr := nat (only parsing).  (* domain* *)

(** Update of one cell of a C++ object identified by address. *)
Definition upd {A} (f : nat -> A) (k : nat) (v : A) : nat -> A :=
  fun x => if x =? k then v else f x.

(** Assignment to an element of an array: v[i] = x. *)
Fixpoint set_nth {A} (i : nat) (x : A) (l : list A) : list A :=
  match l, i with
  | [], _ => []
  | _ :: r, O => x :: r
  | y :: r, S j => y :: set_nth j x r
  end.

(** Equality of vectors of pointers (std::vector operator==). *)
Fixpoint list_eqb (a b : list nat) : bool :=
  match a, b with
  | [], [] => true
  | x :: a', y :: b' => (x =? y) && list_eqb a' b'
  | _, _ => false
  end.

(** Linear search for a pointer: itlib::pfind / qfind != end. *)
Definition memb (x : nat) (l : list nat) : bool := existsb (Nat.eqb x) l.

Definition opt_eqb (a b : option nat) : bool :=
  match a, b with
  | Some x, Some y => x =? y
  | None, None => true
  | _, _ => false
  end.

(** Insertion sort: stands for std::sort with the given comparison.
    For a strict weak order every correct sort gives a sorted permutation; the model fixes one. *)
Fixpoint insert_by {A} (lt : A -> A -> bool) (x : A) (l : list A) : list A :=
  match l with
  | [] => [x]
  | y :: r => if lt y x then y :: insert_by lt x r else x :: l
  end.
Fixpoint sort_by {A} (lt : A -> A -> bool) (l : list A) : list A :=
  match l with
  | [] => []
  | x :: r => insert_by lt x (sort_by lt r)
  end.
