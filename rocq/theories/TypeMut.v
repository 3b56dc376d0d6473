(** type_mutation: code/dynamix/type_mutation.cpp and type_mutation.hpp.
    The state of a type_mutation is its list of mixins. *)
From Coq Require Import List Arith ZArith NArith Lia Bool.
From Verif Require Import Base Sv Info.
Import ListNotations.

Section TypeMut.
Variable E : env.

(** The macro by_name, type_mutation.cpp:31 *)
Definition by_name (nm : list N) (m : mptr) : bool := bytes_eqb (sv_bytes (m_name (e_mixin E m))) nm.

(** type_mutation.hpp:36 add *)
Definition tm_add (m : mptr) (l : list mptr) : list mptr := l ++ [m].

(** type_mutation.cpp:66-68 has *)
Definition tm_has (m : mptr) (l : list mptr) : bool := memb m l.

(** type_mutation.cpp:69-73 has(name) *)
Definition tm_has_name (nm : list N) (l : list mptr) : option mptr := find (by_name nm) l.

(** type_mutation.hpp:47-51 add_if_lacking *)
Definition tm_add_if_lacking (m : mptr) (l : list mptr) : list mptr :=
  if tm_has m l then l else tm_add m l.

(** vector::erase of the first element satisfying p: itlib::erase_first, type_mutation.cpp:35,57,63 *)
Fixpoint erase_first (p : mptr -> bool) (l : list mptr) : list mptr :=
  match l with
  | [] => []
  | x :: r => if p x then r else x :: erase_first p r
  end.

(** type_mutation.cpp:56-58 remove; the boolean result tells whether something was removed *)
Definition tm_remove (m : mptr) (l : list mptr) : list mptr * bool :=
  (erase_first (Nat.eqb m) l, memb m l).

(** type_mutation.cpp:59-65 remove(name) *)
Definition tm_remove_name (nm : list N) (l : list mptr) : list mptr * option mptr :=
  (erase_first (by_name nm) l, find (by_name nm) l).

(** type_mutation.cpp:33-37 do_to_back and 39-45 to_back *)
Definition tm_to_back (m : mptr) (l : list mptr) : res (list mptr) :=
  if memb m l then Ok (erase_first (Nat.eqb m) l ++ [m]) else Throw EToBackMissing.

(** type_mutation.cpp:47-54 to_back(name) *)
Definition tm_to_back_name (nm : list N) (l : list mptr) : res (list mptr) :=
  match find (by_name nm) l with
  | Some m => Ok (erase_first (by_name nm) l ++ [m])
  | None => Throw EToBackMissing
  end.

(** type_mutation.cpp:99-104 safe_add *)
Definition tm_safe_add (lk : lookup) (nm : list N) (l : list mptr) : list mptr :=
  match lk nm with Some m => tm_add m l | None => l end.

(** type_mutation.cpp:106-110 add(name) *)
Definition tm_add_name (lk : lookup) (nm : list N) (l : list mptr) : res (list mptr) :=
  match lk nm with Some m => Ok (tm_add m l) | None => Throw EAddUnknown end.

(** type_mutation.cpp:112-116 safe_add_if_lacking *)
Definition tm_safe_add_if_lacking (lk : lookup) (nm : list N) (l : list mptr) : list mptr :=
  match find (by_name nm) l with Some _ => l | None => tm_safe_add lk nm l end.

(** type_mutation.cpp:118-122 add_if_lacking(name) *)
Definition tm_add_if_lacking_name (lk : lookup) (nm : list N) (l : list mptr) : res (list mptr) :=
  match find (by_name nm) l with Some _ => Ok l | None => tm_add_name lk nm l end.

(** type_mutation.cpp:124-137: marking pass of dedup. [info] starts as the element and becomes null at
    the first equal later element; a null [info] is equal to no later (not yet visited) element. *)
Fixpoint dedup_inner (info : option mptr) (rest : list mptr) : option mptr :=
  match rest with
  | [] => info
  | j :: r => dedup_inner (if opt_eqb info (Some j) then None else info) r
  end.
Fixpoint dedup_mark (l : list mptr) : list (option mptr) :=
  match l with
  | [] => []
  | x :: r => dedup_inner (Some x) r :: dedup_mark r
  end.
(** type_mutation.cpp:140 erase_all(mixins, nullptr) *)
Fixpoint erase_nulls (l : list (option mptr)) : list mptr :=
  match l with
  | [] => []
  | Some x :: r => x :: erase_nulls r
  | None :: r => erase_nulls r
  end.
(** type_mutation.cpp:124-141 dedup *)
Definition tm_dedup (l : list mptr) : list mptr := erase_nulls (dedup_mark l).

(** type_mutation.cpp:77-84 implements_strong(info) *)
Definition tm_implements_strong (f : fptr) (l : list mptr) : bool :=
  existsb (fun m => existsb (fun x => ff_info x =? f) (m_features (e_mixin E m))) l.

(** type_mutation.cpp:85-93 implements_strong(name) *)
Fixpoint tm_implements_strong_name (nm : list N) (l : list mptr) : option fptr :=
  match l with
  | [] => None
  | m :: r =>
    match find (fun x => bytes_eqb (sv_bytes (f_name (e_feature E (ff_info x)))) nm) (m_features (e_mixin E m)) with
    | Some x => Some (ff_info x)
    | None => tm_implements_strong_name nm r
    end
  end.

(** type_mutation.cpp:94-97 implements *)
Definition tm_implements (f : fptr) (l : list mptr) : bool :=
  match f_default (e_feature E f) with Some _ => true | None => tm_implements_strong f l end.

End TypeMut.
