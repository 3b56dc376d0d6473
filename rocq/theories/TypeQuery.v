(** Queries of a type: code/dynamix/type.cpp, type.hpp, code/dnmx/basic_type.h *)
From Coq Require Import List Arith ZArith NArith Lia Bool.
From Verif Require Import Base Sv Info TypeBuild.
Import ListNotations.

Section Query.
Variable E : env.
Variable fid : fptr -> option nat. (* feature_info::id *)
Variable mid : mptr -> option nat. (* mixin_info::id *)

(** type.hpp:71-74 index_of(id) *)
Definition index_of (t : type_rec) (id : option nat) : option nat :=
  match id with
  | None => None
  | Some i => match nth_error (t_sparse t) i with Some x => x | None => None end
  end.

(** type.cpp:16-21 index_of(name); [i] is the loop variable *)
Fixpoint index_of_name_from (nm : list N) (ms : list mptr) (i : nat) : option nat :=
  match ms with
  | [] => None
  | m :: r => if bytes_eqb (sv_bytes (m_name (e_mixin E m))) nm then Some i else index_of_name_from nm r (S i)
  end.
Definition index_of_name (t : type_rec) (nm : list N) : option nat := index_of_name_from nm (t_mixins t) 0.

Definition is_some {A} (x : option A) : bool := match x with Some _ => true | None => false end.

(** type.hpp:77-79 has(id) *)
Definition type_has_id (t : type_rec) (id : option nat) : bool := is_some (index_of t id).
(** type.cpp:23-25 has(info) *)
Definition type_has (t : type_rec) (m : mptr) : bool := type_has_id t (mid m).
(** type.hpp:80-82 has(name) *)
Definition type_has_name (t : type_rec) (nm : list N) : bool := is_some (index_of_name t nm).
(** type.hpp:84 lacks *)
Definition type_lacks (t : type_rec) (m : mptr) : bool := negb (type_has t m).

(** basic_type.h:63-66 ftable_at *)
Definition ftable_at (t : type_rec) (id : option nat) : option fentry :=
  match id with
  | None => None
  | Some i => match nth_error (ft_entries (t_ftable t)) i with Some x => x | None => None end
  end.

(** The payloads [begin, end) of an entry *)
Definition payloads (t : type_rec) (e : fentry) : res (list fpayload) :=
  match all_some (slice (fe_begin e) (fe_end e) (ft_pls (t_ftable t))) with
  | Some l => Ok l
  | None => Ub UbNull
  end.

(** type.cpp:29-31 implements_strong(id), 26-28 implements_strong(info) *)
Definition implements_strong (t : type_rec) (f : fptr) : bool := is_some (ftable_at t (fid f)).

(** type.cpp:32-39 implements_strong(name) *)
Fixpoint implements_name_from (t : type_rec) (nm : list N) (es : list (option fentry)) : res bool :=
  match es with
  | [] => Ok false
  | None :: r => implements_name_from t nm r
  | Some e :: r =>
    match nth_error (ft_pls (t_ftable t)) (fe_begin e) with
    | Some (Some p) =>
      if bytes_eqb (sv_bytes (f_name (e_feature E (ff_info (fp_data p))))) nm then Ok true
      else implements_name_from t nm r
    | _ => Ub UbNull
    end
  end.
Definition implements_strong_name (t : type_rec) (nm : list N) : res bool :=
  implements_name_from t nm (ft_entries (t_ftable t)).

(** type.cpp:40-43 implements *)
Definition implements (t : type_rec) (f : fptr) : bool :=
  match f_default (e_feature E f) with Some _ => true | None => implements_strong t f end.

(** type.cpp:45-52 find_implementer: the rest of the range from the implementer on *)
Fixpoint find_implementer (idx : option nat) (range : list fpayload) : list fpayload :=
  match range with
  | [] => []
  | p :: r => if opt_eqb (Some (fp_mixin p)) idx then range else find_implementer idx r
  end.

(** type.cpp:54-64 find_next_implementer *)
Definition find_next_implementer (t : type_rec) (f : fptr) (m : mptr) : res (option fpayload) :=
  match ftable_at t (fid f) with
  | None => Ok None
  | Some fe =>
    do range <- payloads t fe;
    match find_implementer (index_of t (mid m)) range with
    | [] => Ok None
    | _ :: [] => Ok None
    | _ :: next :: _ => Ok (Some next)
    end
  end.

(** type.cpp:73 and 78: skip or take while the bid is the same *)
Fixpoint skip_bid (bid : Z) (l : list fpayload) : list fpayload :=
  match l with
  | [] => []
  | p :: r => if Z.eqb (ff_bid (fp_data p)) bid then skip_bid bid r else l
  end.
Fixpoint take_bid (bid : Z) (l : list fpayload) : list fpayload :=
  match l with
  | [] => []
  | p :: r => if Z.eqb (ff_bid (fp_data p)) bid then p :: take_bid bid r else []
  end.

(** type.cpp:66-81 find_next_bidder_set *)
Definition find_next_bidder_set (t : type_rec) (f : fptr) (m : mptr) : res (list fpayload) :=
  match ftable_at t (fid f) with
  | None => Ok []
  | Some fe =>
    do range <- payloads t fe;
    match find_implementer (index_of t (mid m)) range with
    | [] => Ok []
    | p :: r =>
      match skip_bid (ff_bid (fp_data p)) (p :: r) with
      | [] => Ok []
      | q :: r' => Ok (q :: take_bid (ff_bid (fp_data q)) r')
      end
    end
  end.

(** type.hpp is_of(type_class) and type.cpp:83-87 is_of(name); [tc] is the type class found by name *)
Definition is_of (t : type_rec) (tc : option cptr) : res bool :=
  match tc with
  | None => Throw EUnknownTypeClass
  | Some c =>
    match c_matches (e_tc E c) with
    | Some f => Ok (f (t_mixins t))
    | None => Ub UbNull
    end
  end.

(** type.cpp:94-113: comparison of the mixins of two different types of the same domain.
    The assert of line 101 is modelled. *)
Fixpoint compare_mixins (a b : list mptr) : res Z :=
  match a, b with
  | [], [] => Ub UbAssert
  | [], _ :: _ => Ok (-1)%Z
  | _ :: _, [] => Ok 1%Z
  | x :: a', y :: b' =>
    if x =? y then compare_mixins a' b'
    else Ok (if canonical_less E mid x y then (-1)%Z else 1%Z)
  end.

(** type.cpp:89-114 compare. [same] tells whether both references are to the same type. *)
Definition type_compare (same : bool) (a b : type_rec) : res Z :=
  if same then Ok 0%Z
  else if negb (t_dom a =? t_dom b) then Ok (if t_dom a <? t_dom b then (-1)%Z else 1%Z)
  else compare_mixins (t_mixins a) (t_mixins b).

(** type.cpp:116-118 default_constructible *)
Definition default_constructible (t : type_rec) : bool := forallb (fun m => m_init (e_mixin E m)) (t_mixins t).
(** type.cpp:120-122 copy_constructible *)
Definition copy_constructible (t : type_rec) : bool := forallb (fun m => m_copy_init (e_mixin E m)) (t_mixins t).
(** type.cpp:124-126 copy_assignable *)
Definition copy_assignable (t : type_rec) : bool := forallb (fun m => m_copy_asgn (e_mixin E m)) (t_mixins t).
(** type.cpp:128-130 equality_comparable *)
Definition equality_comparable (t : type_rec) : bool :=
  forallb (fun m => m_equals (e_mixin E m) || m_compare (e_mixin E m)) (t_mixins t).
(** type.cpp:132-134 comparable *)
Definition comparable (t : type_rec) : bool := forallb (fun m => m_compare (e_mixin E m)) (t_mixins t).

End Query.
