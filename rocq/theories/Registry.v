(** The sparse registries of a domain: code/dynamix/domain.cpp 194-262, 337-403 *)
From Coq Require Import List Arith ZArith NArith Lia Bool.
From Verif Require Import Base Sv Info.
Import ListNotations.

(** code/dynamix/domain.cpp:206-215: search in reverse order for a name clash and the least free id.
    [rs] is the part of the sparse array still to be visited, reversed, and [length rs] the loop variable.
    The assert of line 209 is modelled. *)
Fixpoint scan_rev (name : nat -> sv) (idf : nat -> option nat) (nm : sv)
  (rs : list (option nat)) (free : option nat) : res (option nat) :=
  match rs with
  | [] => Ok free
  | x :: r =>
    let i := length r in
    match x with
    | Some reg =>
      if negb (opt_eqb (idf reg) (Some i)) then Ub UbAssert
      else if sv_eqb (name reg) nm then Throw EDuplicateName
      else scan_rev name idf nm r free
    | None => scan_rev name idf nm r (Some i)
    end
  end.

(** code/dynamix/domain.cpp:219-224: first free id, [i] is the index of the head of [s]. *)
Fixpoint scan_fwd (s : list (option nat)) (i : nat) : option nat :=
  match s with
  | [] => None
  | None :: _ => Some i
  | Some _ :: r => scan_fwd r (S i)
  end.

(** code/dynamix/domain.cpp:195-234 basic_register_l.
    Returns the new sparse array and the id given to the info. *)
Definition basic_register (name : nat -> sv) (idf : nat -> option nat)
  (sparse : list (option nat)) (unique : bool) (info : nat) : res (list (option nat) * nat) :=
  match idf info with
  | Some _ => Throw EIdRegistered
  | None =>
    if unique && sv_empty (name info) then Throw EEmptyName
    else
      do free <- (if unique then scan_rev name idf (name info) (rev sparse) None
                  else Ok (scan_fwd sparse 0));
      match free with
      | None => Ok (sparse ++ [Some info], length sparse)
      | Some i => Ok (set_nth i (Some info) sparse, i)
      end
  end.

(** code/dynamix/domain.cpp:237-243 basic_unregister_l, also 328-330.
    Returns the new sparse array (the caller invalidates the id). *)
Definition basic_unregister (idf : nat -> option nat) (sparse : list (option nat)) (info : nat)
  : res (list (option nat)) :=
  match idf info with
  | None => Throw EUnregForeign (* invalid id >= size *)
  | Some i =>
    match nth_error sparse i with
    | Some (Some p) => if p =? info then Ok (set_nth i None sparse) else Throw EUnregForeign
    | _ => Throw EUnregForeign
    end
  end.

(** code/dynamix/domain.cpp:374-377 basic_get_by_id_l *)
Definition get_by_id (id : option nat) (sparse : list (option nat)) : option nat :=
  match id with
  | None => None
  | Some i => match nth_error sparse i with Some x => x | None => None end
  end.

(** code/dynamix/domain.cpp:380-385 basic_get_by_name_l *)
Fixpoint get_by_name (name : nat -> sv) (nm : list N) (sparse : list (option nat)) : option nat :=
  match sparse with
  | [] => None
  | Some p :: r => if bytes_eqb (sv_bytes (name p)) nm then Some p else get_by_name name nm r
  | None :: r => get_by_name name nm r
  end.

(** code/dynamix/domain.cpp:345-353: reverse search for a type class of the same name.
    The second component says whether free_slot was set, to the address of the loop local [tc]. *)
Fixpoint scan_tc (name : nat -> sv) (nm : sv) (rs : list (option nat)) (free : bool) : res bool :=
  match rs with
  | [] => Ok free
  | Some tc :: r => if sv_eqb (name tc) nm then Throw EDuplicateName else scan_tc name nm r free
  | None :: r => scan_tc name nm r true
  end.

(** code/dynamix/domain.cpp:337-360 register_type_class.
    When a free slot was seen, line 359 writes through a pointer to a local of a finished loop iteration. *)
Definition register_tc (tcd : nat -> tc_desc) (sparse : list (option nat)) (c : nat) : res (list (option nat)) :=
  let name := fun p => c_name (tcd p) in
  if sv_empty (name c) then Throw EEmptyName
  else match c_matches (tcd c) with
  | None => Throw ENoFunc
  | Some _ =>
    do free <- scan_tc name (name c) (rev sparse) false;
    if (free : bool) then Ub UbDangling else Ok (sparse ++ [Some c])
  end.

(** code/dynamix/domain.cpp:362-371 unregister_type_class *)
Fixpoint unregister_tc (sparse : list (option nat)) (c : nat) : list (option nat) :=
  match sparse with
  | [] => []
  | Some p :: r => if p =? c then None :: r else Some p :: unregister_tc r c
  | None :: r => None :: unregister_tc r c
  end.
