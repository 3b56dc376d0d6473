(** Construction of a type: code/dynamix/domain.cpp 549-836 *)
From Coq Require Import List Arith ZArith NArith Lia Bool.
From Verif Require Import Base Sv Info.
Import ListNotations.

(** code/dnmx/basic_type.h:19-27 dnmx_ftable_payload *)
Record fpayload := { fp_mixin : nat; fp_payload : nat; fp_data : ffm }.

(** code/dnmx/basic_type.h:29-52 dnmx_ftable_entry.
    The three pointers are indices in the array of payloads; a null entry is [None] in the table. *)
Record fentry := { fe_begin : nat; fe_back : nat; fe_end : nat }.

(** The ftable of a type and the payloads behind it (basic_type.h:54-70, domain.cpp:610-613).
    A payload which was only zero filled is [None]. *)
Record ftable := { ft_entries : list (option fentry); ft_pls : list (option fpayload) }.

Section Build.
Variable E : env.
Variable fid : fptr -> option nat. (* feature_info::id *)
Variable mid : mptr -> option nat. (* mixin_info::id *)

Fixpoint enumerate {A} (i : nat) (l : list A) : list (nat * A) :=
  match l with [] => [] | x :: r => (i, x) :: enumerate (S i) r end.

(** The nested loops of domain.cpp:564-572, 578-583, 618-644: all pairs of mixin index and feature.
    Simplified: two nested loops are written as one loop over the flattened list. *)
Definition all_features (mixins : list mptr) : list (nat * ffm) :=
  flat_map (fun im => map (pair (fst im)) (m_features (e_mixin E (snd im)))) (enumerate 0 mixins).

(** domain.cpp:563-572 first pass. For an invalid id, id + 1 wraps to 0. *)
Definition ftable_size (fs : list (nat * ffm)) : nat :=
  fold_left (fun s x =>
    let size_with := match fid (ff_info (snd x)) with Some i => S i | None => 0 end in
    if s <? size_with then size_with else s) fs 0.

(** domain.cpp:574-583 second pass: number of payloads per feature *)
Fixpoint count_pls (fs : list (nat * ffm)) (counts : list nat) : res (list nat) :=
  match fs with
  | [] => Ok counts
  | (_, f) :: r =>
    match fid (ff_info f) with
    | None => Ub UbOutOfBounds
    | Some k =>
      match nth_error counts k with
      | None => Ub UbOutOfBounds
      | Some c => count_pls r (set_nth k (S c) counts)
      end
    end
  end.

(** domain.cpp:616-644 third pass. [next] is ftable_pl_ptr. *)
Fixpoint fill_pls (counts : list nat) (fs : list (nat * ffm)) (t : ftable) (next : nat) : res ftable :=
  match fs with
  | [] => Ok t
  | (i, f) :: r =>
    match fid (ff_info f) with
    | None => Ub UbOutOfBounds
    | Some k =>
      match nth_error (ft_entries t) k, nth_error counts k with
      | Some oe, Some num =>
        if num =? 0 then Ub UbAssert
        else
          let '(e, next') :=
            match oe with
            | Some e => (e, next)
            | None => ({| fe_begin := next; fe_back := next; fe_end := next |}, next + num)
            end in
          if fe_end e <? length (ft_pls t) then
            let pls := set_nth (fe_end e) (Some {| fp_mixin := i; fp_payload := ff_payload f; fp_data := f |}) (ft_pls t) in
            let e' := {| fe_begin := fe_begin e; fe_back := fe_back e; fe_end := S (fe_end e) |} in
            fill_pls counts r {| ft_entries := set_nth k (Some e') (ft_entries t); ft_pls := pls |} next'
          else Ub UbOutOfBounds
      | _, _ => Ub UbOutOfBounds
      end
    end
  end.

(** domain.cpp:653-666 the order of the payloads of a feature *)
Definition payload_less (a b : fpayload) : bool :=
  if negb (Z.eqb (ff_bid (fp_data a)) (ff_bid (fp_data b))) then Z.ltb (ff_bid (fp_data b)) (ff_bid (fp_data a))
  else if negb (Z.eqb (ff_prio (fp_data a)) (ff_prio (fp_data b))) then Z.ltb (ff_prio (fp_data a)) (ff_prio (fp_data b))
  else fp_mixin b <? fp_mixin a.

(** The payloads [b, e) of the array; Ub when one of them was never written (null data) *)
Fixpoint all_some {A} (l : list (option A)) : option (list A) :=
  match l with
  | [] => Some []
  | None :: _ => None
  | Some x :: r => match all_some r with Some r' => Some (x :: r') | None => None end
  end.
Definition slice {A} (b e : nat) (l : list A) : list A := firstn (e - b) (skipn b l).

(** domain.cpp:669-678: is there an adjacent pair with the same bid and priority? *)
Fixpoint has_clash (l : list fpayload) : bool :=
  match l with
  | [] => false
  | cur :: r =>
    match r with
    | [] => false
    | next :: _ =>
      (Z.eqb (ff_bid (fp_data cur)) (ff_bid (fp_data next)) && Z.eqb (ff_prio (fp_data cur)) (ff_prio (fp_data next)))
      || has_clash r
    end
  end.

(** domain.cpp:681-687: how far top_bid_back moves from begin *)
Fixpoint top_bid_run (bid : Z) (l : list fpayload) : nat :=
  match l with
  | [] => 0
  | p :: r => if Z.eqb (ff_bid (fp_data p)) bid then S (top_bid_run bid r) else 0
  end.

(** domain.cpp:650-688 fourth pass for one entry *)
Definition finish_entry (e : fentry) (pls : list (option fpayload)) : res (fentry * list (option fpayload)) :=
  match all_some (slice (fe_begin e) (fe_end e) pls) with
  | None => Ub UbNull
  | Some range =>
    let sorted := sort_by payload_less range in
    match sorted with
    | [] => Ub UbOutOfBounds
    | top :: rest =>
      if negb (f_allow_clashes (e_feature E (ff_info (fp_data top)))) && has_clash sorted then Throw EFeatureClash
      else
        Ok ({| fe_begin := fe_begin e; fe_back := fe_begin e + top_bid_run (ff_bid (fp_data top)) rest; fe_end := fe_end e |},
            firstn (fe_begin e) pls ++ map Some sorted ++ skipn (fe_end e) pls)
    end
  end.

(** domain.cpp:646-689 fourth pass *)
Fixpoint finish_entries (todo : list (option fentry)) (pls : list (option fpayload)) : res ftable :=
  match todo with
  | [] => Ok {| ft_entries := []; ft_pls := pls |}
  | None :: r =>
    do t <- finish_entries r pls;
    Ok {| ft_entries := None :: ft_entries t; ft_pls := ft_pls t |}
  | Some e :: r =>
    do x <- finish_entry e pls;
    do t <- finish_entries r (snd x);
    Ok {| ft_entries := Some (fst x) :: ft_entries t; ft_pls := ft_pls t |}
  end.

(** domain.cpp:558-584 constructor of ftable_build_helper: m_num_reachable_pls.
    m_num_total_pls is the number of all features. *)
Definition ftable_counts (mixins : list mptr) : res (list nat) :=
  let fs := all_features mixins in
  count_pls fs (repeat 0 (ftable_size fs)).

(** domain.cpp:610-690 build_ftable *)
Definition build_ftable (mixins : list mptr) (counts : list nat) : res ftable :=
  let fs := all_features mixins in
  do t <- fill_pls counts fs {| ft_entries := repeat None (length counts); ft_pls := repeat None (length fs) |} 0;
  finish_entries (ft_entries t) (ft_pls t).

(** ** Layout of the object buffer *)

(** code/dnmx/size.h: byte_size_t is a 32 bit unsigned integer, sizeof_ptr is 8 *)
Definition u32 (n : N) : N := (n mod 4294967296)%N.
Definition sizeof_ptr : N := 8%N.
(** code/dnmx/object_mixin_data.h:10-20: two pointers *)
Definition sizeof_mixin_data : N := 16%N.

(** code/dynamix/alloc_util.hpp:10-13 next_multiple *)
Definition next_multiple (s n : N) : N := u32 (u32 (u32 (s + n) + (4294967296 - 1)) / n * n).

(** domain.cpp:782-804, the loop. [sz] is obj_buf_size and [al] is obj_buf_alignment. *)
Fixpoint layout_loop (mixins : list mptr) (sz al : N) : res (list N * N * N) :=
  match mixins with
  | [] => Ok ([], sz, al)
  | m :: r =>
    let d := e_mixin E m in
    if external d then
      do x <- layout_loop r sz al; Ok (0%N :: fst (fst x), snd (fst x), snd x)
    else
      let ma := m_align d in
      let al' := if (al <? ma)%N then ma else al in
      let ma' := if (al <? ma)%N then ma else if (ma <? sizeof_ptr)%N then sizeof_ptr else ma in
      let padding := u32 (next_multiple sz ma' + (4294967296 - sz)) in
      let padding' := if (padding <? sizeof_ptr)%N then u32 (padding + ma') else padding in
      let sz1 := u32 (sz + padding') in
      if negb (sz1 mod ma' =? 0)%N then Ub UbAssert
      else
        do x <- layout_loop r (u32 (sz1 + m_size d)) al';
        Ok (sz1 :: fst (fst x), snd (fst x), snd x)
  end.

(** domain.cpp:779-806 *)
Definition layout (mixins : list mptr) : res (list N * N * N) :=
  layout_loop mixins (u32 (N.of_nat (length mixins) * sizeof_mixin_data)) sizeof_ptr.

(** ** Sparse indices *)

(** domain.cpp:731-736: the size of the array, from std::max_element by id *)
Definition num_sparse (mixins : list mptr) : nat :=
  fold_left (fun s m => Nat.max s (match mid m with Some i => S i | None => 0 end)) mixins 0.

(** domain.cpp:811-814 *)
Fixpoint fill_sparse (ms : list (nat * mptr)) (sp : list (option nat)) : res (list (option nat)) :=
  match ms with
  | [] => Ok sp
  | (i, m) :: r =>
    match mid m with
    | None => Ub UbOutOfBounds
    | Some k => if k <? length sp then fill_sparse r (set_nth k (Some i) sp) else Ub UbOutOfBounds
    end
  end.

(** domain.cpp:808-815 *)
Definition build_sparse (mixins : list mptr) : res (list (option nat)) :=
  fill_sparse (enumerate 0 mixins) (repeat None (num_sparse mixins)).

(** ** The type *)

(** code/dynamix/type.hpp:27-69, code/dnmx/basic_type.h:54-60: the members of a type.
    buf_size (size of the type's own buffer) is in TypeBuf.v. *)
Record type_rec := {
  t_dom : dptr;
  t_mixins : list mptr;
  t_ftable : ftable;
  t_offsets : list N;      (* mixin_offsets *)
  t_buf_size : N;          (* object_buffer_size *)
  t_buf_align : N;         (* object_buffer_alignment *)
  t_sparse : list (option nat); (* sparse_mixin_indices *)
  t_nobj : nat             (* m_num_objects *)
}.

(** domain.cpp:186: the empty type, all members have their default values (type.hpp:42-64) *)
Definition empty_type (d : dptr) : type_rec := {|
  t_dom := d; t_mixins := []; t_ftable := {| ft_entries := []; ft_pls := [] |};
  t_offsets := []; t_buf_size := 0; t_buf_align := 0; t_sparse := []; t_nobj := 0 |}.

(** domain.cpp:692-700 validity of the mixins of a mutation *)
Fixpoint check_mixins (mdom : mptr -> option dptr) (d : dptr) (mixins : list mptr) : res unit :=
  match mixins with
  | [] => Ok tt
  | m :: r =>
    match mid m with
    | None => Throw EUnregisteredMixin
    | Some _ =>
      if negb (opt_eqb (mdom m) (Some d)) then Throw EForeignMixin
      else if memb m r then Throw EDuplicateMixin
      else check_mixins mdom d r
    end
  end.

(** domain.cpp:689-815: create_type up to the insertion in the registry.
    [alloc_ok] tells whether the allocation of lines 753-756 succeeds.
    For no mixins line 735 dereferences the end of the range. *)
Definition build_type (mdom : mptr -> option dptr) (alloc_ok : bool) (d : dptr) (mixins : list mptr) : res type_rec :=
  do _ <- check_mixins mdom d mixins;
  do counts <- ftable_counts mixins;
  if length mixins =? 0 then Ub UbOutOfBounds
  else if negb alloc_ok then Throw EBadAlloc
  else
    do ft <- build_ftable mixins counts;
    do l <- layout mixins;
    do sp <- build_sparse mixins;
    Ok {| t_dom := d; t_mixins := mixins; t_ftable := ft;
          t_offsets := fst (fst l); t_buf_size := snd (fst l); t_buf_align := snd l;
          t_sparse := sp; t_nobj := 0 |}.

End Build.
