(** The memory of a type: code/dynamix/domain.cpp 549-836, in the one buffer that the domain allocates for a type. TypeBuild.v
    has the same code with lists in place of the arrays in that buffer. *)
From Coq Require Import List Arith ZArith NArith Lia Bool.
From Verif Require Import Base Sv Info TypeBuild.
Import ListNotations.
Local Open Scope N_scope.

(** What is stored in the buffer: 32 bit numbers, pointers into the buffer (as offsets), pointers to mixin infos, payload
    pointers of features, and pointers to a feature of a mixin. Simplified: the last one is the feature itself (as in
    TypeBuild.v), since the infos do not change. *)
Inductive word := WNum (n : N) | WPtr (p : N) | WMixin (m : mptr) | WPay (x : nat) | WFeat (f : ffm).
Definition ffm_eqb (a b : ffm) : bool :=
  (ff_info a =? ff_info b)%nat && (ff_payload a =? ff_payload b)%nat && (ff_bid a =? ff_bid b)%Z && (ff_prio a =? ff_prio b)%Z.
Definition word_eqb (a b : word) : bool :=
  match a, b with
  | WNum x, WNum y | WPtr x, WPtr y => x =? y
  | WMixin x, WMixin y | WPay x, WPay y => (x =? y)%nat
  | WFeat x, WFeat y => ffm_eqb x y
  | _, _ => false
  end.

(** A byte of the buffer: 0, or byte number [i] of a word. [None]: never written. So a word is only read back if no byte of
    it was overwritten. *)
Inductive cell := CZero | CByte (w : word) (i : N).
Definition bmem := N -> option cell.

(** Which cell is expected for byte [i] of a word; [None]: of a null pointer *)
Definition cell_is (w : option word) (i : N) (c : option cell) : bool :=
  match w, c with
  | Some w, Some (CByte w' j) => word_eqb w w' && (i =? j)
  | None, Some CZero => true
  | _, _ => false
  end.
Fixpoint all_bytes (M : bmem) (p : N) (w : option word) (n : nat) : bool :=
  match n with
  | O => true
  | S k => all_bytes M p w k && cell_is w (N.of_nat k) (M (p + N.of_nat k))
  end.

Section Mem.
Variable size : N. (* of the buffer *)

(** An access of [width] bytes: in the buffer and aligned *)
Definition access (p width : N) : bool := (p + width <=? size) && (p mod width =? 0).
Definition store (M : bmem) (p width : N) (w : word) : res bmem :=
  if access p width then Ok (fun x => if (p <=? x) && (x <? p + width) then Some (CByte w (x - p)) else M x)
  else Ub UbOutOfBounds.
(** Reading what was not written as one word is undefined. *)
Definition load (M : bmem) (p width : N) : res (option word) :=
  if access p width then
    match M p with
    | Some CZero => if all_bytes M p None (N.to_nat width) then Ok None else Ub UbNull
    | Some (CByte w _) => if all_bytes M p (Some w) (N.to_nat width) then Ok (Some w) else Ub UbNull
    | None => Ub UbNull
    end
  else Ub UbOutOfBounds.
(** std::fill of bytes with 0 *)
Definition zero (M : bmem) (p n : N) : res bmem :=
  if p + n <=? size then Ok (fun x => if (p <=? x) && (x <? p + n) then Some CZero else M x) else Ub UbOutOfBounds.

(** ** The ftable *)

(** basic_type.h:19-27: the sizes of dnmx_ftable_payload (members at 0, 8, 16) and of dnmx_ftable_entry *)
Definition sizeof_entry : N := 24.
Definition sizeof_payload : N := 24.

Variable E : env.
Variable fid : fptr -> option nat. (* feature_info::id *)
Variable mid : mptr -> option nat. (* mixin_info::id *)

(** &ftable[k]; [ptr] is the argument of build_ftable *)
Definition entry_at (ptr : N) (k : nat) : N := ptr + N.of_nat k * sizeof_entry.

(** domain.cpp:616-644 third pass. [next] is ftable_pl_ptr. *)
Definition open_entry (M : bmem) (e : N) (next : N) (num : nat) : res (bmem * N) :=
  do b <- load M e 8;
  match b with
  | Some _ => Ok (M, next)
  | None =>
    do M <- store M e 8 (WPtr next);
    do M <- store M (e + 8) 8 (WPtr next);
    do M <- store M (e + 16) 8 (WPtr next);
    Ok (M, next + N.of_nat num * sizeof_payload)
  end.
Definition put_payload (M : bmem) (p : N) (i : nat) (f : ffm) : res bmem :=
  do M <- store M p 4 (WNum (N.of_nat i));
  do M <- store M (p + 8) 8 (WPay (ff_payload f));
  store M (p + 16) 8 (WFeat f).
Fixpoint fill_mem (counts : list nat) (ptr : N) (fs : list (nat * ffm)) (M : bmem) (next : N) : res bmem :=
  match fs with
  | [] => Ok M
  | (i, f) :: r =>
    match fid (ff_info f) with
    | None => Ub UbOutOfBounds
    | Some k =>
      match nth_error counts k with
      | None => Ub UbOutOfBounds
      | Some num =>
        if (num =? 0)%nat then Ub UbAssert
        else
          let e := entry_at ptr k in
          do x <- open_entry M e next num;
          do q <- load (fst x) (e + 16) 8;
          match q with
          | Some (WPtr p) =>
            do M <- put_payload (fst x) p i f;
            do M <- store M (e + 16) 8 (WPtr (p + sizeof_payload));
            fill_mem counts ptr r M (snd x)
          | _ => Ub UbNull
          end
      end
    end
  end.

(** A payload read from the buffer, and [n] of them *)
Definition read_payload (M : bmem) (p : N) : res fpayload :=
  do i <- load M p 4;
  do x <- load M (p + 8) 8;
  do f <- load M (p + 16) 8;
  match i, x, f with
  | Some (WNum i), Some (WPay x), Some (WFeat f) => Ok {| fp_mixin := N.to_nat i; fp_payload := x; fp_data := f |}
  | _, _, _ => Ub UbNull
  end.
Fixpoint read_payloads (M : bmem) (p : N) (n : nat) : res (list fpayload) :=
  match n with
  | O => Ok []
  | S k => do x <- read_payload M p; do l <- read_payloads M (p + sizeof_payload) k; Ok (x :: l)
  end.
Fixpoint write_payloads (M : bmem) (p : N) (l : list fpayload) : res bmem :=
  match l with
  | [] => Ok M
  | x :: r =>
    do M <- store M p 4 (WNum (N.of_nat (fp_mixin x)));
    do M <- store M (p + 8) 8 (WPay (fp_payload x));
    do M <- store M (p + 16) 8 (WFeat (fp_data x));
    write_payloads M (p + sizeof_payload) r
  end.

(** domain.cpp:650-688 fourth pass for one entry.
    Simplified: std::sort reads the range and writes it back in order; top_bid_back is written once. *)
Definition finish_mem_entry (M : bmem) (e : N) : res bmem :=
  do b <- load M e 8;
  match b with
  | None => Ok M
  | Some (WPtr b) =>
    do q <- load M (e + 16) 8;
    match q with
    | Some (WPtr q) =>
      do range <- read_payloads M b (N.to_nat ((q - b) / sizeof_payload));
      let sorted := sort_by payload_less range in
      do M <- write_payloads M b sorted;
      match sorted with
      | [] => Ub UbOutOfBounds
      | top :: rest =>
        if negb (f_allow_clashes (e_feature E (ff_info (fp_data top)))) && has_clash sorted then Throw EFeatureClash
        else store M (e + 8) 8 (WPtr (b + N.of_nat (top_bid_run (ff_bid (fp_data top)) rest) * sizeof_payload))
      end
    | _ => Ub UbNull
    end
  | _ => Ub UbNull
  end.
Fixpoint finish_mem (ptr : N) (ks : list nat) (M : bmem) : res bmem :=
  match ks with
  | [] => Ok M
  | k :: r => do M <- finish_mem_entry M (entry_at ptr k); finish_mem ptr r M
  end.

(** domain.cpp:586-588 calc_ftable_byte_size: computed in 64 bits, returned in 32 *)
Definition ftable_bytes (counts : list nat) (total : nat) : N :=
  u32 (N.of_nat (length counts) * sizeof_entry + N.of_nat total * sizeof_payload).

(** domain.cpp:610-690 build_ftable *)
Definition build_ftable_mem (mixins : list mptr) (counts : list nat) (ptr : N) (M : bmem) : res bmem :=
  let fs := all_features E mixins in
  do M <- zero M ptr (ftable_bytes counts (length fs));
  do M <- fill_mem counts ptr fs M (ptr + N.of_nat (length counts) * sizeof_entry);
  finish_mem ptr (seq 0 (length counts)) M.

(** ** The other arrays *)

(** std::copy of the mixins (761-763) and the assignments to mixin_offsets (782-804): one store after the other *)
Fixpoint store_all (M : bmem) (p width : N) (l : list word) : res bmem :=
  match l with
  | [] => Ok M
  | w :: r => do M <- store M p width w; store_all M (p + width) width r
  end.
(** code/dnmx/mixin_index.h: mixin_index_t is a 32 bit number, the invalid one is the greatest *)
Definition invalid_index : N := 4294967295.
(** domain.cpp:812-814 *)
Fixpoint fill_sparse_mem (p : N) (num : nat) (ms : list (nat * mptr)) (M : bmem) : res bmem :=
  match ms with
  | [] => Ok M
  | (i, m) :: r =>
    match mid m with
    | None => Ub UbOutOfBounds
    | Some k => if (k <? num)%nat then do M <- store M (p + N.of_nat k * 4) 4 (WNum (N.of_nat i)); fill_sparse_mem p num r M else Ub UbOutOfBounds
    end
  end.

End Mem.

(** type.hpp:27-69, 172: the members of the type object that tell where the arrays are. Spans are pointer and length. *)
Record thdr := {
  h_ftable : N; h_flen : nat;
  h_mixins : N; h_num : nat;
  h_offsets : N;
  h_sparse : N; h_nsparse : nat;
  h_obj_size : N; h_obj_align : N;
  h_buf_size : N
}.

Section Create.
Variable E : env.
Variable fid : fptr -> option nat.
Variable mid : mptr -> option nat.
(** sizeof(type). The type object itself is at the beginning of the buffer; its members are [thdr]. *)
Variable sizeof_type : N.

(** domain.cpp:739-744: the size of the buffer, in 32 bits *)
Definition type_bytes (counts : list nat) (mixins : list mptr) : N :=
  u32 (sizeof_type + ftable_bytes counts (length (all_features E mixins)) + u32 (N.of_nat (length mixins) * 8)
       + u32 (N.of_nat (length mixins) * 4) + u32 (N.of_nat (num_sparse mid mixins) * 4)).

(** domain.cpp:689-815 create_type up to the insertion in the registry, with the buffer. [M] is what is in the buffer
    when it is allocated. The result is the buffer and the members of the type. *)
Definition create_block (mdom : mptr -> option dptr) (alloc_ok : bool) (d : dptr) (mixins : list mptr) (M : bmem) : res (bmem * thdr) :=
  do _ <- check_mixins mid mdom d mixins;
  do counts <- ftable_counts E fid mixins;
  if (length mixins =? 0)%nat then Ub UbOutOfBounds
  else if negb alloc_ok then Throw EBadAlloc
  else
    let size := type_bytes counts mixins in
    if size <? sizeof_type then Ub UbOutOfBounds
    else
      (* 751-757 *)
      let p_ft := sizeof_type in
      do M <- build_ftable_mem size E fid mixins counts p_ft M;
      (* 759-763 *)
      let p_mx := p_ft + ftable_bytes counts (length (all_features E mixins)) in
      do M <- store_all size M p_mx 8 (map WMixin mixins);
      (* 776-806 *)
      let p_of := p_mx + u32 (N.of_nat (length mixins) * 8) in
      do l <- layout E mixins;
      do M <- store_all size M p_of 4 (map WNum (fst (fst l)));
      (* 808-815 *)
      let p_sp := p_of + u32 (N.of_nat (length mixins) * 4) in
      do M <- store_all size M p_sp 4 (repeat (WNum invalid_index) (num_sparse mid mixins));
      do M <- fill_sparse_mem size mid p_sp (num_sparse mid mixins) (enumerate 0 mixins) M;
      Ok (M, {| h_ftable := p_ft; h_flen := length counts; h_mixins := p_mx; h_num := length mixins; h_offsets := p_of;
                h_sparse := p_sp; h_nsparse := num_sparse mid mixins; h_obj_size := snd (fst l); h_obj_align := snd l; h_buf_size := size |}).

End Create.

(** ** The queries, as they read the buffer *)

(** type.hpp:71-74 index_of(id) *)
Definition mem_index_of (M : bmem) (h : thdr) (id : option nat) : res (option nat) :=
  match id with
  | None => Ok None
  | Some k =>
    if (h_nsparse h <=? k)%nat then Ok None
    else
      do x <- load (h_buf_size h) M (h_sparse h + N.of_nat k * 4) 4;
      match x with
      | Some (WNum n) => Ok (if n =? invalid_index then None else Some (N.to_nat n))
      | _ => Ub UbNull
      end
  end.
(** type->mixins[i] and type->mixin_offsets[i] *)
Definition mem_mixin (M : bmem) (h : thdr) (i : nat) : res mptr :=
  do x <- load (h_buf_size h) M (h_mixins h + N.of_nat i * 8) 8;
  match x with Some (WMixin m) => Ok m | _ => Ub UbNull end.
Definition mem_offset (M : bmem) (h : thdr) (i : nat) : res N :=
  do x <- load (h_buf_size h) M (h_offsets h + N.of_nat i * 4) 4;
  match x with Some (WNum n) => Ok n | _ => Ub UbNull end.
(** basic_type.h:63-66 ftable_at: begin, top_bid_back and end; null for a feature that is not there *)
Definition mem_ftable_at (M : bmem) (h : thdr) (id : option nat) : res (option (N * N * N)) :=
  match id with
  | None => Ok None
  | Some k =>
    if (h_flen h <=? k)%nat then Ok None
    else
      let e := entry_at (h_ftable h) k in
      do b <- load (h_buf_size h) M e 8;
      do t <- load (h_buf_size h) M (e + 8) 8;
      do q <- load (h_buf_size h) M (e + 16) 8;
      match b, t, q with
      | Some (WPtr b), Some (WPtr t), Some (WPtr q) => Ok (Some (b, t, q))
      | None, None, None => Ok None
      | _, _, _ => Ub UbNull
      end
  end.
(** *p for a pointer to a payload *)
Definition mem_payload (M : bmem) (h : thdr) (p : N) : res fpayload := read_payload (h_buf_size h) M p.
