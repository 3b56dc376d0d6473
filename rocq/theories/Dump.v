(** The debug dump of a domain: code/dynamix/dbg_dmp.cpp. *)
From Coq Require Import List Arith ZArith NArith Bool.
From Verif Require Import Base Sv Info Registry TypeMut Rules TypeBuild TypeQuery Domain Life.
Import ListNotations.
Open Scope res_scope.

(** Lines for a registry: "n empty slots", or an info *)
Inductive slot_line := LEmpty (n : Z) | LInfo (x : nat).
(** dbg_dmp.cpp:156-165, 173-182: the loop over the infos of a sparse array. [next] is next_slot.
    Simplified: the difference of two unsigned numbers is a number of Z here; that it is not negative is a theorem. *)
Fixpoint dump_slots (idf : nat -> option nat) (next : nat) (l : list nat) : res (list slot_line) :=
  match l with
  | [] => Ok []
  | x :: r =>
    match idf x with
    | None => Ub UbModel (* an invalid id in a registry; shown not to happen *)
    | Some i =>
      do t <- dump_slots idf (S i) r;
      Ok ((if i =? next then [] else [LEmpty (Z.of_nat i - Z.of_nat next)]) ++ LInfo x :: t)
    end
  end.

(** A line "impl" of a type with its rows, dbg_dmp.cpp:73-78: the feature, the two numbers, and for each listing the mixin, payload, bid and priority *)
Record impl_line := { il_feature : fptr; il_top : nat; il_size : nat; il_rows : list (mptr * nat * Z * Z) }.
(** dbg_dmp.cpp:49-99: what is shown of a type. Simplified: without the sizes of buffers and without addresses. *)
Record type_lines := {
  tl_mixins : list mptr;           (* line 51 *)
  tl_nobj : nat;                   (* 62 *)
  tl_traits : list bool;           (* 63-67 *)
  tl_num : nat;                    (* 54-56, in 68 and 71 *)
  tl_impls : list impl_line;       (* 72-80 *)
  tl_count : nat;                  (* 83-87 *)
  tl_queries : list (list mptr);   (* 88-92 *)
  tl_tcs : list cptr               (* 94-98 *)
}.
(** dbg_dmp.cpp:137-211, without the first line: what is shown of a domain with all flags; a number in a heading, and lines.
    For type classes line 201 calls the function without a traversal, so that types are not listed there. *)
Record domain_lines := {
  dl_settings : settings;
  dl_features : nat * list slot_line;
  dl_mixins : nat * list slot_line;
  dl_rules : nat * list (rptr * nat);
  dl_types : nat * list type_lines;
  dl_tcs : nat * list cptr;
  dl_queries : nat * list (list mptr * list mptr)
}.

Section Dump.
Variable E : env.

(** dbg_dmp.cpp:77 *)
Fixpoint dump_rows (t : type_rec) (l : list fpayload) : res (list (mptr * nat * Z * Z)) :=
  match l with
  | [] => Ok []
  | p :: r =>
    match nth_error (t_mixins t) (fp_mixin p) with
    | None => Ub UbOutOfBounds
    | Some m => do x <- dump_rows t r; Ok ((m, fp_payload p, ff_bid (fp_data p), ff_prio (fp_data p)) :: x)
    end
  end.
(** dbg_dmp.cpp:72-80 *)
Fixpoint dump_impls (t : type_rec) (es : list (option fentry)) : res (list impl_line) :=
  match es with
  | [] => Ok []
  | None :: r => dump_impls t r
  | Some e :: r =>
    do l <- payloads t e;
    match l with
    | [] => Ub UbOutOfBounds
    | p :: _ =>
      do rows <- dump_rows t l;
      do x <- dump_impls t r;
      Ok ({| il_feature := ff_info (fp_data p); il_top := fe_back e - fe_begin e + 1; il_size := fe_end e - fe_begin e; il_rows := rows |} :: x)
    end
  end.
(** dbg_dmp.cpp:94-98. Type classes that are registered have a function (domain.cpp:339). *)
Fixpoint dump_tcs (t : type_rec) (l : list cptr) : res (list cptr) :=
  match l with
  | [] => Ok []
  | c :: r =>
    match c_matches (e_tc E c) with
    | None => Ub UbNull
    | Some f => do x <- dump_tcs t r; Ok (if f (t_mixins t) then c :: x else x)
    end
  end.
Definition same_type (a b : tref) : bool := tref_eqb a b.
(** dbg_dmp.cpp:49-99 with all flags and a traversal *)
Definition dump_type (w : world) (d : dptr) (r : tref) : res type_lines :=
  match w_type w r with
  | None => Ub UbDangling
  | Some t =>
    let qs := filter (fun q => same_type (snd q) r) (traverse_type_queries w d) in
    do il <- dump_impls t (ft_entries (t_ftable t));
    do tcs <- dump_tcs t (traverse_type_classes w d);
    Ok {| tl_mixins := t_mixins t; tl_nobj := t_nobj t;
          tl_traits := [default_constructible E t; copy_constructible E t; copy_assignable E t; equality_comparable E t; comparable E t];
          tl_num := List.length (filter (fun x => is_some x) (ft_entries (t_ftable t))); tl_impls := il;
          tl_count := List.length qs; tl_queries := map fst qs; tl_tcs := tcs |}
  end.
Fixpoint dump_types (w : world) (d : dptr) (l : list tref) : res (list type_lines) :=
  match l with
  | [] => Ok []
  | r :: l' => do t <- dump_type w d r; do x <- dump_types w d l'; Ok (t :: x)
  end.
(** dbg_dmp.cpp:204-210 *)
Fixpoint dump_queries (w : world) (l : list (list mptr * tref)) : res (list (list mptr * list mptr)) :=
  match l with
  | [] => Ok []
  | (q, r) :: l' =>
    match w_type w r with
    | None => Ub UbDangling
    | Some t => do x <- dump_queries w l'; Ok ((q, t_mixins t) :: x)
    end
  end.
(** dbg_dmp.cpp:137-211 *)
Definition dump_domain (w : world) (d : dptr) : res domain_lines :=
  do f <- dump_slots (w_fid w) 0 (traverse_features w d);
  do m <- dump_slots (w_mid w) 0 (traverse_mixins w d);
  do ts <- dump_types w d (traverse_types w d);
  do qs <- dump_queries w (traverse_type_queries w d);
  Ok {| dl_settings := e_settings E d;
        dl_features := (List.length (traverse_features w d), f); dl_mixins := (List.length (traverse_mixins w d), m);
        dl_rules := (num_mutation_rules w d, traverse_mutation_rules w d); dl_types := (num_types w d, ts);
        dl_tcs := (List.length (traverse_type_classes w d), traverse_type_classes w d); dl_queries := (num_type_queries w d, qs) |}.
End Dump.
