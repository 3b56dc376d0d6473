(** String views: code/dnmx/bits/sv.h *)
From Coq Require Import List Arith ZArith NArith Lia Bool.
From Verif Require Import Base.
Import ListNotations.

(** code/dnmx/bits/sv.h:16-56 dnmx_sv.
    Simplified: instead of the end pointer the model has the bytes between begin and end.
    The begin address 0 is the null pointer. *)
Record sv := { sv_begin : N; sv_bytes : list N }.

(** code/dnmx/bits/sv.h:80 dnmx_sv_len *)
Definition sv_len (s : sv) : nat := length (sv_bytes s).

(** code/dnmx/bits/sv.h:52-54 empty: begin == end *)
Definition sv_empty (s : sv) : bool := match sv_bytes s with [] => true | _ => false end.

(** Equality of std::string_view: same length and bytes. *)
Fixpoint bytes_eqb (a b : list N) : bool :=
  match a, b with
  | [], [] => true
  | x :: a', y :: b' => N.eqb x y && bytes_eqb a' b'
  | _, _ => false
  end.

(** code/dnmx/bits/sv.h:31-48 operator== *)
Definition sv_eqb (a b : sv) : bool := bytes_eqb (sv_bytes a) (sv_bytes b).

(** memcmp of the first n bytes.
    Simplified: the result is -1, 0 or 1 (C only fixes the sign). *)
Fixpoint memcmp (n : nat) (a b : list N) : Z :=
  match n with
  | O => 0%Z
  | S n' =>
    match a, b with
    | x :: a', y :: b' =>
      if N.eqb x y then memcmp n' a' b' else if N.ltb x y then (-1)%Z else 1%Z
    | _, _ => 0%Z (* not reached: n is at most both lengths *)
    end
  end.

(** code/dnmx/bits/sv.h:82-101 dnmx_sv_cmp *)
Definition sv_cmp (a b : sv) : Z :=
  if N.eqb (sv_begin a) (sv_begin b) then 0%Z
  else
    let alen := sv_len a in
    if N.eqb (sv_begin b) 0 then (if alen =? 0 then 0%Z else 1%Z)
    else
      let blen := sv_len b in
      if N.eqb (sv_begin a) 0 then (if blen =? 0 then 0%Z else (-1)%Z)
      else if alen =? blen then memcmp alen (sv_bytes a) (sv_bytes b)
      else if alen <? blen then
        let c := memcmp alen (sv_bytes a) (sv_bytes b) in if Z.eqb c 0 then (-1)%Z else c
      else
        let c := memcmp blen (sv_bytes a) (sv_bytes b) in if Z.eqb c 0 then 1%Z else c.
