(** What a program may expect of the bytes of its mixins: every mixin has bytes of its own, and they change only by calls on
    that mixin and by the program. There is no memory in this file, but a list of bytes for every mixin at every place. *)
From Coq Require Import List Arith ZArith NArith Bool.
From Verif Require Import Base Info Heap SpecLog SpecPlace Common.
Import ListNotations.

(** The bytes that memory has for a mixin with [n] bytes at [p] *)
Definition bytes (M : mem) (p : addr) (n : N) : list byte := map (fun k => M (fst p) (snd p + N.of_nat k)%N) (seq 0 (N.to_nat n)).

(** The events among what happened *)
Fixpoint events (l : list act) : list ev :=
  match l with
  | [] => []
  | BEv e _ :: r => e :: events r
  | _ :: r => events r
  end.

Section Spec.
Variable E : env.
Variable codes : mptr -> fn -> code.
Notation size m := (m_size (e_mixin E m)).

(** The function that a call runs: that of the mixin info, but functions given to mutate and mutate_to are of the program. *)
Definition runs (m : mptr) (f : fn) : code := match f with FOverride _ | FUpdate _ => COwn | _ => codes m f end.

(** What the functions do to values: the new bytes of the target and, if they are changed, of the source, given the old ones *)
Definition result (c : code) (n : N) (old src : list byte) (own : list byte * list byte) : list byte * option (list byte) :=
  let all v := repeat v (N.to_nat n) in
  match c with
  | CInit => (all 0%N, None)
  | CCopy | CMoveCopy => (src, None)
  | CMove => (src, Some (all 0%N))
  | CDestroy => (all 254%N, None)
  | CNoop => (old, None)
  | COwn => (fst own, Some (snd own))
  end.

(** The bytes of mixin [m] at [p] *)
Definition values := mptr -> addr -> list byte.
Definition set_value (V : values) (m : mptr) (p : addr) (v : list byte) : values := fun m' p' =>
  if (m' =? m) && same_addr p' p then v else V m' p'.
Definition act_value (V : values) (a : act) : values :=
  match a with
  | BEv (EvCall f m p src _) own =>
    let r := result (runs m f) (size m) (V m p) (match src with Some q => V m q | None => [] end) own in
    let V1 := set_value V m p (fst r) in
    match src, snd r with Some q, Some v => set_value V1 m q v | _, _ => V1 end
  | BWrite m p v => set_value V m p v
  | _ => V
  end.
Definition acts_value (V : values) (l : list act) : values := fold_left act_value l V.

Definition reads_source (c : code) : bool := match c with CCopy | CMove | CMoveCopy => true | _ => false end.

(** What the program is held to, [l] being all events: its functions leave as many bytes as the mixin has; the common
    functions get a source, and it is not the target itself; it writes to mixins no more than their bytes, and other things
    are not in the bytes of mixins. *)
Definition proper (l : list ev) (a : act) : Prop :=
  match a with
  | BEv (EvCall f m p src _) own =>
    (length (fst own) = N.to_nat (size m) /\ length (snd own) = N.to_nat (size m)) /\
    (reads_source (runs m f) = true -> exists q, src = Some q /\ q <> p)
  | BEv _ _ => True
  | BWrite m p v => (exists e, In e l /\ touches e m p) /\ length v = N.to_nat (size m)
  | BOther b x _ => forall e m p, In e l -> touches e m p -> inside p (size m) b x = false
  end.

(** The program wrote nothing to mixins itself. *)
Definition hands_off (l : list act) : Prop := forall a, In a l -> match a with BWrite _ _ _ => False | _ => True end.

End Spec.

(** Comparing bytes: the first difference decides. *)
Inductive lex : list byte -> list byte -> Z -> Prop :=
| lex_nil : lex [] [] 0
| lex_same x l l' c : lex l l' c -> lex (x :: l) (x :: l') c
| lex_less x y l l' c : (x < y)%N -> (c < 0)%Z -> lex (x :: l) (y :: l') c
| lex_more x y l l' c : (y < x)%N -> (0 < c)%Z -> lex (x :: l) (y :: l') c.

(** [acts] is what happened up to state [s], and memory came from [M0] to [M] by it. *)
Definition memory_of (E : env) (codes : mptr -> fn -> code) (s : st) (M0 : mem) (acts : list act) (M : mem) : Prop :=
  events acts = s_log s /\ Forall (proper E codes (s_log s)) acts /\ do_acts E codes M0 acts = Some M.
(** After [acts] a call of the library came from [s] to [s'] and memory from [M] to [M'], and the program did not write to
    mixins meanwhile (but in functions that the library called). *)
Definition memory_step (E : env) (codes : mptr -> fn -> code) (s s' : st) (M M' : mem) : Prop :=
  exists M0 acts acts', events acts = s_log s /\ do_acts E codes M0 acts = Some M /\
    memory_of E codes s' M0 (acts ++ acts') M' /\ hands_off acts'.
