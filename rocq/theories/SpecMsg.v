(** Specification of features and messages by the listings in the mixin infos. Nothing here refers to feature tables. *)
From Coq Require Import List Arith ZArith NArith Bool.
From Verif Require Import Base Sv Info TypeBuild Domain Msg.
Import ListNotations.

(** The listings of feature [f] by a list of mixins, in mixin order: the position of the mixin and the listing. *)
Definition impls (E : env) (ms : list mptr) (f : fptr) : list (nat * ffm) :=
  flat_map (fun i => match nth_error ms i with
    | Some m => map (pair i) (filter (fun x => ff_info x =? f) (m_features (e_mixin E m)))
    | None => []
    end) (seq 0 (length ms)).

Definition bid_of (x : nat * ffm) : Z := ff_bid (snd x).
Definition prio_of (x : nat * ffm) : Z := ff_prio (snd x).

(** [a] is preferred to [b] in a unicast call: by bid, then by lower priority value, then by later mixin. *)
Definition preferred (a b : nat * ffm) : Prop :=
  (bid_of b < bid_of a)%Z \/
  (bid_of a = bid_of b /\ (prio_of a < prio_of b)%Z) \/
  (bid_of a = bid_of b /\ prio_of a = prio_of b /\ fst b < fst a).

(** [a] is executed before [b] in a multicast call: by higher priority value, then by mixin order. *)
Definition executed_before (a b : nat * ffm) : Prop :=
  (prio_of b < prio_of a)%Z \/ (prio_of a = prio_of b /\ fst a <= fst b).

(** The execution of a listing: its payload on its mixin. *)
Definition exec_of (x : nat * ffm) : exec := ExecImpl (fst x) (ff_payload (snd x)).

(** The listings with the highest bid. *)
Definition is_top (l : list (nat * ffm)) (x : nat * ffm) : bool := forallb (fun y => Z.leb (bid_of y) (bid_of x)) l.
Definition top_bidders (l : list (nat * ffm)) : list (nat * ffm) := filter (is_top l) l.
(** The listings with the greatest bid among those below a bid. *)
Definition below (b : Z) (l : list (nat * ffm)) : list (nat * ffm) := filter (fun y => Z.ltb (bid_of y) b) l.
Definition next_bidders (b : Z) (l : list (nat * ffm)) : list (nat * ffm) := top_bidders (below b l).

(** Two different listings in the list have the same bid and priority. *)
Definition clash_in (l : list (nat * ffm)) : Prop :=
  exists l1 x l2 y l3, l = l1 ++ x :: l2 ++ y :: l3 /\ bid_of x = bid_of y /\ prio_of x = prio_of y.

(** No mixin lists a feature twice. *)
Definition listed_once (E : env) : Prop := forall m, NoDup (map ff_info (m_features (e_mixin E m))).

(** The feature is registered in the domain. *)
Definition feature_in (w : world) (d : dptr) (f : fptr) : Prop := get_feature_by_id w d (w_fid w f) = Some f.

(** What the library records for a listing. *)
Definition payload_of (x : nat * ffm) : fpayload := {| fp_mixin := fst x; fp_payload := ff_payload (snd x); fp_data := snd x |}.

(** The mixin can be asked about in domain [d]: it is registered there or nowhere. *)
Definition not_foreign (w : world) (d : dptr) (m : mptr) : Prop := w_mdom w m = Some d \/ w_mdom w m = None.

(** The beginning of a list up to and including the first element that satisfies [p]. *)
Fixpoint upto {A} (p : A -> bool) (l : list A) : list A :=
  match l with
  | [] => []
  | x :: r => if p x then [x] else x :: upto p r
  end.

(** The sum of a list of numbers. *)
Definition total (l : list Z) : Z := fold_right Z.add 0%Z l.
