(** Specification: what a reader of the debug dump may conclude. *)
From Coq Require Import List Arith ZArith NArith Bool Permutation Sorted.
From Verif Require Import Base Sv Info Registry Rules TypeBuild TypeQuery Domain SpecReg SpecDom SpecMsg Dump.
Import ListNotations.

(** Reading the lines of a registry from the top: what is in slot 0, 1, ... *)
Fixpoint read_slots (l : list slot_line) : list (option nat) :=
  match l with
  | [] => []
  | LEmpty n :: r => repeat None (Z.to_nat n) ++ read_slots r
  | LInfo x :: r => Some x :: read_slots r
  end.
(** The lines, with [n] in the heading, show the registry whose slots are [get]. *)
Definition shows (n : nat) (l : list slot_line) (get : nat -> option nat) : Prop :=
  (forall i, nth i (read_slots l) None = get i) /\ n = length (filter (fun x => match x with LInfo _ => true | _ => false end) l) /\
  (forall z, In (LEmpty z) l -> (0 < z)%Z).
(** The lines of a type show the type [r] of domain [d]. *)
Definition shows_type (E : env) (w : world) (d : dptr) (r : tref) (x : type_lines) : Prop :=
  exists t, w_type w r = Some t /\ tl_mixins x = t_mixins t /\ tl_nobj x = t_nobj t /\
  (exists a b c e f, tl_traits x = [a; b; c; e; f] /\
    (a = true <-> forall m, In m (t_mixins t) -> m_init (e_mixin E m) = true) /\ (b = true <-> forall m, In m (t_mixins t) -> m_copy_init (e_mixin E m) = true) /\
    (c = true <-> forall m, In m (t_mixins t) -> m_copy_asgn (e_mixin E m) = true) /\
    (e = true <-> forall m, In m (t_mixins t) -> m_equals (e_mixin E m) = true \/ m_compare (e_mixin E m) = true) /\
    (f = true <-> forall m, In m (t_mixins t) -> m_compare (e_mixin E m) = true)) /\
  tl_count x = length (tl_queries x) /\ (forall q, In q (tl_queries x) <-> In (q, r) (d_queries (w_dom w d))) /\
  (forall c, In c (tl_tcs x) <-> In (Some c) (d_tcs (w_dom w d)) /\ exists f, c_matches (e_tc E c) = Some f /\ f (t_mixins t) = true).
(** A line "impl" shows the listings of its feature by the mixins [ms]: their number, how many of them have the highest bid, and all of them, the preferred ones first. *)
Definition shows_impl (E : env) (ms : list mptr) (l : impl_line) : Prop :=
  let all := impls E ms (il_feature l) in
  all <> [] /\ il_size l = length all /\ il_top l = length (top_bidders all) /\
  exists xs, Permutation xs all /\ StronglySorted (fun a b => ~ preferred b a) xs /\
    Forall2 (fun x row => nth_error ms (fst x) = Some (fst (fst (fst row))) /\ row = (fst (fst (fst row)), ff_payload (snd x), ff_bid (snd x), ff_prio (snd x))) xs (il_rows l).
(** The lines "impl" of a type: their number is in the heading, there is one line for each feature that one of the mixins lists, and no other. *)
Definition shows_impls (E : env) (x : type_lines) : Prop :=
  tl_num x = length (tl_impls x) /\ NoDup (map il_feature (tl_impls x)) /\ Forall (shows_impl E (tl_mixins x)) (tl_impls x) /\
  (forall f, impls E (tl_mixins x) f <> [] -> In f (map il_feature (tl_impls x))).
(** All of a domain: the registries slot by slot as the getters by id give them, the rules with their counts, the types, the type classes,
    and the stored queries with what they lead to; each heading has the number of what follows. *)
Definition shows_domain (E : env) (w : world) (d : dptr) (x : domain_lines) : Prop :=
  dl_settings x = e_settings E d /\
  shows (fst (dl_features x)) (snd (dl_features x)) (fun i => get_feature_by_id w d (Some i)) /\
  shows (fst (dl_mixins x)) (snd (dl_mixins x)) (fun i => get_mixin_by_id w d (Some i)) /\
  fst (dl_rules x) = length (snd (dl_rules x)) /\ snd (dl_rules x) = d_rules (w_dom w d) /\
  fst (dl_types x) = length (d_types (w_dom w d)) /\
  Forall2 (fun r y => shows_type E w d r y /\ shows_impls E y) (d_types (w_dom w d)) (snd (dl_types x)) /\
  fst (dl_tcs x) = length (snd (dl_tcs x)) /\ (forall c, In c (snd (dl_tcs x)) <-> In (Some c) (d_tcs (w_dom w d))) /\
  fst (dl_queries x) = length (d_queries (w_dom w d)) /\
  Forall2 (fun q y => fst y = fst q /\ exists t, w_type w (snd q) = Some t /\ snd y = t_mixins t) (d_queries (w_dom w d)) (snd (dl_queries x)).
