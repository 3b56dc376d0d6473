(** Theorems C27 and C28 for mixins that may list a feature more than once. *)
From Coq Require Import List Arith ZArith NArith Lia Bool Permutation Sorted.
From Verif Require Import Base Sv Info TypeBuild TypeQuery Msg Domain SpecReg SpecDom SpecOrd SpecRule SpecMsg SpecNext ExEnv ExFirst ExKept
  HistProofs MsgProofs MsgProofs2 NextProofs PropsDom PropsMsg.
Import ListNotations.

(** C27. The next implementer after a mixin is the listing after the mixin's first one in the row. *)
Theorem C27_first_listing : forall E tr w d r t f, run_where E (features_kept E) tr w -> has_type w d r t -> feature_in w d f ->
  exists l, Permutation l (impls E (t_mixins t) f) /\ StronglySorted (fun a b => ~ preferred b a) l /\
    (forall x rest, l = x :: rest -> call_unicast E (w_fid w) t f = Ok (exec_of x)) /\
    (forall k x m, first_of l k x -> nth_error (t_mixins t) (fst x) = Some m ->
       find_next_implementer (w_fid w) (w_mid w) t f m = Ok (option_map payload_of (nth_error l (S k))) /\
       has_next_impl (w_fid w) (w_mid w) t f m = Ok (S k <? length l) /\
       call_next_impl (w_fid w) (w_mid w) t f m = match nth_error l (S k) with Some y => Ok (exec_of y) | None => Throw ENotImplemented end).
Proof. intros E tr w d r t f H Ht Hf. destruct (next_impl_exact E tr w d r t f H Ht Hf) as (l & A & B & C & D & _). now exists l. Qed.
Print Assumptions C27_first_listing.

(** C27. Asking for the next implementer again and again visits all listings and ends if no mixin of the type lists the feature
    twice; if one does, it never ends. *)
Theorem C27_ends_exactly : forall E tr w d r t f, run_where E (features_kept E) tr w -> has_type w d r t -> feature_in w d f -> impls E (t_mixins t) f <> [] ->
  (NoDup (map fst (impls E (t_mixins t) f)) -> exists l, Permutation l (impls E (t_mixins t) f) /\ StronglySorted (fun a b => ~ preferred b a) l /\
     (forall n x, nth_error l n = Some x -> chain E (w_fid w) (w_mid w) t f n = Ok (exec_of x)) /\ chain E (w_fid w) (w_mid w) t f (length l) = Throw ENotImplemented) /\
  (~ NoDup (map fst (impls E (t_mixins t) f)) -> forall n, exists x, In x (impls E (t_mixins t) f) /\ chain E (w_fid w) (w_mid w) t f n = Ok (exec_of x)).
Proof. exact chain_exact. Qed.
Print Assumptions C27_ends_exactly.

(** C28. The next bidder set after a mixin goes by the bid of the mixin's first listing in the row, which is its highest one. *)
Theorem C28_first_listing : forall E tr w d r t f, run_where E (features_kept E) tr w -> has_type w d r t -> feature_in w d f ->
  exists l, Permutation l (impls E (t_mixins t) f) /\ StronglySorted (fun a b => ~ preferred b a) l /\
    forall k x m, first_of l k x -> nth_error (t_mixins t) (fst x) = Some m ->
      exists n, find_next_bidder_set (w_fid w) (w_mid w) t f m = Ok (map payload_of n) /\ Permutation n (next_bidders (bid_of x) (impls E (t_mixins t) f)) /\
        StronglySorted (fun a b => ~ preferred b a) n.
Proof. intros E tr w d r t f H Ht Hf. destruct (next_impl_exact E tr w d r t f H Ht Hf) as (l & A & B & _ & _ & D). now exists l. Qed.
Print Assumptions C28_first_listing.

(** C27 and C28. A mixin that does not implement the feature in the type has no next implementer and no next bidder set. *)
Theorem C28_not_implementer : forall E tr w d r t f m, run_where E (features_kept E) tr w -> has_type w d r t -> feature_in w d f -> not_foreign w d m ->
  ~ (In m (t_mixins t) /\ exists x, In x (m_features (e_mixin E m)) /\ ff_info x = f) ->
  find_next_implementer (w_fid w) (w_mid w) t f m = Ok None /\ call_next_impl (w_fid w) (w_mid w) t f m = Throw ENotImplemented /\
  find_next_bidder_set (w_fid w) (w_mid w) t f m = Ok [] /\ call_next_bidder_set (w_fid w) (w_mid w) t f m = Throw ENotImplemented.
Proof. exact next_none. Qed.
Print Assumptions C28_not_implementer.

Definition ex_tw_ops := [DRegMixin 0 0; DRegMixin 0 5; DGetType 0 [5; 0] true].
Definition ex_tw := ex_after ex_twice ex_tw_ops.
Definition ex_tt := ex_type ex_tw (TReg 0).
Example C27_twice_example : run_where ex_twice (features_kept ex_twice) (ex_tr ex_twice ex_tw_ops) ex_tw /\ has_type ex_tw 0 (TReg 0) ex_tt /\ feature_in ex_tw 0 0 /\
  map fst (impls ex_twice (t_mixins ex_tt) 0) = [0; 1; 1] /\ ~ NoDup (map fst (impls ex_twice (t_mixins ex_tt) 0)) /\
  chain ex_twice (w_fid ex_tw) (w_mid ex_tw) ex_tt 0 0 = Ok (ExecImpl 1 10) /\
  chain ex_twice (w_fid ex_tw) (w_mid ex_tw) ex_tt 0 3 = Ok (ExecImpl 1 11) /\
  bind (find_next_bidder_set (w_fid ex_tw) (w_mid ex_tw) ex_tt 0 0) (fun l => Ok (map fp_payload l)) = Ok [11].
Proof.
  split; [apply ex_where; [intros o w0 H; repeat (destruct H as [<-|H]; [exact I|]); destruct H|vm_compute; reflexivity]|].
  split; [ex_typ|]. split; [vm_compute; reflexivity|]. split; [vm_compute; reflexivity|].
  split; [replace (map fst (impls ex_twice (t_mixins ex_tt) 0)) with [0; 1; 1] by (vm_compute; reflexivity); intros H; inversion H; subst; inversion H3; subst; apply H4; now left|].
  split; [vm_compute; reflexivity|]. split; vm_compute; reflexivity.
Qed.
Example C27_once_example : NoDup (map fst (impls ex_env (t_mixins (ex_type ex_mw (TReg 0))) 0)) /\ impls ex_env (t_mixins (ex_type ex_mw (TReg 0))) 0 <> [] /\
  chain ex_env (w_fid ex_mw) (w_mid ex_mw) (ex_type ex_mw (TReg 0)) 0 2 = Ok (ExecImpl 0 10) /\
  chain ex_env (w_fid ex_mw) (w_mid ex_mw) (ex_type ex_mw (TReg 0)) 0 3 = Throw ENotImplemented.
Proof.
  replace (map fst (impls ex_env (t_mixins (ex_type ex_mw (TReg 0))) 0)) with [0; 1; 2] by (vm_compute; reflexivity).
  split; [repeat constructor; simpl; intuition discriminate|]. split; [vm_compute; discriminate|]. split; vm_compute; reflexivity.
Qed.
Example C28_not_implementer_example : not_foreign ex_tw 0 7 /\ ~ In 7 (t_mixins ex_tt) /\ call_next_impl (w_fid ex_tw) (w_mid ex_tw) ex_tt 0 7 = Throw ENotImplemented.
Proof. split; [right; vm_compute; reflexivity|]. split; [vm_compute; intuition discriminate|vm_compute; reflexivity]. Qed.
