(** Properties of what the functions of mixins see while they are called *)
From Coq Require Import List Arith ZArith NArith Lia Bool.
From Verif Require Import Base Sv Info MixinInfo TypeBuild TypeQuery Domain SpecLayout Heap Mutation Object SpecObj SpecMut SpecLog SpecAct ActProofs3 SeenProofs5 SeenProofs6 SeenProofs7 SeenProofs8 ExEnv ExObj SpecSeen.
Import ListNotations.

(** C76. Every event of an operation comes with what could be seen at its moment. *)
Theorem C76_log : forall E U tr s op s' r, aligned_mixins E -> history E U tr s -> fair E s op -> op_run E U op s = (s', r) -> ~ is_ub r ->
  exists l, s_seen s' = s_seen s ++ l /\ s_log s' = s_log s ++ map fst l.
Proof.
  intros E U tr s op s' r AM H F Hr Hu. destruct (history_inv E U AM tr s H) as [I Ty]. destruct (seen_grows E U AM s s' op r I Ty F Hr Hu) as (l & Hl). exists l. split; [exact Hl|].
  rewrite <- (seen_log E U _ _ _ H), <- (seen_log E U _ _ _ (or_snoc _ _ _ _ _ _ _ _ H F Hr Hu)), Hl. apply map_app.
Qed.
Print Assumptions C76_log.

(** While a function of a mixin runs, the object pointer of the mixin is the object the operation works on, and that of
    the source is the object that is copied or moved from. The object is there, with the type it had before. *)
Theorem C76_object : forall E U tr s op s' r f m p src err k, aligned_mixins E -> history E U tr s -> fair E s op -> op_run E U op s = (s', r) -> ~ is_ub r ->
  during s s' (EvCall f m p src err) k ->
  exists o x, target op = Some o /\ object_of (at_time k) p = Some o /\ s_obj (at_time k) o = Some x /\ o_type x = type_before s o /\
    forall q, src = Some q -> object_of (at_time k) q = source op f.
Proof.
  intros E U tr s op s' r f m p src err k AM H F Hr Hu D. destruct (history_inv E U AM tr s H) as [I Ty]. exact (call_object E U AM s s' op r I Ty F Hr Hu f m p src err k D).
Qed.
Print Assumptions C76_object.

(** All questions to objects that existed before are answered as before the operation. *)
Theorem C76_questions : forall E U tr s op s' r f m p src err k o, aligned_mixins E -> history E U tr s -> fair E s op -> op_run E U op s = (s', r) -> ~ is_ub r ->
  during s s' (EvCall f m p src err) k -> with_type_set s o ->
  type_before (at_time k) o = type_before s o /\ is_empty (at_time k) o = is_empty s o /\
  (forall id, has (at_time k) o id = has s o id) /\ (forall i m', has_mixin s o i m' -> has_mixin (at_time k) o i m').
Proof.
  intros E U tr s op s' r f m p src err k o AM H F Hr Hu D Hw. destruct (history_inv E U AM tr s H) as [I Ty].
  pose proof (call_asks E U AM s s' op r I Ty F Hr Hu f m p src err k D o) as Q. split; [|split; [apply (Q None Hw)|split; [intros id; apply (Q id Hw)|]]].
  - destruct Hw as (x & X & _). unfold type_before. now rewrite X, (call_records E U AM s s' op r I Ty F Hr Hu f m p src err k D o x X).
  - intros i m'. exact (call_has E U AM s s' op r I Ty F Hr Hu f m p src err k D o i m').
Qed.
Print Assumptions C76_questions.

(** During every call the other objects have all of their mixins, at the same places and with the same values. *)
Theorem C76_others : forall E U tr s op s' r f m p src err k o i m' q v, aligned_mixins E -> history E U tr s -> fair E s op -> op_run E U op s = (s', r) -> ~ is_ub r ->
  during s s' (EvCall f m p src err) k -> target op <> Some o -> (forall fb o', op <> OMoveMatching fb o' o) ->
  holds s o i m' q v -> holds (at_time k) o i m' q v.
Proof.
  intros E U tr s op s' r f m p src err k o i m' q v AM H F Hr Hu D. destruct (history_inv E U AM tr s H) as [I Ty]. exact (call_others E U AM s s' op r I Ty F Hr Hu f m p src err k D o i m' q v).
Qed.
Print Assumptions C76_others.

(** As long as mixins are constructed, copied and updated, the object itself has all the mixins it had before, at the same
    places. So an init function can use what is in the object. *)
Theorem C76_building : forall E U tr s op s' r f m p src err k o i m' q v, aligned_mixins E -> history E U tr s -> fair E s op -> op_run E U op s = (s', r) -> ~ is_ub r ->
  during s s' (EvCall f m p src err) k -> building f = true -> holds s o i m' q v ->
  exists v', holds (at_time k) o i m' q v' /\ (target op <> Some o -> v' = v).
Proof.
  intros E U tr s op s' r f m p src err k o i m' q v AM H F Hr Hu D. destruct (history_inv E U AM tr s H) as [I Ty]. exact (call_building E U AM s s' op r I Ty F Hr Hu f m p src err k D o i m' q v).
Qed.
Print Assumptions C76_building.

(** When an object is destroyed, cleared, or assigned to by a move, the destroy function of mixin [i] sees the object with
    its type, and with the mixins up to [i]; those after [i] were destroyed before. *)
Theorem C76_destroy : forall E U tr s op o s' r f m p src err k, aligned_mixins E -> history E U tr s -> fair E s op -> op_run E U op s = (s', r) -> ~ is_ub r ->
  (op = ODtor o \/ op = OClear o \/ exists src, op = OMoveAssign o src) -> during s s' (EvCall f m p src err) k ->
  f = FDestroy /\ exists i v, holds s o i m p v /\
    forall j m' q v', holds s o j m' q v' ->
      (j <= i -> holds (at_time k) o j m' q v') /\ (i < j -> m_destroy (e_mixin E m') = true -> instance (at_time k) q = None).
Proof.
  intros E U tr s op o s' r f m p src err k AM H F Hr Hu He D. destruct (history_inv E U AM tr s H) as [I Ty]. exact (ending_call E U AM s op o s' r m p src err k f I Ty He Hr Hu D).
Qed.
Print Assumptions C76_destroy.

(** An object that is being made by object(type) or object::copy has no type yet: every question about its type runs into
    the assert of get_type. The documentation (doc/advanced/danger.md:25) says that touching the type may be safe when an
    object is copied; that is so for copy_from only (C76_questions). *)
Theorem C76_made : forall E U tr s op o s' r f m p src err k, aligned_mixins E -> history E U tr s -> fair E s op -> op_run E U op s = (s', r) -> ~ is_ub r ->
  during s s' (EvCall f m p src err) k -> target op = Some o -> s_obj s o = None ->
  object_of (at_time k) p = Some o /\ (forall id, has (at_time k) o id = Ub UbAssert) /\ (forall i, get_at (at_time k) o i = Ub UbAssert).
Proof.
  intros E U tr s op o s' r f m p src err k AM H F Hr Hu D Ho Hn. destruct (C76_object E U tr s op s' r f m p src err k AM H F Hr Hu D) as (o' & x & H1 & H2 & H3 & H4 & _). assert (o' = o) as -> by congruence.
  unfold type_before in H4. rewrite Hn in H4. split; [exact H2|]. split; intros; [unfold has|unfold get_at]; unfold bnd, get_obj; rewrite H3; cbn [fst snd]; unfold the_type; rewrite H4; reflexivity.
Qed.
Print Assumptions C76_made.

(** The memory that is seen at any event is what the events before it tell; for all programs, also those that do not respect
    the contracts. *)
Theorem C76_memory : forall E U ok tr s l1 e k l2, orun E U ok tr s -> s_seen s = l1 ++ (e, k) :: l2 ->
  s_log s = map fst l1 ++ e :: map fst l2 /\
  exists v, legal E (map fst l1) v /\ (forall b, v_blk v b = allocation (at_time k) b) /\ (forall p, v_inst v p = option_map i_mixin (instance (at_time k) p)).
Proof. intros E U ok tr s l1 e k l2 H. exact (moment E U ok tr s H l1 e k l2). Qed.
Print Assumptions C76_memory.

(** ** Concrete cases *)
Definition new_events (s s' : st) : list ev := skipn (length (s_log s)) (s_log s').
Definition no_snap (s : st) : snap := {| sn_w := s_w s; sn_blk := fun _ => None; sn_obj := fun _ => None |}.
Definition shot (s s' : st) (n : nat) : snap := nth n (map snd (skipn (length (s_seen s)) (s_seen s'))) (no_snap s).
Lemma shots_nth (l0 l : list (ev * snap)) n e d : nth_error (map fst l) n = Some e -> exists l1 l2, l0 ++ l = l0 ++ l1 ++ (e, nth n (map snd (skipn (length l0) (l0 ++ l))) d) :: l2.
Proof.
  intros Hn. rewrite skipn_app, skipn_all, Nat.sub_diag. cbn [app skipn]. rewrite nth_error_map in Hn. destruct (nth_error l n) as [[e' k]|] eqn:Hl; [|discriminate]. injection Hn as Hn. cbn in Hn. subst e'.
  assert (Hk : nth n (map snd l) d = k) by (apply nth_error_nth; rewrite nth_error_map, Hl; reflexivity). rewrite Hk. destruct (nth_error_split _ _ Hl) as (l1 & l2 & -> & _). now exists l1, l2.
Qed.
Lemma log_nth (l0 l : list ev) : skipn (length l0) (l0 ++ l) = l.
Proof. now rewrite skipn_app, skipn_all, Nat.sub_diag. Qed.
Lemma shots_during E U tr s op s' r n e : aligned_mixins E -> history E U tr s -> fair E s op -> op_run E U op s = (s', r) -> ~ is_ub r -> nth_error (new_events s s') n = Some e -> during s s' e (shot s s' n).
Proof.
  intros AM H F R Hu Hn. destruct (C76_log E U tr s op s' r AM H F R Hu) as (l & L1 & L2). unfold new_events in Hn. rewrite L2, log_nth in Hn. unfold during, shot. rewrite L1. now apply shots_nth.
Qed.

Example C76_example : forall op n e, In (op, n, e)
    [(OReset false 1 (TReg 1), 1, EvCall FInit 5 (10, 56%N) None 0); (OReset false 1 (TReg 1), 2, EvCall FMoveInit 0 (10, 72%N) (Some (0, 40%N)) 0);
     (OCopy false 9 1 7, 3, EvCall FCopyInit 1 (11, 8%N) (Some (1, 8%N)) 0); (ODtor 4, 1, EvCall FDestroy 1 (7, 8%N) None 0)] ->
  let s := ob_st [] [] in let s' := ob_next [] [] op in
  aligned_mixins ob_env /\ history ob_env (ob_user []) (ob_trace [] []) s /\ fair ob_env s op /\ op_run ob_env (ob_user []) op s = (s', Ok tt) /\ during s s' e (shot s s' n).
Proof.
  intros op n e H s s'. assert (HH : history ob_env (ob_user []) (ob_trace [] []) s) by (apply ob_history; vm_compute; reflexivity). split; [exact ob_aligned|]. split; [exact HH|].
  assert (K : fair ob_env s op /\ op_run ob_env (ob_user []) op s = (s', Ok tt) /\ nth_error (new_events s s') n = Some e).
  { cbn [In] in H. repeat (destruct H as [[= <- <- <-]|H]; [split; [apply ob_fair; vm_compute; reflexivity|split; [apply ob_run; vm_compute; reflexivity|vm_compute; reflexivity]]|]). destruct H. }
  destruct K as (K1 & K2 & K3). split; [exact K1|]. split; [exact K2|]. exact (shots_during _ _ _ _ _ _ _ n e ob_aligned HH K1 K2 ltac:(auto) K3).
Qed.
(** Objects 1, 4 and 6 have mixins in that state; 9 does not exist. *)
Example C76_example2 : let s := ob_st [] [] in holds s 1 0 0 (0, 40%N) 2 /\ holds s 4 0 1 (7, 8%N) 15 /\ holds s 4 2 5 (6, 72%N) 17 /\ with_type_set s 6 /\ s_obj s 9 = None.
Proof.
  cbv zeta. split; [split; [eexists (TReg 0), _; split; [eexists; vm_compute; eauto|vm_compute; reflexivity]|split; vm_compute; reflexivity]|].
  split; [split; [eexists (TReg 4), _; split; [eexists; vm_compute; eauto|vm_compute; reflexivity]|split; vm_compute; reflexivity]|].
  split; [split; [eexists (TReg 4), _; split; [eexists; vm_compute; eauto|vm_compute; reflexivity]|split; vm_compute; reflexivity]|].
  split; [apply typedb_ok; vm_compute; reflexivity|vm_compute; reflexivity].
Qed.

(** C77. External mixins in a mutation: those that the object still has after it are where they were at every event of the
    mutation; their memory is allocated, and they are not destroyed. In a mutation that fails, or is to the type the object
    has, this is so for all mixins. *)
Theorem C77_kept : forall E U tr s op o unw s' r j m p v e k, aligned_mixins E -> history E U tr s -> fair E s op -> mutates op = Some (o, unw) -> op_run E U op s = (s', r) -> ~ is_ub r ->
  holds s o j m p v -> has_some s' o m -> external (e_mixin E m) = true \/ otype s' o = otype s o -> during s s' e k ->
  allocation (at_time k) (fst p) <> None /\ (m_destroy (e_mixin E m) = true -> exists v', instance (at_time k) p = Some {| i_mixin := m; i_val := v' |}).
Proof. intros E U tr s op o unw s' r j m p v e k AM. exact (mutation_alive E U AM tr s op o unw s' r j m p v e k). Qed.
Print Assumptions C77_kept.
(** Object 4 has the external mixin 1 and loses mixin 5, which is destroyed. *)
Example C77_example : let s := ob_st [] [] in let op := OMutate false true 4 [MRemove 5] in let s' := ob_next [] [] op in
  aligned_mixins ob_env /\ history ob_env (ob_user []) (ob_trace [] []) s /\ fair ob_env s op /\ mutates op = Some (4, false) /\ op_run ob_env (ob_user []) op s = (s', Ok tt) /\
  holds s 4 0 1 (7, 8%N) 15 /\ has_some s' 4 1 /\ external (e_mixin ob_env 1) = true /\ m_destroy (e_mixin ob_env 1) = true /\ exists n, during s s' (EvCall FDestroy 5 (6, 72%N) None 0) (shot s s' n).
Proof.
  cbv zeta. assert (HH : history ob_env (ob_user []) (ob_trace [] []) (ob_st [] [])) by (apply ob_history; vm_compute; reflexivity). split; [exact ob_aligned|]. split; [exact HH|].
  assert (K1 : fair ob_env (ob_st [] []) (OMutate false true 4 [MRemove 5])) by (apply ob_fair; vm_compute; reflexivity). split; [exact K1|]. split; [reflexivity|].
  assert (K2 : op_run ob_env (ob_user []) (OMutate false true 4 [MRemove 5]) (ob_st [] []) = (ob_next [] [] (OMutate false true 4 [MRemove 5]), Ok tt)) by (apply ob_run; vm_compute; reflexivity). split; [exact K2|].
  split; [apply C76_example2|]. split; [exists 0; eexists _, _; split; [eexists; vm_compute; eauto|vm_compute; reflexivity]|]. split; [vm_compute; reflexivity|]. split; [vm_compute; reflexivity|].
  exists 2. refine (shots_during _ _ _ _ _ _ _ 2 _ ob_aligned HH K1 K2 _ _); [auto|vm_compute; reflexivity].
Qed.

(** The documentation (danger.md:28) says that in a mutation, accessing other mixins of the object which are external should
    be safe. It is not in a move or destroy function: an external mixin that the mutation removes may already be destroyed
    and its memory freed, and the object still gives the pointer to it. *)
Theorem C77_external_refuted : exists E U tr s op s' o i m q v f m' p src err k, aligned_mixins E /\ history E U tr s /\ fair E s op /\ op_run E U op s = (s', Ok tt) /\
  target op = Some o /\ during s s' (EvCall f m' p src err) k /\ external (e_mixin E m) = true /\ holds s o i m q v /\
  object_of (at_time k) p = Some o /\ get_at (at_time k) o i = Ok (Some q) /\ allocation (at_time k) (fst q) = None.
Proof.
  pose (op := OMutate false true 4 [MRemove 1]). assert (HH : history ob_env (ob_user []) (ob_trace [] []) (ob_st [] [])) by (apply ob_history; vm_compute; reflexivity).
  assert (K1 : fair ob_env (ob_st [] []) op) by (apply ob_fair; vm_compute; reflexivity). assert (K2 : op_run ob_env (ob_user []) op (ob_st [] []) = (ob_next [] [] op, Ok tt)) by (apply ob_run; vm_compute; reflexivity).
  exists ob_env, (ob_user []), (ob_trace [] []), (ob_st [] []), op, (ob_next [] [] op), 4, 0, 1, (7, 8%N), 15%Z, FMoveInit, 5, (10, 56%N), (Some (6, 72%N)), 0%Z, (shot (ob_st [] []) (ob_next [] [] op) 4).
  split; [exact ob_aligned|]. split; [exact HH|]. split; [exact K1|]. split; [exact K2|]. split; [reflexivity|].
  split; [refine (shots_during _ _ _ _ _ _ _ 4 _ ob_aligned HH K1 K2 _ _); [auto|vm_compute; reflexivity]|]. split; [vm_compute; reflexivity|]. split; [apply C76_example2|].
  split; [vm_compute; reflexivity|]. split; vm_compute; reflexivity.
Qed.
Print Assumptions C77_external_refuted.
