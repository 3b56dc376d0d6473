(** What functions of mixins see: memory at each moment is what the events before it tell, and mixins that a mutation keeps
    are alive all the time *)
From Coq Require Import List Arith ZArith NArith Lia Bool.
From Verif Require Import Base Sv Info TypeBuild TypeQuery Domain Heap Mutation Object SpecObj SpecMut SpecLog SpecAct LogProofs ObjProofs ActProofs3 MutProofs MutProofs2 MutTheorems ObjTheorems ObjTheorems2 ObjTheorems4 SpecSeen.
Import ListNotations.

Section Moments.
Variable E : env.
Variable U : user.
Notation history := (history E U).

Lemma moment ok tr s : orun E U ok tr s -> forall l1 e k l2, s_seen s = l1 ++ (e, k) :: l2 ->
  s_log s = map fst l1 ++ e :: map fst l2 /\ exists v, legal E (map fst l1) v /\ (forall b, v_blk v b = allocation (at_time k) b) /\ (forall p, v_inst v p = option_map i_mixin (instance (at_time k) p)).
Proof.
  intros H l1 e k l2 Hs. destruct (orun_linked E U ok tr s H) as (_ & _ & (Q1 & Q2) & _). split; [rewrite <- Q1, Hs, map_app; reflexivity|]. destruct (Q2 _ _ _ _ Hs) as (v & A & B & C). eauto.
Qed.
Lemma times_app f l1 l2 : times f (l1 ++ l2) = times f l1 + times f l2.
Proof. unfold times. now rewrite filter_app, app_length. Qed.
Lemma ids_once ok tr s b : orun E U ok tr s -> times (is_alloc b) (s_log s) <= 1.
Proof. intros H. destruct (orun_linked E U ok tr s H) as (_ & _ & _ & Q). apply Q. Qed.

(** A mixin that is there before and after, and is not destroyed, is there at all times. *)
Lemma kept_at ok tr s tr' s' l e k m p v : orun E U ok tr s -> orun E U ok tr' s' -> s_log s' = s_log s ++ l -> during s s' e k ->
  instance s p = Some {| i_mixin := m; i_val := v |} -> allocation s' (fst p) <> None -> times (is_death m p) l = 0 ->
  allocation (at_time k) (fst p) <> None /\ (m_destroy (e_mixin E m) = true -> exists v', instance (at_time k) p = Some {| i_mixin := m; i_val := v' |}).
Proof.
  intros H H' Hl (l1 & l2 & Hs) Hi Ha Hd. rewrite app_assoc in Hs. destruct (moment _ _ _ H' _ _ _ _ Hs) as (L1 & v1 & V1 & V2 & V3).
  destruct (c33_legal E U _ _ _ H) as (v0 & A1 & A2 & A3). destruct (c33_legal E U _ _ _ H') as (v2 & B1 & B2 & B3).
  assert (Hlog : map fst (s_seen s) = s_log s) by apply (orun_linked E U ok tr s H). rewrite map_app, Hlog in *. rewrite L1, <- app_assoc in Hl. apply app_inv_head in Hl.
  assert (Hb : allocation s (fst p) <> None) by (unfold instance in Hi; unfold allocation; destruct (s_blk s (fst p)); discriminate). split.
  - pose proof (count_blocks E _ _ (fst p) V1) as C1. pose proof (count_blocks E _ _ (fst p) A1) as C0. pose proof (count_blocks E _ _ (fst p) B1) as C2. pose proof (ids_once _ _ _ (fst p) H') as C3.
    rewrite L1 in C2, C3. rewrite A2 in C0. rewrite B2 in C2. rewrite V2 in C1. rewrite !times_app in *. destruct (allocation s (fst p)); [|congruence]. destruct (allocation s' (fst p)); [|congruence]. destruct (allocation (at_time k) (fst p)); [discriminate|]. cbn [one] in *. lia.
  - intros Hm. pose proof (count_mixins E _ _ m p Hm V1) as C1. pose proof (count_mixins E _ _ m p Hm A1) as C0. rewrite A3, Hi in C0. cbn in C0. rewrite Nat.eqb_refl in C0. rewrite !times_app in C1. rewrite V3 in C1. rewrite <- Hl, times_app in Hd.
    destruct (instance (at_time k) p) as [[m' v']|]; cbn in C1; [|lia]. destruct (Nat.eqb_spec m' m) as [->|]; [|lia]. eauto.
Qed.
Lemma calls_death m p l : (forall e, In e (calls m l) -> is_death m p e = false) -> times (is_death m p) l = 0.
Proof.
  intros H. unfold times. induction l as [|e l IH]; [reflexivity|]. cbn [filter]. cbn [calls filter] in H. destruct (is_death m p e) eqn:Hd.
  - exfalso. unfold calls in H. cbn in H. assert (Hc : is_call m e = true) by (destruct e as [| |f m' q src err]; cbn in *; try discriminate; destruct f; try discriminate; apply andb_true_iff in Hd; now destruct Hd). rewrite Hc in H. rewrite (H e (or_introl eq_refl)) in Hd. discriminate.
  - apply IH. intros e' He. apply H. unfold calls in *. cbn. destruct (is_call m e); [now right|exact He].
Qed.
Hypothesis AM : SpecLayout.aligned_mixins E.
Lemma mutation_alive tr s op o unw s' r j m p v e k : history tr s -> fair E s op -> mutates op = Some (o, unw) -> op_run E U op s = (s', r) -> ~ is_ub r ->
  holds s o j m p v -> has_some s' o m -> external (e_mixin E m) = true \/ otype s' o = otype s o -> during s s' e k ->
  allocation (at_time k) (fst p) <> None /\ (m_destroy (e_mixin E m) = true -> exists v', instance (at_time k) p = Some {| i_mixin := m; i_val := v' |}).
Proof.
  intros H F Hm Hr Hu Hj (i & Hi) He D. destruct (history_inv E U AM tr s H) as [I Ty]. pose proof (or_snoc _ _ _ _ _ _ _ _ H F Hr Hu) as H'.
  destruct (mutation_spec E U AM s op o unw s' r I Ty F Hm Hr) as (I' & Ty' & M). pose proof Hj as (_ & _ & Hin).
  assert (Hfailed : (exists ms l, failed E s s' o ms (made_with E (inits E s op)) (updated_with (upds E op)) l) -> allocation (at_time k) (fst p) <> None /\ (m_destroy (e_mixin E m) = true -> exists v', instance (at_time k) p = Some {| i_mixin := m; i_val := v' |})).
  { intros (ms & l & M'). eapply (kept_at _ _ _ _ _ l e k m p v H H'); eauto.
    - apply (fd_did _ _ _ _ _ _ _ _ M').
    - rewrite (fd_memory _ _ _ _ _ _ _ _ M'). unfold instance in Hin. unfold allocation. destruct (s_blk s (fst p)); discriminate.
    - apply calls_death. intros e0 He0. destruct (in_dec Nat.eq_dec m ms) as [Hms|Hms]; [|rewrite (fd_quiet _ _ _ _ _ _ _ _ M' m Hms) in He0; destruct He0].
      destruct (In_nth_error _ _ Hms) as (i' & Hi'). destruct (fd_common _ _ _ _ _ _ _ _ M' i' j m p v Hi' Hj) as [Hc|(f & src & err & Hup & Hc)]; rewrite Hc in He0; [destruct He0|]. destruct He0 as [<-|[]]. destruct Hup as [(q & _ & [= -> _])|[_ [=]]]. reflexivity. }
  destruct r as [[]|x|x]; [|apply Hfailed, M|destruct M]. destruct M as [(rt & l & _ & M)|[_ M]]; [|now apply Hfailed].
  assert (Hx : external (e_mixin E m) = true \/ exists t, type_of s o rt t).
  { destruct He as [He|He]; auto. right. destruct (mt_type _ _ _ _ _ _ _ _ M) as (t' & x' & X1 & X2 & _). destruct Hj as ((q & t0 & T0 & _) & _). destruct T0 as (x & Y1 & Y2 & Y3). exists t0, x. split; auto. split; auto.
    - rewrite Y2. unfold otype in He. rewrite X1, Y1, X2, Y2 in He. congruence.
    - unfold otype in He. rewrite X1, Y1, X2, Y2 in He. now injection He as ->. }
  destruct (mt_stay _ _ _ _ _ _ _ _ M i j m p v Hi Hj Hx) as (v' & c & S1 & S2 & _ & S3). eapply (kept_at _ _ _ _ _ l e k m p v H H'); eauto.
  - apply (mt_did _ _ _ _ _ _ _ _ M).
  - destruct S1 as (_ & _ & S1). unfold instance in S1. unfold allocation. destruct (s_blk s' (fst p)); discriminate.
  - apply calls_death. intros e0 He0. rewrite S3 in He0. destruct S2 as [(q & _ & ->)|[_ ->]]; cbn in He0; [destruct He0 as [<-|[]]; reflexivity|destruct He0].
Qed.
End Moments.
