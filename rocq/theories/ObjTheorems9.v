(** What a call does not change *)
From Coq Require Import List Arith ZArith NArith Lia Bool.
From Verif Require Import Base Sv SvProofs BaseLemmas Info TypeBuild TypeQuery Domain ElemProofs TypesProofs SpecReg SpecDom HistProofs DomTheorems SpecLayout Heap HeapProofs Mutation Object SpecObj SpecMut SpecAct
  PartProofs RollProofs AllocProofs UpdProofs FinProofs PerfProofs WorldProofs ObjProofs OpProofs PlanProofs ActProofs ActProofs2 MatchProofs ActProofs3 MutProofs MutProofs2 MutTheorems HonestProofs StableProofs ObjTheorems ObjTheorems2 ObjTheorems3 ObjTheorems4 ObjTheorems5 ObjTheorems6 ObjTheorems7 ObjTheorems8.
Import ListNotations.

Section OT9.
Variable E : env.
Variable U : user.
Hypothesis AM : aligned_mixins E.
Notation Inv := (Inv E).

Definition kept (s s' : st) (o : nat) : Prop := s_obj s' o = s_obj s o /\ forall i m p v, holds s' o i m p v <-> holds s o i m p v.
Lemma no_holds s o i m p v : s_obj s o = None -> ~ holds s o i m p v.
Proof. intros H ((r & t & (x & A & _) & _) & _). congruence. Qed.
Lemma kept_by s s' o : s_obj s' o = s_obj s o -> (s_obj s o <> None -> forall i m p v, holds s' o i m p v <-> holds s o i m p v) -> kept s s' o.
Proof.
  intros H1 H2. split; auto. intros i m p v. destruct (s_obj s o) as [x|] eqn:Ho; [apply H2; congruence|]. split; intros H; exfalso; [apply (no_holds s' o i m p v); [congruence|auto]|apply (no_holds s o i m p v); auto].
Qed.
Lemma kept_refl s o : kept s s o.
Proof. split; reflexivity. Qed.
Lemma kept_mutated s s' o r mk up l o' : Inv s -> typed s -> mutated E s s' o r mk up l -> o' <> o -> kept s s' o'.
Proof. intros I Ty M Hne. apply kept_by; [apply (mt_objects _ _ _ _ _ _ _ _ M); auto|]. intros Ho i m p v. eapply mutated_other; eauto. Qed.
Lemma kept_wiped s s' o l o' : Inv s -> typed s -> wiped E s s' o l -> o' <> o -> kept s s' o'.
Proof. intros I Ty M Hne. apply kept_by; [apply (wp_objects _ _ _ _ _ M); auto|]. intros Ho i m p v. eapply wiped_other; eauto. Qed.
Lemma kept_failed s s' o ms mk up l o' : Inv s -> typed s -> failed E s s' o ms mk up l -> o' <> o -> kept s s' o'.
Proof. intros I Ty M Hne. apply kept_by; [apply (fd_objects _ _ _ _ _ _ _ _ M)|]. intros Ho i m p v. eapply failed_other; eauto. Qed.
Lemma kept_created s s' o a sl r mk l o' : Inv s -> typed s -> created E s s' o a sl r mk l -> o' <> o -> kept s s' o'.
Proof. intros I Ty M Hne. apply kept_by; [apply (cr_objects _ _ _ _ _ _ _ _ _ M); auto|]. intros Ho i m p v. eapply created_other; eauto. Qed.
Lemma kept_unchanged s s' o' : Inv s -> typed s -> unchanged s s' -> types_kept s s' -> kept s s' o'.
Proof. intros I Ty H T. split; [apply H|]. intros i m p v. eapply unchanged_holds; eauto. Qed.
Lemma kept_like s s' o' : Inv s -> typed s -> s_obj s' o' = s_obj s o' -> like E s s' o' o' -> kept s s' o'.
Proof. intros I Ty H L. apply kept_by; auto. intros Ho i m p v. apply (like_holds E AM s s' o' o'); auto. Qed.
Lemma kept_stillborn s s' o o' : Inv s -> typed s -> stillborn s s' o -> o' <> o -> kept s s' o'.
Proof.
  intros I Ty [A B C D] Hne. apply kept_like; auto. apply same_like; auto. intros q t H. exists (t_nobj t). rewrite set_nobj_id. auto.
Qed.
Lemma kept_shared s s' o src both o' : Inv s -> typed s -> only_shared s s' o src both -> o' <> o -> (both = true -> o' <> src) -> kept s s' o'.
Proof.
  intros I Ty S Hne Hnb. apply kept_by; [apply (os_objects _ _ _ _ _ S)|]. intros Ho i m p v. rewrite !holds_iff.
  assert (Ht : forall q t, type_of s' o' q t <-> type_of s o' q t).
  { intros q t. split; [|apply (os_types _ _ _ _ _ S)]. intros (x & A1 & A2 & A3). rewrite (os_objects _ _ _ _ _ S) in A1. assert (Hal : w_type (s_w s) q <> None) by (eapply type_alive; eauto).
    destruct (w_type (s_w s) q) as [t0|] eqn:Hq; [|congruence]. assert (H0 : type_of s o' q t0) by (exists x; auto). destruct (os_types _ _ _ _ _ S o' q t0 H0) as (x' & _ & _ & B). assert (t = t0) by congruence. now subst. }
  assert (Hm : has_mixin s' o' i m <-> has_mixin s o' i m) by (split; intros (q & t & A & B); exists q, t; split; auto; now apply Ht).
  assert (Hp : forall x b d, s_obj s o' = Some x -> o_data x = Some b -> has_mixin s o' i m -> data_slot s b i = Some d -> md_mixin d = p -> instance s' p = instance s p).
  { intros x b d A1 A2 A3 A4 A5. destruct (mixin_holds E s o' i m I Ty A3) as (p' & v' & H). assert (p' = p) as ->. { apply holds_iff in H. destruct H as (x1 & b1 & d1 & B1 & B2 & _ & B3 & B4 & _). congruence. }
    apply (os_other _ _ _ _ _ S).
    - intros m' q v1 w1 (i1 & j1 & K1 & K2). destruct (one_owner E AM s o' i m p v' o i1 m' v1 I Ty H K1) as (H1 & _). congruence.
    - intros Hb m' q v1 w1 (i1 & j1 & K1 & K2). destruct (one_owner E AM s o' i m p v' src j1 m' w1 I Ty H K2) as (H1 & _). exact (Hnb Hb (eq_sym H1)). }
  split; intros (x & b & d & A1 & A2 & A3 & A4 & A5 & A6); exists x, b, d.
  - rewrite (os_objects _ _ _ _ _ S) in A1. rewrite (os_data _ _ _ _ _ S) in A4. apply Hm in A3. rewrite (Hp x b d) in A6; auto 10.
  - rewrite (os_objects _ _ _ _ _ S). rewrite (os_data _ _ _ _ _ S). rewrite (Hp x b d); auto. rewrite Hm. auto 10.
Qed.
Lemma kept_took s s' o src o' : took E s s' o src -> o' <> o -> o' <> src -> kept s s' o'.
Proof. intros T H1 H2. split; [apply (tk_objects _ _ _ _ _ T); auto|]. intros i m p v. now apply (tk_others _ _ _ _ _ T). Qed.
Lemma kept_mut s op o unw s' res o' : Inv s -> typed s -> fair E s op -> mutates op = Some (o, unw) -> op_run E U op s = (s', res) -> o' <> o -> kept s s' o'.
Proof.
  intros I Ty F Hm Hr Hne. destruct (mutation_spec E U AM s op o unw s' res I Ty F Hm Hr) as (_ & _ & H). destruct res as [[]|e|u]; [| |contradiction].
  - destruct H as [(r & l & _ & M)|(_ & ms & l & M)]; [eapply kept_mutated|eapply kept_failed]; eauto.
  - destruct H as [(ms & l & M) _]. eapply kept_failed; eauto.
Qed.
Lemma frame s op s' res o' : Inv s -> typed s -> fair E s op -> op_run E U op s = (s', res) -> ~ In o' (may_change op) -> kept s s' o'.
Proof.
  intros I Ty F Hr Hn. destruct op; cbn [may_change] in Hn;
    match goal with
    | |- _ => eapply (kept_mut s); [auto|auto|exact F|reflexivity|exact Hr|]; intros ->; apply Hn; now left
    | |- _ => idtac
    end.
  - (* OEmpty *) cbn in F, Hr. unfold new_empty, bnd, fresh_obj in Hr. rewrite F in Hr. injection Hr as <- <-. assert (o' <> o) by (intros ->; apply Hn; now left). apply kept_like; auto; [cbn; now rewrite upd_other|]. apply same_like; [cbn; now rewrite upd_other| |intros; repeat split].
    intros q t (x & A & B & C). exists (t_nobj t), x. rewrite set_nobj_id. cbn. rewrite upd_other; auto.
  - (* ONew *) assert (o' <> o) by (intros ->; apply Hn; now left). pose proof (new_spec E U AM _ _ _ _ _ _ _ _ I Ty F Hr) as H0. destruct res as [[]|e|u]; [| |contradiction].
    + destruct H0 as [(l & C)|[_ C]]; [eapply kept_created|eapply kept_stillborn]; eauto.
    + destruct H0 as (A & B & _). now apply kept_unchanged.
  - (* OMoved *) destruct (moved_spec E U AM _ _ _ _ _ I Ty F Hr) as (_ & T & _). eapply kept_took; eauto; intros ->; apply Hn; cbn; auto.
  - (* ODtor *) destruct (dtor_spec E U AM _ _ _ _ I Ty F Hr) as (_ & (l & W) & _). eapply kept_wiped; eauto. intros ->; apply Hn; cbn; auto.
  - (* OMoveAssign *) pose proof (move_spec E U AM _ _ _ _ _ I Ty F Hr) as H0. destruct res as [[]|e|u]; [| |contradiction].
    + destruct H0 as [[_ ->]|(_ & _ & T & _)]; [apply kept_refl|]. eapply kept_took; eauto; intros ->; apply Hn; cbn; auto.
    + destruct H0 as [-> _]. apply kept_refl.
  - (* OCopy *) assert (o' <> o) by (intros ->; apply Hn; now left). pose proof (copy_spec E U AM _ _ _ _ _ _ _ I Ty F Hr) as H0. destruct res as [[]|e|u]; [| |contradiction].
    + destruct H0 as [(l & C)|[_ C]]; [eapply kept_created|eapply kept_stillborn]; eauto.
    + destruct H0 as (A & B & _). now apply kept_unchanged.
  - (* OCopyFrom *) assert (o' <> o) by (intros ->; apply Hn; now left). pose proof (from_spec E U AM _ _ _ _ _ _ I Ty F Hr) as H0. destruct res as [[]|e|u]; [| |contradiction].
    + destruct H0 as (_ & [(_ & r & l & _ & M)|[(_ & (l & W) & _)|(_ & _ & ms & l & M)]]); [eapply kept_mutated|eapply kept_wiped|eapply kept_failed]; eauto.
    + destruct H0 as [(ms & l & M) _]. eapply kept_failed; eauto.
  - (* OCopyMatching *) assert (o' <> o) by (intros ->; apply Hn; now left). pose proof (cmatch_spec E U AM _ _ _ _ _ I Ty F Hr) as H0. destruct res as [[]|e|u]; [| |contradiction]; destruct H0 as [S _]; eapply kept_shared; eauto; discriminate.
  - (* OMoveMatching *) pose proof (mmatch_spec E U AM _ _ _ _ _ _ I Ty F Hr) as H0. destruct res as [[]|e|u]; [| |contradiction].
    + destruct H0 as [S _]. eapply kept_shared; eauto; [|intros _]; intros ->; apply Hn; cbn; auto.
    + destruct H0 as [-> _]. apply kept_refl.
  - (* OClear *) pose proof (clear_spec E U AM _ _ _ _ I Ty F Hr) as H0. destruct res as [[]|e|u]; [| |contradiction].
    + destruct H0 as (_ & (l & W) & _). eapply kept_wiped; eauto. intros ->; apply Hn; cbn; auto.
    + destruct H0 as [-> _]. apply kept_refl.
  - (* OSeal *) cbn in Hr. unfold seal, mod_obj in Hr. cbn in F. destruct (s_obj s o) as [x|] eqn:Hx; [|congruence]. rewrite (bnd_ok _ _ _ _ _ (get_obj_step s o x Hx)) in Hr. injection Hr as <- <-.
    assert (o' <> o) by (intros ->; apply Hn; now left). apply kept_like; auto; [cbn; now rewrite upd_other|]. apply (seal_like E s o x true Hx).
  - (* OPiecewise *) assert (o' <> o) by (intros ->; apply Hn; now left). cbn in F. destruct F as ((x & Ho & _) & Hb & Hne & Hf).
    destruct (act_pieces E U AM s o x r ps unw I Ty Ho Hb Hne Hf) as (s1 & res1 & t & H1 & H2 & H3 & H4 & I' & Ty'). cbn [op_run] in Hr. rewrite Hr in H1. injection H1 as <- <-.
    pose proof (ov_spec E U AM s o x r t _ _ (fun m k => exists i, nth_error (t_mixins t) i = Some m /\ steps_ov t ps 0 i = Some k) (fun m k => exists i, nth_error (t_mixins t) i = Some m /\ steps_ov t ps 0 i = Some k) unw s' res _ I Ty I' Ty' H4) as Hx.
    assert (Hov : forall i m k, nth_error (t_mixins t) i = Some m -> (steps_ov t ps 0 i = Some k <-> exists j, nth_error (t_mixins t) j = Some m /\ steps_ov t ps 0 j = Some k)).
    { intros i m k Hi. split; [eauto|]. intros (j & Hj & Hk). assert (Hnd : NoDup (t_mixins t)). { inversion H4; subst; match goal with H : setup _ _ _ _ _ _ _ _ _ _ _ |- _ => apply (tg_nodup _ _ _ (su_good _ _ _ _ _ _ _ _ _ _ _ H)) end. }
      assert (j = i); [|congruence]. apply (proj1 (NoDup_nth_error (t_mixins t)) Hnd); [eapply nth_error_lt; eauto|congruence]. }
    specialize (Hx Hov Hov). destruct res as [[]|e|u]; [| |contradiction].
    + destruct Hx as [_ Hx]. destruct unw; destruct Hx as (l & M); [eapply kept_failed|eapply kept_mutated]; eauto.
    + destruct Hx as (l & M). eapply kept_failed; eauto.
  - (* ODom *) destruct (dom_step E U s op s' res I Ty F Hr) as (A & B & C & D). apply kept_unchanged; auto. split; [intros; now rewrite A|]. intros b. apply same_block_eq. now rewrite B.
  - (* OUse *) destruct (use_spec E U s o i k s' res I Ty F Hr) as [(_ & -> & _)|(m & p & v & v' & e & H1 & _ & H2 & _)]; [apply kept_refl|].
    apply (kept_shared s s' o o false); auto; [eapply mixin_only; eauto|intros ->; apply Hn; now left|discriminate].
Qed.
End OT9.
