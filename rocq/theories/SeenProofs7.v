(** What functions of mixins see: destruction goes backwards *)
From Coq Require Import List Arith ZArith NArith Lia Bool.
From Verif Require Import Base Sv BaseLemmas Info MixinInfo TypeMut TypeBuild TypeQuery Domain TypesProofs ElemProofs WorldProofs Heap HeapProofs RollProofs Mutation Object SpecDom SpecObj SpecLog PartProofs ObjProofs ActProofs ActProofs2 MatchProofs ActProofs3 FinProofs LogProofs PlaceProofs ObjTheorems ObjTheorems2 MutProofs MutProofs2 SpecSeen.
Import ListNotations.

Section Down.
Variable E : env.
Hypothesis AM : SpecLayout.aligned_mixins E.
Variables (s : st) (o : nat) (x : obj) (b : nat) (r : tref) (t : type_rec).
Hypothesis I : Inv E s.
Hypothesis Ty : typed s.
Hypothesis Ho : s_obj s o = Some x.
Hypothesis Hb : o_data x = Some b.
Hypothesis Hq : o_type x = Some r.
Hypothesis Ht : w_type (s_w s) r = Some t.

Definition dgood (ek : ev * snap) : Prop :=
  match fst ek with
  | EvCall f m p src err => f = FDestroy /\ src = None /\ exists i v, holds s o i m p v /\
      forall j m' q v', holds s o j m' q v' -> (j <= i -> holds (at_time (snd ek)) o j m' q v') /\ (i < j -> m_destroy (e_mixin E m') = true -> instance (at_time (snd ek)) q = None)
  | _ => True
  end.
Definition seend (s1 s2 : st) : Prop := exists l, s_seen s2 = s_seen s1 ++ l /\ Forall dgood l.
Lemma seend_refl s1 : seend s1 s1. Proof. exists []. rewrite app_nil_r. auto. Qed.
Lemma seend_trans s1 s2 s3 : seend s1 s2 -> seend s2 s3 -> seend s1 s3.
Proof. intros (l & A & B) (l' & C & D). exists (l ++ l'). rewrite C, A, app_assoc. split; auto. apply Forall_app; auto. Qed.
Lemma seend_eq s1 s2 : s_seen s2 = s_seen s1 -> seend s1 s2.
Proof. intros H. exists []. rewrite app_nil_r. auto. Qed.

Record R (n : nat) (s1 : st) : Prop := {
  r_obj : s_obj s1 = s_obj s;
  r_w : s_w s1 = s_w s;
  r_dat : forall c i, bdat (s_blk s1) c i = bdat (s_blk s) c i;
  r_low : forall j m q v, holds s o j m q v -> j < n -> binst (s_blk s1) q = Some {| i_mixin := m; i_val := v |};
  r_high : forall j m q v, holds s o j m q v -> n <= j -> m_destroy (e_mixin E m) = true -> binst (s_blk s1) q = None
}.
Lemma r_step n s1 m : R (S n) s1 -> nth_error (t_mixins t) n = Some m -> m_destroy (e_mixin E m) = false -> R n s1.
Proof.
  intros [A B C D F] Hm Hd. constructor; auto; [intros j m' q v Hh Hj; eapply D; eauto|]. intros j m' q v Hh Hj Hd'. destruct (Nat.eq_dec j n) as [->|]; [|eapply F; eauto; lia].
  exfalso. destruct Hh as ((r' & t' & (x' & X1 & X2 & X3) & X4) & _). assert (x' = x) as -> by congruence. assert (r' = r) as -> by congruence. assert (t' = t) as -> by congruence. congruence.
Qed.

Lemma down_seen mu n : mu_odata mu = None -> mu_ty mu = t -> mu_tdata mu = Some b -> n <= length (t_mixins t) ->
  forall s1 p' res, R n s1 -> down_loop (destroy_one E) n (mu, s1) = (p', res) -> ~ is_ub res -> fst p' = mu /\ R 0 (snd p') /\ seend s1 (snd p').
Proof.
  intros M1 M2 M3. induction n as [|n IH]; intros Hn s1 p' res HR Hrun Hu; cbn [down_loop] in Hrun.
  - injection Hrun as <- <-. split; auto. split; auto. apply seend_refl.
  - assert (exists m, nth_error (t_mixins t) n = Some m) as (m & Hm) by (destruct (nth_error (t_mixins t) n) eqn:H; eauto; apply nth_error_None in H; lia).
    assert (exists s2, destroy_one E n (mu, s1) = ((mu, s2), Ok tt) /\ R n s2 /\ seend s1 s2) as (s2 & H1 & H2 & H3).
    { assert (HM : has_mixin s o n m) by (exists r, t; split; auto; exists x; auto).
      destruct (mixin_whole E s o n m I Ty HM) as (x' & b' & r' & t' & dd & W & Hm'). pose proof W as (W1 & W2 & W3 & W4 & _ & W5). assert (x' = x) as -> by congruence. assert (b' = b) as -> by congruence. assert (r' = r) as -> by congruence. assert (t' = t) as -> by congruence.
      pose proof (whole_get E s o x b r t dd n m W Hm) as Hg. destruct (pa_con _ _ _ _ _ _ _ _ _ _ W5 n) as (m1 & off & v & Q1 & _ & _ & Q4); [unfold full; apply Nat.ltb_lt; lia|]. assert (m1 = m) as -> by (destruct Q1; congruence).
      assert (Hh : holds s o n m (md_mixin (dd n)) v) by (split; [exact HM|split; [exact Hg|exact Q4]]).
      pose proof (pa_data _ _ _ _ _ _ _ _ _ _ W5 n) as Hd. assert (full t n = true) as Hf by (unfold full; apply Nat.ltb_lt; lia). rewrite Hf in Hd.
      unfold destroy_one. unfold bnd at 1. cbn [get_mu fst]. unfold target_mixin. rewrite M2, Hm. unfold bnd at 1. cbn [ret]. unfold bnd at 1. cbn [get_mid]. unfold old_slot. rewrite M1.
      destruct (m_destroy (e_mixin E m)) eqn:Hdes; [|exists s1; split; [reflexivity|split; [eapply r_step; eauto|apply seend_refl]]].
      unfold target_data. rewrite M3. unfold bnd at 1. cbn [ret]. unfold bnd at 1. unfold lift at 1. cbn [snd fst].
      assert (Hr : read_data b n s1 = (s1, Ok (dd n))).
      { rewrite <- (r_dat _ _ HR b n) in Hd. unfold bdat in Hd. unfold read_data, bnd, get_blk. destruct (s_blk s1 b); [|discriminate]. now rewrite Hd. }
      rewrite Hr. unfold lift. cbn [snd fst]. pose proof (r_low _ _ HR n m _ v Hh ltac:(lia)) as Hi. rewrite (destroy_step E s1 m (md_mixin (dd n)) _ Hi eq_refl Hdes).
      eexists. split; [reflexivity|]. set (pp := md_mixin (dd n)) in *. assert (Hb1 : has_blk (add_log s1 (EvCall FDestroy m pp None 0)) (fst pp)) by exact (binst_has _ _ _ Hi). destruct (st_del_views _ pp Hb1) as (V1 & V2 & V3 & V4). cbv zeta in *. split.
      - constructor.
        + transitivity (s_obj s1); [|apply (r_obj _ _ HR)]. unfold st_del, in_blk. now destruct (s_blk (add_log s1 (EvCall FDestroy m pp None 0)) (fst pp)).
        + transitivity (s_w s1); [|apply (r_w _ _ HR)]. unfold st_del, in_blk. now destruct (s_blk (add_log s1 (EvCall FDestroy m pp None 0)) (fst pp)).
        + intros c i. rewrite V2. apply (r_dat _ _ HR).
        + intros j m' q v' Hj Hlt. rewrite V4. destruct (addr_eqb_spec q pp) as [->|_]; [|apply (r_low _ _ HR j); auto; lia]. exfalso. destruct (one_owner E AM s o n m pp v o j m' v' I Ty Hh Hj) as (_ & -> & _). lia.
        + intros j m' q v' Hj Hge Hd'. rewrite V4. destruct (addr_eqb_spec q pp) as [->|Hne]; auto. destruct (Nat.eq_dec j n) as [->|Hjn]; [|eapply (r_high _ _ HR); eauto; lia]. exfalso. apply Hne.
          destruct Hj as (_ & Z & _). destruct Hh as (_ & Z' & _). congruence.
      - eexists [_]. split; [unfold st_del, in_blk; destruct (s_blk (add_log s1 (EvCall FDestroy m pp None 0)) (fst pp)); reflexivity|]. constructor; [|constructor]. unfold dgood. cbn [fst snd]. split; auto. split; auto. exists n, v. split; auto.
        intros j m' q v' Hj. split.
        + intros Hle. pose proof Hj as Hj'. apply holds_iff in Hj'. destruct Hj' as (y & c & d & Y1 & Y2 & (rr & tt' & (y' & Z1 & Z2 & Z3) & Z4) & Y4 & Y5 & Y6). apply holds_iff. exists y, c, d.
          split; [exact (eq_trans (f_equal (fun g => g o) (r_obj _ _ HR)) Y1)|]. split; auto. split; [exists rr, tt'; split; auto; exists y'; split; [exact (eq_trans (f_equal (fun g => g o) (r_obj _ _ HR)) Z1)|split; [auto|exact (eq_trans (f_equal (fun g => w_type g rr) (r_w _ _ HR)) Z3)]]|]. split; [exact (eq_trans (r_dat _ _ HR c j) Y4)|]. split; auto.
          exact (r_low _ _ HR j m' q v' Hj ltac:(lia)).
        + intros Hlt Hd'. exact (r_high _ _ HR j m' q v' Hj ltac:(lia) Hd'). }
    unfold bnd in Hrun. rewrite H1 in Hrun. destruct (IH ltac:(lia) _ _ _ H2 Hrun Hu) as (A1 & A2 & A3). split; auto. split; auto. eapply seend_trans; eauto.
Qed.
End Down.

(** Functions during which no function of a mixin is called *)
Definition is_call (e : ev) : Prop := match e with EvCall _ _ _ _ _ => True | _ => False end.
Definition quiet (s s' : st) : Prop := exists l, s_seen s' = s_seen s ++ l /\ Forall (fun ek => ~ is_call (fst ek)) l.
Definition qt {A} (x : M st A) : Prop := forall s s' r, x s = (s', r) -> quiet s s'.
Definition qm {A} (x : M mst A) : Prop := forall p p' r, x p = (p', r) -> quiet (snd p) (snd p').
Lemma quiet_refl s : quiet s s. Proof. exists []. rewrite app_nil_r. auto. Qed.
Lemma quiet_eq s s' : s_seen s' = s_seen s -> quiet s s'. Proof. intros H. exists []. rewrite app_nil_r. auto. Qed.
Lemma quiet_trans s s1 s2 : quiet s s1 -> quiet s1 s2 -> quiet s s2.
Proof. intros (l & A & B) (l' & C & D). exists (l ++ l'). rewrite C, A, app_assoc. split; auto. apply Forall_app; auto. Qed.
Lemma qt_bnd A B (x : M st A) (f : A -> M st B) : qt x -> (forall a, qt (f a)) -> qt (bnd x f).
Proof.
  intros Hx Hf s s' r. unfold bnd. destruct (x s) as [s1 [a|e|u]] eqn:Hs; intros Hr; pose proof (Hx _ _ _ Hs) as H1; [eapply quiet_trans; [exact H1|exact (Hf a _ _ _ Hr)]|injection Hr as <- <-; auto|injection Hr as <- <-; auto].
Qed.
Lemma qm_bnd A B (x : M mst A) (f : A -> M mst B) : qm x -> (forall a, qm (f a)) -> qm (bnd x f).
Proof.
  intros Hx Hf s s' r. unfold bnd. destruct (x s) as [s1 [a|e|u]] eqn:Hs; intros Hr; pose proof (Hx _ _ _ Hs) as H1; [eapply quiet_trans; [exact H1|exact (Hf a _ _ _ Hr)]|injection Hr as <- <-; auto|injection Hr as <- <-; auto].
Qed.
Lemma qt_const A (f : st -> res A) : qt (fun s => (s, f s)). Proof. intros s s' r [= <- <-]. apply quiet_refl. Qed.
Lemma qm_const A (f : mst -> res A) : qm (fun s => (s, f s)). Proof. intros s s' r [= <- <-]. apply quiet_refl. Qed.
Lemma qt_ret A (a : A) : qt (ret a). Proof. apply (qt_const _ (fun _ => Ok a)). Qed.
Lemma qt_ub A u : qt (ub u : M st A). Proof. apply (qt_const _ (fun _ => Ub u)). Qed.
Lemma qm_ret A (a : A) : qm (ret a). Proof. apply (qm_const _ (fun _ => Ok a)). Qed.
Lemma qm_ub A u : qm (ub u : M mst A). Proof. apply (qm_const _ (fun _ => Ub u)). Qed.
Lemma qm_lift A (x : M st A) : qt x -> qm (lift x).
Proof. intros H p p' r. unfold lift. destruct (x (snd p)) as [s1 r1] eqn:Hs. intros [= <- <-]. cbn. eapply H; eauto. Qed.
Lemma qm_get : qm get_mu. Proof. intros p p' r [= <- <-]. apply quiet_refl. Qed.
Lemma qm_set f : qm (set_mu f). Proof. intros p p' r [= <- <-]. apply quiet_refl. Qed.
Lemma qm_mid : qm get_mid. Proof. intros p p' r [= <- <-]. apply quiet_refl. Qed.
Lemma qt_obj c : qt (get_obj c). Proof. unfold get_obj. intros s s' r. destruct (s_obj s c); intros [= <- <-]; apply quiet_refl. Qed.
Lemma qt_ty c : qt (get_ty c). Proof. unfold get_ty. intros s s' r. destruct (w_type (s_w s) c); intros [= <- <-]; apply quiet_refl. Qed.
Lemma qt_blk c : qt (get_blk c). Proof. unfold get_blk. intros s s' r. destruct (s_blk s c); intros [= <- <-]; apply quiet_refl. Qed.
Lemma qt_put c x : qt (put_obj c x). Proof. intros s s' r [= <- <-]. now apply quiet_eq. Qed.
Lemma qt_putb c x : qt (put_blk c x). Proof. intros s s' r [= <- <-]. now apply quiet_eq. Qed.
Lemma qt_world A (f : world -> world * res A) : qt (on_world f).
Proof. intros s s' r. unfold on_world. intros [= <- <-]. now apply quiet_eq. Qed.
#[global] Hint Resolve qt_ret qt_ub qt_const qm_ret qm_ub qm_get qm_set qm_mid qt_obj qt_ty qt_blk qt_put qt_putb qt_world : qt.
Ltac qstep := first [solve [auto with qt] | apply qt_bnd; [|intros] | apply qm_bnd; [|intros] | apply qm_lift |
  match goal with |- qt (match ?x with _ => _ end) => destruct x | |- qm (match ?x with _ => _ end) => destruct x end].
Ltac qgo := repeat qstep.
Lemma qt_read b i : qt (read_data b i). Proof. unfold read_data. qgo. Qed.
Lemma qt_set q c : qt (set_object q c). Proof. unfold set_object. qgo. Qed.
Lemma qt_free E a b n k : qt (free E a b n k).
Proof. unfold free. qgo. intros s s' r [= <- <-]. eexists [_]. split; [reflexivity|]. constructor; auto. Qed.
#[global] Hint Resolve qt_read qt_set qt_free : qt.
Lemma qt_fext E x m b : qt (free_external E x m b). Proof. unfold free_external. qgo. Qed.
Lemma qt_dbuf E r t a b : qt (deallocate_object_buffer E r t a b). Proof. unfold deallocate_object_buffer. qgo. Qed.
Lemma qm_tmix mu ti : qm (target_mixin mu ti). Proof. unfold target_mixin. qgo. Qed.
Lemma qm_tdat mu : qm (target_data mu). Proof. unfold target_data. qgo. Qed.
#[global] Hint Resolve qt_fext qt_dbuf qm_tmix qm_tdat : qt.
Lemma qm_dealloc_one E ti : qm (dealloc_one E ti). Proof. unfold dealloc_one. qgo. Qed.
Lemma qm_down f n : (forall i, qm (f i)) -> qm (down_loop f n). Proof. intros H. induction n; cbn; qgo; auto. Qed.
#[global] Hint Resolve qm_dealloc_one qm_down : qt.
Lemma qm_deallocate E : qm (deallocate_mixin_data E). Proof. unfold deallocate_mixin_data. qgo. Qed.
Lemma qt_the_type x : qt (the_type x). Proof. unfold the_type. qgo. Qed.
Lemma qt_mod o f : qt (mod_obj o f). Proof. unfold mod_obj. qgo. Qed.
#[global] Hint Resolve qm_deallocate qt_the_type qt_mod : qt.
Lemma qt_redirect b o l : qt (redirect_loop b o l). Proof. induction l; cbn; qgo. Qed.
#[global] Hint Resolve qt_redirect : qt.
Lemma qt_usurp o c : qt (usurp o c). Proof. unfold usurp. qgo. Qed.

Section Ops.
Variable E : env.
Variable U : user.
Hypothesis AM : SpecLayout.aligned_mixins E.

Lemma quiet_seend s o s1 s2 : quiet s1 s2 -> seend E s o s1 s2.
Proof. intros (l & A & B). exists l. split; auto. eapply Forall_impl; [|exact B]. intros [e k] H. unfold dgood. cbn [fst] in *. destruct e; auto. destruct H. exact Logic.I. Qed.

Lemma clear_data_seen s o s' r : Inv E s -> typed s -> clear_mixin_data E o s = (s', r) -> ~ is_ub r -> seend E s o s s'.
Proof.
  intros I Ty Hr Hu. unfold clear_mixin_data in Hr. unfold bnd at 1 in Hr. unfold get_obj in Hr. destruct (s_obj s o) as [x|] eqn:Ho; [|injection Hr as <- <-; apply seend_refl].
  destruct (o_data x) as [b|] eqn:Hb; [|injection Hr as <- <-; apply seend_refl]. pose proof (iv_obj E s I o x Ho) as Hk. unfold obj_ok in Hk. rewrite Hb in Hk. destruct Hk as (q & t & dd & Hq & Ht & _ & P).
  unfold the_type in Hr. rewrite Hq in Hr. unfold bnd in Hr. unfold get_ty in Hr. rewrite Ht in Hr. cbn [ret fst snd] in Hr. unfold run_mut in Hr.
  destruct (rollback E (inverse_mut o x q t, s)) as [[mu1 s1] r1] eqn:Hroll.
  assert (Hs1 : ~ is_ub r1 -> seend E s o s s1).
  { intros Hu1. unfold rollback in Hroll. unfold bnd at 1 in Hroll. cbn [set_mu fst snd] in Hroll. unfold bnd at 1 in Hroll. cbn [get_mu fst] in Hroll. unfold same_type in Hroll. cbn [inverse_mut with_uu mu_old negb] in Hroll.
    set (mu := with_uu (inverse_mut o x q t) (mu_uu (inverse_mut o x q t)) false) in *. fold mu in Hroll.
    unfold bnd in Hroll at 1. unfold bnd in Hroll at 1. unfold destroy_new_mixins in Hroll. unfold bnd in Hroll at 1. cbn [get_mu fst] in Hroll. unfold bnd in Hroll at 1.
    destruct (down_loop (destroy_one E) (mu_uu mu) (mu, s)) as [p2 r2] eqn:Hd.
    assert (F3 : ~ is_ub r2 -> seend E s o s (snd p2)).
    { intros Hu2. refine (proj2 (proj2 (down_seen E AM s o x b q t I Ty Ho Hb Hq Ht mu (mu_uu mu) eq_refl eq_refl Hb _ s p2 r2 _ Hd Hu2))); [unfold mu; cbn; unfold num_mixins; lia|].
      constructor; auto; [intros j m p v (_ & _ & H) _; exact H|]. intros j m p v ((r' & t' & (x' & X1 & X2 & X3) & X4) & _) Hge. exfalso. assert (x' = x) as -> by congruence. assert (r' = q) as -> by congruence. assert (t' = t) as -> by congruence.
      apply nth_error_lt in X4. unfold mu in Hge. cbn in Hge. unfold num_mixins in Hge. lia. }
    destruct r2 as [[]|e|u].
    - specialize (F3 ltac:(auto)). cbn [set_mu fst snd] in Hroll. destruct (deallocate_mixin_data E _) as [p3 r3] eqn:Hde in Hroll. pose proof (qm_deallocate E _ _ _ Hde) as Q. cbn [snd] in Q.
      assert (Hs : snd (mu1, s1) = snd p3) by (destruct r3; cbn in Hroll; apply (f_equal (fun z => snd (fst z))) in Hroll; cbn in Hroll; symmetry; exact Hroll). cbn [snd] in Hs. rewrite Hs.
      eapply seend_trans; [exact F3|apply quiet_seend; exact Q].
    - injection Hroll as H1 H2. rewrite H1 in F3. apply F3. auto.
    - injection Hroll as H1 H2. rewrite <- H2 in Hu1. destruct Hu1. exact Logic.I. }
  destruct r1 as [[]|e|u].
  - cbn in Hr. eapply seend_trans; [apply Hs1; auto|]. apply quiet_seend. exact (qt_mod _ _ _ _ _ Hr).
  - injection Hr as <- <-. apply Hs1. auto.
  - injection Hr as <- <-. destruct Hu. exact Logic.I.
Qed.

(** the operations whose only calls are those of clear_mixin_data *)
Definition ending (op : oop) (o : nat) : Prop := op = ODtor o \/ op = OClear o \/ exists src, op = OMoveAssign o src.
Lemma clear_then s o (f : unit -> M st unit) s' r : Inv E s -> typed s -> (forall a : unit, qt (f a)) -> bnd (clear_mixin_data E o) f s = (s', r) -> ~ is_ub r -> seend E s o s s'.
Proof.
  intros I Ty Hf Hr Hu. unfold bnd in Hr. destruct (clear_mixin_data E o s) as [s1 r1] eqn:Hc. assert (H : ~ is_ub r1 -> seend E s o s s1) by (intros; eapply clear_data_seen; eauto). destruct r1 as [[]|e|u].
  - eapply seend_trans; [apply H; auto|]. apply quiet_seend. exact (Hf _ _ _ _ Hr).
  - injection Hr as <- <-. apply H. auto.
  - injection Hr as <- <-. destruct Hu. exact Logic.I.
Qed.
Lemma qt_raise A e : qt (raise e : M st A). Proof. apply (qt_const _ (fun _ => Throw e)). Qed.
Hint Resolve qt_raise qt_usurp : qt.
Lemma ending_seen s op o s' r : Inv E s -> typed s -> ending op o -> op_run E U op s = (s', r) -> ~ is_ub r -> seend E s o s s'.
Proof.
  intros I Ty [->|[->|(src & ->)]] Hr Hu; cbn [op_run] in Hr.
  - apply (clear_then s o (fun _ => put_obj o None) s' r); auto with qt.
  - unfold clear in Hr. unfold bnd at 1 in Hr. unfold get_obj in Hr. destruct (s_obj s o) as [x|] eqn:Ho; [|injection Hr as <- <-; apply seend_refl].
    unfold the_type in Hr. destruct (o_type x) as [q|]; [|injection Hr as <- <-; apply seend_refl]. unfold bnd at 1 in Hr. unfold bnd at 1 in Hr. unfold get_ty in Hr. destruct (w_type (s_w s) q) as [t|]; [|injection Hr as <- <-; apply seend_refl].
    cbn [ret fst snd] in Hr. destruct (o_sealed x); [injection Hr as <- <-; apply seend_refl|]. apply (clear_then s o (fun _ => mod_obj o (fun x => with_otype x (Some (TEmpty (t_dom t))))) s' r); auto with qt.
  - unfold move_assign in Hr. unfold bnd at 1 in Hr. unfold get_obj in Hr at 1. destruct (s_obj s o) as [x|] eqn:Ho; [|injection Hr as <- <-; apply seend_refl].
    unfold bnd at 1 in Hr. unfold get_obj in Hr at 1. destruct (s_obj s src) as [y|] eqn:Hy; [|injection Hr as <- <-; apply seend_refl].
    destruct (o =? src); [injection Hr as <- <-; apply seend_refl|]. destruct (o_alloc x =? o_alloc y); [|apply quiet_seend; refine ((_ : qt (bnd (the_type x) (fun _ => raise EMismatchedAllocators))) _ _ _ Hr); qgo].
    destruct (o_sealed x); [apply quiet_seend; refine ((_ : qt (bnd (the_type x) (fun _ => raise ESealed))) _ _ _ Hr); qgo|]. apply (clear_then s o (fun _ => usurp o src) s' r); auto with qt.
Qed.
Lemma ending_call s op o s' r m p src err k f : Inv E s -> typed s -> ending op o -> op_run E U op s = (s', r) -> ~ is_ub r -> during s s' (EvCall f m p src err) k ->
  f = FDestroy /\ exists i v, holds s o i m p v /\
    forall j m' q v', holds s o j m' q v' -> (j <= i -> holds (at_time k) o j m' q v') /\ (i < j -> m_destroy (e_mixin E m') = true -> instance (at_time k) q = None).
Proof.
  intros I Ty He Hr Hu (l1 & l2 & H3). destruct (ending_seen s op o s' r I Ty He Hr Hu) as (l & H1 & H2). rewrite H3 in H1. apply app_inv_head in H1. rewrite <- H1 in H2. apply Forall_app in H2. destruct H2 as [_ H2]. inversion H2 as [|? ? H4 _]. destruct H4 as (A & _ & B). auto.
Qed.
End Ops.
