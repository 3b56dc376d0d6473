(** Consequences: copies, traits, empty targets, piecewise mutations *)
From Coq Require Import List Arith ZArith NArith Lia Bool.
From Verif Require Import Base Sv SvProofs BaseLemmas Info TypeBuild TypeQuery Domain ElemProofs TypesProofs SpecReg SpecDom HistProofs DomTheorems SpecLayout Heap HeapProofs Mutation Object SpecObj SpecMut SpecAct
  PartProofs RollProofs AllocProofs UpdProofs FinProofs PerfProofs WorldProofs ObjProofs OpProofs PlanProofs ActProofs ActProofs2 MatchProofs ActProofs3 MutProofs MutProofs2 MutTheorems HonestProofs StableProofs ObjTheorems ObjTheorems2 ObjTheorems3 ObjTheorems4 ObjTheorems6.
Import ListNotations.

Section OT7.
Variable E : env.
Variable U : user.
Hypothesis AM : aligned_mixins E.
Notation Inv := (Inv E).

Lemma next_inv s op s' r : Inv s -> typed s -> fair E s op -> op_run E U op s = (s', r) -> Inv s' /\ typed s'.
Proof. intros I Ty F H. destruct (act_any E U AM s op I Ty F) as (s1 & r1 & H1 & _ & I1 & T1). rewrite H1 in H. injection H as <- <-. auto. Qed.

(** ** Copies *)
Lemma created_other s s' o a sl r mk l o' i m p v : Inv s -> typed s -> created E s s' o a sl r mk l -> o' <> o -> s_obj s o' <> None -> (holds s' o' i m p v <-> holds s o' i m p v).
Proof.
  intros I Ty C Hne Ho. apply (like_holds E AM); auto. apply same_like; [apply (cr_objects _ _ _ _ _ _ _ _ _ C); auto|intros q t; apply (cr_types _ _ _ _ _ _ _ _ _ C); auto|].
  intros b Hb. apply (cr_frame _ _ _ _ _ _ _ _ _ C). eapply owns_alive; eauto.
Qed.
Lemma same_mixins s' o o' r t : type_of s' o r t -> otype s' o' = Some r -> forall i m, has_mixin s' o' i m <-> has_mixin s' o i m.
Proof.
  intros T Ho i m. pose proof T as (x & A & B & C). unfold otype in Ho. destruct (s_obj s' o') as [y|] eqn:Hy; [|discriminate]. assert (T' : type_of s' o' r t) by (exists y; auto).
  split; intros (r' & t' & T1 & H); [destruct (type_of_fun s' o' r t r' t' T' T1) as [-> ->]|destruct (type_of_fun s' o r t r' t' T T1) as [-> ->]]; exists r, t; auto.
Qed.
Lemma copied_values s s' o src a l : Inv s -> typed s -> Inv s' -> typed s' -> s_obj s o = None -> s_obj s src <> None -> created E s s' o a false (otype s src) (copies_made E s src) l ->
  otype s' o = otype s src /\
  (forall i m q v, holds s src i m q v -> exists p, holds s' o i m p v /\ allocation s (fst p) = None /\ calls m l = [EvCall FCopyInit m p (Some q) 0%Z]) /\
  (forall i m p v, holds s' o i m p v -> exists q, holds s src i m q v).
Proof.
  intros I Ty I' Ty' Ho Hs C. destruct (cr_obj _ _ _ _ _ _ _ _ _ C) as (x & Hx & Hxt & _). assert (Hot : otype s' o = otype s src) by (unfold otype at 1; now rewrite Hx). split; auto.
  assert (Hnew : forall i m, has_mixin s' o i m -> exists p q v, holds s' o i m p v /\ holds s src i m q v /\ allocation s (fst p) = None /\ calls m l = [EvCall FCopyInit m p (Some q) 0%Z]).
  { intros i m Hi. destruct (cr_new _ _ _ _ _ _ _ _ _ C i m Hi) as (p & v & f & sr & A1 & A2 & (-> & A3 & q & w & -> & A4) & A5 & A6). exists p, q, v. assert (w = v) as -> by (specialize (A5 q eq_refl); destruct A4 as (_ & _ & A4); congruence). auto. }
  assert (Hne : src <> o) by congruence.
  split.
  - intros i m q v H. pose proof H as ((r & t & T & Hm) & _). destruct (cr_types _ _ _ _ _ _ _ _ _ C src r t Hne T) as (n & T').
    assert (Hr : otype s' o = Some r) by (rewrite Hot; destruct T as (y & A & B & _); unfold otype; now rewrite A).
    assert (Hi : has_mixin s' o i m) by (apply (same_mixins s' src o r _ T' Hr); exists r, (set_nobj t n); auto). destruct (Hnew i m Hi) as (p & q' & v' & A1 & A2 & A3 & A4). destruct (holds_fun s src i m q v q' v' H A2) as [-> ->]. eauto.
  - intros i m p v H. destruct (Hnew i m (proj1 H)) as (p' & q & v' & A1 & A2 & _). destruct (holds_fun s' o i m p' v' p v A1 H) as [-> ->]. eauto.
Qed.
Lemma copy_ok s o src a s' : Inv s -> typed s -> fair E s (OCopy false o src a) -> op_run E U (OCopy false o src a) s = (s', Ok tt) ->
  otype s' o = otype s src /\ (exists l, did s s' l /\
    (forall i m q v, holds s src i m q v -> exists p, holds s' o i m p v /\ allocation s (fst p) = None /\ calls m l = [EvCall FCopyInit m p (Some q) 0%Z]) /\
    (forall m, ~ has_some s src m -> calls m l = [])) /\
  (forall i m p v, holds s' o i m p v -> exists q, holds s src i m q v) /\
  (forall o', o' <> o -> s_obj s' o' = s_obj s o' /\ forall i m p v, holds s' o' i m p v <-> holds s o' i m p v) /\
  (with_type_set s src -> can_equal E s src -> user_equalities E U -> equals E U s' o src = Ok true).
Proof.
  intros I Ty F Hr. pose proof F as (Ho & Hs). destruct (next_inv _ _ _ _ I Ty F Hr) as [I' Ty']. pose proof (copy_spec E U AM s o src a false s' (Ok tt) I Ty F Hr) as [(l & C)|[[=] _]].
  destruct (copied_values s s' o src a l I Ty I' Ty' Ho Hs C) as (A & B & D). split; auto.
  assert (Hoth : forall o', o' <> o -> s_obj s' o' = s_obj s o' /\ forall i m p v, holds s' o' i m p v <-> holds s o' i m p v).
  { intros o' Hne. split; [apply (cr_objects _ _ _ _ _ _ _ _ _ C); auto|]. intros i m p v. destruct (s_obj s o') as [z|] eqn:Hz; [eapply created_other; eauto; congruence|].
    assert (Hz' : s_obj s' o' = None) by (rewrite (cr_objects _ _ _ _ _ _ _ _ _ C o' Hne); auto). split; intros ((r & t & (y & Hy & _) & _) & _); congruence. }
  split; [|split; [|split]]; auto.
  - exists l. split; [apply (cr_did _ _ _ _ _ _ _ _ _ C)|]. split; auto. intros m Hn. apply (cr_quiet _ _ _ _ _ _ _ _ _ C). intros (i & Hi). destruct (mixin_holds E s' o i m I' Ty' Hi) as (p & v & H). destruct (D i m p v H) as (q & Hq). apply Hn. eapply holds_mixin; eauto.
  - intros Hts Hcan UE. assert (Hne : src <> o) by congruence. destruct (Hoth src Hne) as [Hso Hsh].
    assert (Hts' : with_type_set s' src) by (destruct Hts as (y & Hy & Hyt); exists y; rewrite Hso; auto).
    assert (Hto : with_type_set s' o). { destruct Hts as (y & Hy & Hyt). unfold otype in A. rewrite Hy in A. destruct (s_obj s' o) as [x|] eqn:Hx; [|congruence]. exists x. split; congruence. }
    assert (Hca : can_equal E s' o). { intros m (i & Hi). destruct (mixin_holds E s' o i m I' Ty' Hi) as (p & v & H). destruct (D i m p v H) as (q & Hq). apply Hcan. eapply holds_mixin; eauto. }
    apply (equals_laws E U s' o src o I' Ty' Hto Hts' Hto Hca UE).
    + rewrite A. unfold otype. now rewrite Hso.
    + intros i m p v q w H1 H2. destruct (D i m p v H1) as (q' & Hq). apply Hsh in H2. destruct (holds_fun s src i m q' v q w Hq H2); congruence.
Qed.
Lemma copy_throw s o src a unw s' e : Inv s -> typed s -> fair E s (OCopy unw o src a) -> op_run E U (OCopy unw o src a) s = (s', Throw e) ->
  unchanged s s' /\ types_kept s s' /\ (forall o' i m p v, holds s' o' i m p v <-> holds s o' i m p v).
Proof. intros I Ty F Hr. destruct (copy_spec E U AM s o src a unw s' (Throw e) I Ty F Hr) as (A & B & _). split; auto. split; auto. intros. now apply (unchanged_holds E AM). Qed.

(** copy_from *)
Lemma from_ok s o src s' : Inv s -> typed s -> fair E s (OCopyFrom false o src) -> op_run E U (OCopyFrom false o src) s = (s', Ok tt) ->
  ~ sealed s o /\ otype s' o = otype s src /\ (forall o', o' <> o -> s_obj s' o' = s_obj s o' /\ forall i m p v, holds s' o' i m p v <-> holds s o' i m p v) /\
  (forall i m q v, holds s src i m q v -> exists p, holds s' o i m p v) /\ (forall i m p v, holds s' o i m p v -> exists q, holds s src i m q v) /\
  (is_nonempty s src -> exists r l, otype s src = Some r /\ mutated E s s' o r (copies_made E s src) (copies_assigned E s src) l) /\
  (~ is_nonempty s src -> exists l, wiped E s s' o l).
Proof.
  intros I Ty F Hr. pose proof F as ((xo & Hxo & Hxt) & Hs & Hsd). destruct (next_inv _ _ _ _ I Ty F Hr) as [I' Ty']. destruct (from_spec E U AM s o src false s' (Ok tt) I Ty F Hr) as [Hse [(Hne & r & l & Hot & M)|[(Hne & (l & W) & x & y & Hx & Hy & Hx')|([=] & _)]]]; split; auto.
  - destruct (mt_type _ _ _ _ _ _ _ _ M) as (t' & T'). assert (Hot' : otype s' o = Some r) by (destruct T' as (z & A & B & _); unfold otype; now rewrite A). split; [congruence|].
    assert (Hoth : forall o', o' <> o -> s_obj s' o' = s_obj s o' /\ forall i m p v, holds s' o' i m p v <-> holds s o' i m p v).
    { intros o' Hn. split; [apply (mt_objects _ _ _ _ _ _ _ _ M); auto|]. intros i m p v. destruct (s_obj s o') as [z|] eqn:Hz; [eapply (mutated_other E AM); eauto; congruence|].
      assert (Hz' : s_obj s' o' = None) by (rewrite (mt_objects _ _ _ _ _ _ _ _ M o' Hn); auto). split; intros ((r1 & t1 & (y & Hy & _) & _) & _); congruence. }
    split; auto.
    assert (Hmix : forall i m, has_mixin s' o i m <-> has_mixin s src i m).
    { intros i m. destruct (s_obj s src) as [y|] eqn:Hy; [|congruence]. unfold otype in Hot. rewrite Hy in Hot. pose proof (type_alive E s src y r I Ty Hy Hot) as Hal. destruct (w_type (s_w s) r) as [t|] eqn:Ht; [|congruence].
      destruct (op_stable E U (OCopyFrom false o src) s s' (Ok tt) Logic.I Hr (inv_bounded E s I)) as [G _]. destruct (goes_on s s' o r t t' G Ht T') as (n & ->).
      split; intros (r1 & t1 & T1 & Hm); [destruct (type_of_fun s' o r _ r1 t1 T' T1) as [-> ->]; exists r, t; split; auto; exists y; auto|].
      assert (T2 : type_of s src r t) by (exists y; auto). destruct (type_of_fun s src r t r1 t1 T2 T1) as [-> ->]. exists r, (set_nobj t n). auto. }
    assert (Hval : forall i m, has_mixin s' o i m -> exists p q v, holds s' o i m p v /\ holds s src i m q v).
    { intros i m Hi. destruct (has_dec s o m) as [(j & Hj)|Hn].
      - destruct (mixin_holds E s o j m I Ty Hj) as (p0 & v0 & H0).
        assert (Hcase : exists p' v', holds s' o i m p' v' /\ exists c, copies_assigned E s src i m c /\ value_after s m v0 c v').
        { destruct (external (e_mixin E m)) eqn:He; [destruct (mt_stay _ _ _ _ _ _ _ _ M i j m p0 v0 Hi H0 (or_introl He)) as (v' & c & B1 & B2 & B3 & _); eauto 10|].
          assert (Hdec : (exists t, type_of s o r t) \/ ~ exists t, type_of s o r t).
          { destruct (o_type xo) as [q|] eqn:Hq; [|congruence]. pose proof (type_alive E s o xo q I Ty Hxo Hq) as Hal. destruct (w_type (s_w s) q) as [t0|] eqn:Ht0; [|congruence].
            destruct (tref_eqb_spec q r) as [->|Hqr]; [left; exists t0, xo; auto|right]. intros (t1 & z & C1 & C2 & _). congruence. }
          destruct Hdec as [Hd|Hd].
          - destruct (mt_stay _ _ _ _ _ _ _ _ M i j m p0 v0 Hi H0 (or_intror Hd)) as (v' & c & B1 & B2 & B3 & _); eauto 10.
          - destruct (mt_moved _ _ _ _ _ _ _ _ M i j m p0 v0 Hi H0 He Hd) as (p' & v' & c & B1 & _ & _ & B2 & B3 & _); eauto 10. }
        destruct Hcase as (p' & v' & B1 & c & (q & w & -> & _ & B2) & B3). cbn in B3. exists p', q, v'. split; auto. assert (w = v') as -> by (specialize (B3 q eq_refl); destruct B2 as (_ & _ & B2); congruence). auto.
      - destruct (mt_new _ _ _ _ _ _ _ _ M i m Hi Hn) as (p & v & f & sr & A1 & A2 & (-> & A3 & q & w & -> & A4) & A5 & A6). exists p, q, v. assert (w = v) as -> by (specialize (A5 q eq_refl); destruct A4 as (_ & _ & A4); congruence). auto. }
    split; [|split; [|split]].
    + intros i m q v H. destruct (Hval i m (proj2 (Hmix i m) (proj1 H))) as (p & q' & v' & A1 & A2). destruct (holds_fun s src i m q v q' v' H A2) as [-> ->]. eauto.
    + intros i m p v H. destruct (Hval i m (proj1 H)) as (p' & q & v' & A1 & A2). destruct (holds_fun s' o i m p' v' p v A1 H) as [-> ->]. eauto.
    + intros _. eauto.
    + intros Hc. contradiction.
  - split; [unfold otype; rewrite Hx', Hy; reflexivity|].
    assert (Hoth : forall o', o' <> o -> s_obj s' o' = s_obj s o' /\ forall i m p v, holds s' o' i m p v <-> holds s o' i m p v).
    { intros o' Hn. split; [apply (wp_objects _ _ _ _ _ W); auto|]. intros i m p v. destruct (s_obj s o') as [z|] eqn:Hz; [eapply (wiped_other E AM); eauto; congruence|].
      assert (Hz' : s_obj s' o' = None) by (rewrite (wp_objects _ _ _ _ _ W o' Hn); auto). split; intros ((r1 & t1 & (y1 & Hy1 & _) & _) & _); congruence. }
    split; auto. split; [|split; [|split]]; [| |intros Hc; contradiction|eauto].
    + intros i m q v H. exfalso. apply Hne. destruct (holds_owns E AM s src i m q v I Ty H) as (z & c & A & B & _). exists z. split; congruence.
    + intros i m p v H. exfalso. destruct (holds_owns E AM s' o i m p v I' Ty' H) as (z & c & A & B & _). rewrite Hx' in A. injection A as <-. discriminate.
Qed.
Lemma from_throw s o src unw s' e : Inv s -> typed s -> fair E s (OCopyFrom unw o src) -> op_run E U (OCopyFrom unw o src) s = (s', Throw e) ->
  (forall o', s_obj s' o' = s_obj s o') /\ types_kept s s' /\ (forall b, allocation s' b = allocation s b) /\
  (forall j m p v, holds s o j m p v -> exists v', holds s' o j m p v') /\ (forall o' i m p v, o' <> o -> (holds s' o' i m p v <-> holds s o' i m p v)) /\
  match e with ESealed => sealed s o | EMissingFunc => no_copy_function E s o src | EUserFunc _ | EBadAlloc => True | _ => False end.
Proof.
  intros I Ty F Hr. destruct (from_spec E U AM s o src unw s' (Throw e) I Ty F Hr) as [(ms & l & Hf) He]. split; [apply (fd_objects _ _ _ _ _ _ _ _ Hf)|]. split; [exact (fd_types _ _ _ _ _ _ _ _ Hf)|]. split; [apply (fd_memory _ _ _ _ _ _ _ _ Hf)|]. split; [|split; auto].
  - intros j m p v H. destruct (fd_mixins _ _ _ _ _ _ _ _ Hf j m p v H) as (v' & H' & _). eauto.
  - intros o' i m p v Hne. destruct (s_obj s o') as [z|] eqn:Hz; [eapply (failed_other E AM); eauto; congruence|].
    assert (Hz' : s_obj s' o' = None) by (rewrite (fd_objects _ _ _ _ _ _ _ _ Hf); auto). split; intros ((r1 & t1 & (y1 & Hy1 & _) & _) & _); congruence.
Qed.
End OT7.
