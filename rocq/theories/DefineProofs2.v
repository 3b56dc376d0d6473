(** Proofs about the registration of defined mixins *)
From Coq Require Import List Arith ZArith NArith Lia Bool.
From Verif Require Import Base Sv BaseLemmas Info Registry RegistryProofs TypeBuild Domain ElemProofs TypesProofs SpecReg HistProofs SpecOrd DomTheorems RuleTheorems Define SpecDefine.
Import ListNotations.

Section P.
Variable E : env.
Hypothesis RR : regular_rules E.

Lemma count_snoc tr c d : rule_count E (tr ++ [c]) d = rule_step d (rule_count E tr d) c.
Proof. unfold rule_count. now rewrite fold_left_app. Qed.

Lemma add_rules_run d rs : forall tr w w', run E (init_world E) tr w -> add_rules E w d rs = (w', Ok tt) ->
  exists tr', run E (init_world E) tr' w' /\ (forall m, w_mdom w' m = w_mdom w m) /\
    (forall d2 r, rule_count E tr' d2 r = rule_count E tr d2 r + if d2 =? d then count_occ Nat.eq_dec rs r else 0).
Proof.
  induction rs as [|x rs IH]; intros tr w w' H; cbn [add_rules].
  - intros [= <-]. exists tr. split; auto. split; auto. intros d2 r. cbn. destruct (d2 =? d); lia.
  - destruct (add_rule E w d x) as [w1 [u|e|u]] eqn:A; [|intros B; discriminate B|intros B; discriminate B]. intros B.
    assert (S : dstep E w (DAddRule d x) = (w1, Ok None)). { cbn. unfold forget. now rewrite A. }
    assert (H1 : run E (init_world E) (tr ++ [(DAddRule d x, Ok None)]) w1) by (eapply run_snoc; eauto).
    destruct (IH _ _ _ H1 B) as (tr' & C & D & F). exists tr'. split; auto. split.
    + intros m. rewrite D. rewrite (dstep_mdom E _ _ _ _ (einv_run E _ _ H) S m). reflexivity.
    + intros d2 r. rewrite F, count_snoc. cbn [rule_step count_occ]. rewrite (Nat.eqb_sym d d2). destruct (d2 =? d); [|lia].
      destruct (Nat.eq_dec x r) as [->|N]; [rewrite Nat.eqb_refl; lia|]. destruct (Nat.eqb_spec r x); [congruence|lia].
Qed.

Lemma remove_rules_run d rs : forall tr w, run E (init_world E) tr w ->
  exists w' tr', remove_rules E w d rs = (w', EReturns) /\ run E (init_world E) tr' w' /\ (forall m, w_mdom w' m = w_mdom w m) /\
    (forall d2 r, rule_count E tr' d2 r = rule_count E tr d2 r - if d2 =? d then count_occ Nat.eq_dec rs r else 0).
Proof.
  induction rs as [|x rs IH]; intros tr w H; cbn [remove_rules].
  - exists w, tr. split; auto. split; auto. split; auto. intros d2 r. cbn. destruct (d2 =? d); lia.
  - destruct (remove_rule E w d x) as [w1 y] eqn:A. pose proof (proj2 (proj2 (c09 E RR tr w d H)) x) as O. rewrite A in O. cbn in O. subst y.
    assert (S : dstep E w (DRemRule d x) = (w1, Ok None)). { cbn. unfold forget. now rewrite A. }
    assert (H1 : run E (init_world E) (tr ++ [(DRemRule d x, Ok None)]) w1) by (eapply run_snoc; eauto).
    destruct (IH _ _ H1) as (w' & tr' & C & C2 & D & F). exists w', tr'. split; auto. split; auto. split.
    + intros m. rewrite D. rewrite (dstep_mdom E _ _ _ _ (einv_run E _ _ H) S m). reflexivity.
    + intros d2 r. rewrite F, count_snoc. cbn [rule_step count_occ]. rewrite (Nat.eqb_sym d d2). destruct (d2 =? d); [|lia].
      destruct (Nat.eq_dec x r) as [->|N]; [rewrite Nat.eqb_refl; lia|]. destruct (Nat.eqb_spec r x); [congruence|lia].
Qed.

(** ** The end of a definition *)
Lemma end_not_terminates w md : reachable E w -> snd (end_definition E w md) <> ETerminates.
Proof.
  intros (tr & H). unfold end_definition. destruct (w_mdom w (md_info md)) as [d|] eqn:D; [|discriminate]. unfold unregister_from.
  destruct (unregister_mixin w d (md_info md)) as [w1 r] eqn:U.
  destruct (unregister_mixin_cases E _ _ _ _ _ (einv_run E _ _ H) U) as [(w2 & id & A & -> & _)|[(-> & _ & N)|(Hu & ->)]].
  - assert (S : dstep E w (DUnregMixin d (md_info md)) = (w1, Ok None)). { cbn. unfold forget. now rewrite U. }
    assert (H1 : run E (init_world E) (tr ++ [(DUnregMixin d (md_info md), Ok None)]) w1) by (eapply run_snoc; eauto).
    destruct (remove_rules_run d (md_rules md) _ _ H1) as (w' & tr' & C & _). rewrite C. discriminate.
  - congruence.
  - destruct r; cbn in *; try tauto. discriminate.
Qed.
Lemma existsb_no {A} (f : A -> bool) l : (forall x, In x l -> f x = false) -> existsb f l = false.
Proof. induction l as [|a l IH]; cbn; auto. intros H. rewrite H by auto. apply IH. auto. Qed.
Lemma purge_ok w d m : EInv E w -> TInv E w -> w_mdom w m = Some d -> no_objects_with w m -> exists w1, purge_types w d m = Ok w1.
Proof.
  intros HE HT D N. unfold purge_types. rewrite existsb_no.
  - rewrite existsb_no; eauto. intros r Hr. apply filter_In in Hr as [Hr Hi]. destruct (ti_types _ _ HT _ _ Hr) as (n & t & -> & _ & Ht & Hok).
    unfold ref_has_id in Hi. unfold ref_nobj. rewrite Ht in *. apply (type_has_id_mixin E w d t m HE Hok D) in Hi. rewrite (N _ _ Ht Hi). reflexivity.
  - intros [q r] Hq. destruct (ti_queries _ _ HT _ _ _ Hq) as [->|Hr]; unfold dangling; cbn.
    + destruct (ti_empty _ _ HT d) as (k & ->). reflexivity.
    + destruct (ti_types _ _ HT _ _ Hr) as (n & t & -> & _ & -> & _). reflexivity.
Qed.
Lemma end_returns w md : reachable E w -> no_objects_with w (md_info md) -> snd (end_definition E w md) = EReturns.
Proof.
  intros R N. pose proof (end_not_terminates w md R) as T. destruct R as (tr & H). unfold end_definition in *. destruct (w_mdom w (md_info md)) as [d|] eqn:D; [|reflexivity].
  unfold unregister_from in *. destruct (unregister_mixin w d (md_info md)) as [w1 r] eqn:U.
  destruct (unregister_mixin_cases E _ _ _ _ _ (einv_run E _ _ H) U) as [(w2 & id & A & -> & _)|[(-> & _ & N2)|(Hu & ->)]].
  - assert (S : dstep E w (DUnregMixin d (md_info md)) = (w1, Ok None)). { cbn. unfold forget. now rewrite U. }
    assert (H1 : run E (init_world E) (tr ++ [(DUnregMixin d (md_info md), Ok None)]) w1) by (eapply run_snoc; eauto).
    destruct (remove_rules_run d (md_rules md) _ _ H1) as (w' & tr' & C & _). rewrite C. reflexivity.
  - congruence.
  - exfalso. destruct (purge_ok w d (md_info md) (einv_run E _ _ H) (proj2 (winv_run E _ _ H)) D N) as (w2 & P). unfold unregister_mixin in U. rewrite P in U.
    assert (X : snd (unregister_mixin_elem w2 d (md_info md)) = r) by (now rewrite U). unfold unregister_mixin_elem in X.
    destruct (basic_unregister _ _ _) eqn:B; cbn in X; subst r; cbn in Hu; try tauto. pose proof (basic_unregister_not_ub (w_mid w2) (d_mixins (w_dom w2 d)) (md_info md)) as Z.
    rewrite B in Z. apply Z. exact I.
Qed.

(** ** Histories *)
Variable data : mptr -> option (list rptr).

Lemma asked_cons d md l d2 r : asked ((d, md) :: l) d2 r = (if d =? d2 then count_occ Nat.eq_dec (md_rules md) r else 0) + asked l d2 r.
Proof. reflexivity. Qed.
Lemma asked_none l d r m : ~ In m (map (fun x => md_info (snd x)) l) -> asked (filter (fun x => negb (md_info (snd x) =? m)) l) d r = asked l d r.
Proof.
  intros H. f_equal. induction l as [|x l IH]; auto. cbn in *. destruct (Nat.eqb_spec (md_info (snd x)) m) as [e|]; [exfalso; auto|]. cbn. f_equal. auto.
Qed.
Lemma asked_end l d md d2 r : NoDup (map (fun x => md_info (snd x)) l) -> In (d, md) l ->
  asked l d2 r = asked (filter (fun x => negb (md_info (snd x) =? md_info md)) l) d2 r + if d2 =? d then count_occ Nat.eq_dec (md_rules md) r else 0.
Proof.
  intros N I. induction l as [|[d1 md1] l IH]; [destruct I|]. cbn in N. inversion N as [|? ? N1 N2]; subst. cbn [filter snd]. destruct I as [[= -> ->]|I].
  - rewrite Nat.eqb_refl. cbn [negb]. rewrite asked_none by auto. rewrite asked_cons, (Nat.eqb_sym d d2). lia.
  - destruct (Nat.eqb_spec (md_info md1) (md_info md)) as [e|n].
    + exfalso. apply N1. rewrite e. change (md_info md) with ((fun x : dptr * mixin_data => md_info (snd x)) (d, md)). now apply in_map.
    + cbn [negb]. rewrite !asked_cons. rewrite (IH N2 I). lia.
Qed.
Lemma nodup_filter {A B} (f : A -> B) (p : A -> bool) l : NoDup (map f l) -> NoDup (map f (filter p l)).
Proof.
  induction l as [|a l IH]; cbn; auto. intros N. inversion N as [|? ? N1 N2]; subst. destruct (p a); cbn; auto. constructor; auto.
  intros I. apply N1. apply in_map_iff in I as (y & <- & I). apply filter_In in I as [I _]. now apply in_map.
Qed.

Record dinv (tr : list xop) (w : world) : Prop := {
  di_run : exists tr', run E (init_world E) tr' w /\ forall d r, rule_count E tr' d r = canon_count E d r + asked (open_defs tr) d r;
  di_mixins : forall m rs d, data m = Some rs -> (w_mdom w m = Some d <-> In (d, {| md_info := m; md_rules := rs |}) (open_defs tr));
  di_data : forall d md, In (d, md) (open_defs tr) -> data (md_info md) = Some (md_rules md);
  di_nodup : NoDup (map (fun x => md_info (snd x)) (open_defs tr))
}.

Lemma open_snoc tr o : open_defs (tr ++ [o]) = defs_step (open_defs tr) o.
Proof. unfold open_defs. now rewrite fold_left_app. Qed.
Lemma md_eta md : {| md_info := md_info md; md_rules := md_rules md |} = md.
Proof. now destruct md. Qed.

Lemma dinv_all tr w : xrun E (tidy data) tr w -> dinv tr w.
Proof.
  induction 1 as [|tr w d md w' H [(t1 & I1 & I2) I3 I4 I5] T R|tr w md w' H [(t1 & I1 & I2) I3 I4 I5] T R|tr w o w' x H [(t1 & I1 & I2) I3 I4 I5] T R U].
  - split; cbn; try easy.
    + exists []. split; [constructor|]. intros d r. unfold rule_count, canon_count, asked. cbn. lia.
    + constructor.
  - cbn in T. unfold register_in in R. destruct (add_rules E w d (md_rules md)) as [w1 [u|e|u]] eqn:A; try discriminate R. destruct u.
    destruct (add_rules_run d _ _ _ _ I1 A) as (t2 & J1 & J2 & J3).
    assert (S : dstep E w1 (DRegMixin d (md_info md)) = (w', Ok None)). { cbn. unfold forget. now rewrite R. }
    assert (K : run E (init_world E) (t2 ++ [(DRegMixin d (md_info md), Ok None)]) w') by (eapply run_snoc; eauto).
    assert (N : w_mdom w (md_info md) = None).
    { destruct (register_mixin_cases E _ _ _ _ _ (einv_run E _ _ J1) R) as [(id & w2 & sp & _ & _ & N & _)|(Hne & _)]; [|congruence]. now rewrite J2 in N. }
    assert (M : forall m, w_mdom w' m = if m =? md_info md then Some d else w_mdom w m).
    { intros m. rewrite (dstep_mdom E _ _ _ _ (einv_run E _ _ J1) S m). cbn. now rewrite J2. }
    assert (NI : ~ In (md_info md) (map (fun x => md_info (snd x)) (open_defs tr))).
    { intros I. apply in_map_iff in I as ([d1 md1] & A1 & A2). cbn in A1. pose proof (I4 _ _ A2) as A3. rewrite A1 in A3.
      assert (w_mdom w (md_info md) = Some d1); [|congruence]. apply (I3 _ _ d1 A3). rewrite <- A1, md_eta. auto. }
    split; rewrite ?open_snoc; cbn [defs_step].
    + exists (t2 ++ [(DRegMixin d (md_info md), Ok None)]). split; auto. intros d2 r. rewrite count_snoc. cbn [rule_step]. rewrite J3, I2, asked_cons, (Nat.eqb_sym d d2). lia.
    + intros m rs d2 Hd. rewrite M. cbn [In]. destruct (Nat.eqb_spec m (md_info md)) as [->|Hm].
      * rewrite T in Hd. injection Hd as <-. rewrite md_eta. split; [intros [= ->]; auto|]. intros [[= ->]|I]; auto. exfalso. apply NI. apply in_map_iff. exists (d2, md). auto.
      * rewrite (I3 m rs d2 Hd). split; [auto|]. intros [e|I]; [injection e as _ e2; rewrite e2 in Hm; cbn in Hm; congruence|auto].
    + intros d2 md2 [[= <- <-]|I]; eauto.
    + cbn. constructor; auto.
  - cbn in T. unfold end_definition in R. destruct (w_mdom w (md_info md)) as [d|] eqn:D.
    + unfold unregister_from in R. destruct (unregister_mixin w d (md_info md)) as [w1 [u|e|u]] eqn:A; try discriminate R. destruct u.
      assert (S : dstep E w (DUnregMixin d (md_info md)) = (w1, Ok None)). { cbn. unfold forget. now rewrite A. }
      assert (K : run E (init_world E) (t1 ++ [(DUnregMixin d (md_info md), Ok None)]) w1) by (eapply run_snoc; eauto).
      destruct (remove_rules_run d (md_rules md) _ _ K) as (w2 & t2 & B & J1 & J2 & J3). rewrite B in R. injection R as <-.
      assert (M : forall m, w_mdom w2 m = if m =? md_info md then None else w_mdom w m).
      { intros m. rewrite J2, (dstep_mdom E _ _ _ _ (einv_run E _ _ I1) S m). reflexivity. }
      assert (O : In (d, md) (open_defs tr)). { rewrite <- (md_eta md). now apply (I3 _ _ d T). }
      split; rewrite ?open_snoc; cbn [defs_step].
      * exists t2. split; auto. intros d2 r. rewrite J3, count_snoc. cbn [rule_step]. rewrite I2. rewrite (asked_end _ _ _ d2 r I5 O). lia.
      * intros m rs d2 Hd. rewrite M, filter_In. cbn [snd md_info]. destruct (Nat.eqb_spec m (md_info md)) as [->|Hm]; cbn [negb].
        -- split; [discriminate|]. intros [_ F]. discriminate F.
        -- rewrite (I3 m rs d2 Hd). tauto.
      * intros d2 md2 I. apply filter_In in I as [I _]. eauto.
      * now apply nodup_filter.
    + injection R as <-. assert (F : filter (fun x => negb (md_info (snd x) =? md_info md)) (open_defs tr) = open_defs tr).
      { assert (G : forall x, In x (open_defs tr) -> md_info (snd x) <> md_info md).
        { intros [d2 md2] I e. cbn in e. pose proof (I4 _ _ I) as J. rewrite e in J. assert (w_mdom w (md_info md) = Some d2); [|congruence]. apply (I3 _ _ d2 J). rewrite <- e, md_eta. auto. }
        revert G. generalize (open_defs tr). intros l G. induction l as [|a l IH]; auto. cbn. destruct (Nat.eqb_spec (md_info (snd a)) (md_info md)) as [e|]; [exfalso; apply (G a); [now left|auto]|].
        cbn. f_equal. apply IH. intros x Hx. apply G. now right. }
      split; rewrite ?open_snoc; cbn [defs_step]; rewrite ?F; eauto.
  - assert (K : run E (init_world E) (t1 ++ [(o, x)]) w') by (eapply run_snoc; eauto).
    split; rewrite ?open_snoc; cbn [defs_step]; eauto.
    + exists (t1 ++ [(o, x)]). split; auto. intros d r. rewrite count_snoc, <- I2. destruct o; cbn in T; try (destruct T; fail); destruct x; reflexivity.
    + intros m rs d Hd. rewrite (dstep_mdom E _ _ _ _ (einv_run E _ _ I1) R m). rewrite <- (I3 m rs d Hd).
      destruct o; cbn in T; destruct x; cbn [mixin_step]; try tauto; destruct (Nat.eqb_spec m m0) as [->|]; try tauto; congruence.
Qed.

Lemma c66 tr w : xrun E (tidy data) tr w -> forall d,
  (forall r c, In (r, c) (d_rules (w_dom w d)) <-> c = canon_count E d r + asked (open_defs tr) d r /\ 0 < c) /\
  (forall m rs, data m = Some rs -> (w_mdom w m = Some d <-> In (d, {| md_info := m; md_rules := rs |}) (open_defs tr))).
Proof.
  intros H d. destruct (dinv_all tr w H) as [(t1 & I1 & I2) I3 _ _]. split.
  - intros r c. rewrite (proj1 (c09 E RR t1 w d I1) r c), I2. tauto.
  - intros m rs Hd. now apply I3.
Qed.
End P.
