(** The theorems about rules in terms of get_type *)
From Coq Require Import List Arith ZArith NArith Lia Bool Permutation Sorted.
From Verif Require Import Base Sv Info Registry TypeMut Rules TypeBuild TypeQuery Domain SpecReg SpecDom SpecOrd SpecRule
  BaseLemmas SvProofs RegistryProofs CmpProofs TypeBuildProofs LayoutProofs ElemProofs TypesProofs HistProofs RegTheorems DomTheorems RuleTheorems.
Import ListNotations.

Section R.
Variable E : env.

Lemma check_mixins_throw mid mdom d ms e : check_mixins mid mdom d ms = Throw e -> e = EUnregisteredMixin \/ e = EForeignMixin \/ e = EDuplicateMixin.
Proof.
  induction ms as [|m ms IH]; simpl; [discriminate|]. destruct (mid m); [|intros [= <-]; auto].
  destruct (negb _); [intros [= <-]; auto|]. destruct (memb m ms); [intros [= <-]; auto|auto].
Qed.
Lemma count_pls_throw fid fs : forall c e, count_pls fid fs c <> Throw e.
Proof.
  induction fs as [|[i f] fs IH]; simpl; intros c e; [discriminate|]. destruct (fid (ff_info f)); [|discriminate].
  destruct (nth_error c n); [apply IH|discriminate].
Qed.
Lemma fill_pls_throw fid fs : forall c t n e, fill_pls fid c fs t n <> Throw e.
Proof.
  induction fs as [|[i f] fs IH]; simpl; intros c t n e; [discriminate|]. destruct (fid (ff_info f)) as [k|]; [|discriminate].
  destruct (nth_error (ft_entries t) k) as [oe|]; [|discriminate]. destruct (nth_error c k) as [num|]; [|discriminate].
  destruct (num =? 0); [discriminate|]. destruct oe as [en|]; (destruct (_ <? _); [apply IH|discriminate]).
Qed.
Lemma finish_entry_throw en pls e : finish_entry E en pls = Throw e -> e = EFeatureClash.
Proof.
  unfold finish_entry. destruct (all_some _); [|discriminate]. destruct (sort_by payload_less l); [discriminate|].
  destruct (_ && _); [intros [= <-]; auto|discriminate].
Qed.
Lemma finish_entries_throw todo : forall pls e, finish_entries E todo pls = Throw e -> e = EFeatureClash.
Proof.
  induction todo as [|[en|] todo IH]; simpl; intros pls e; [discriminate| |].
  - destruct (finish_entry E en pls) as [x| |] eqn:H1; simpl; try discriminate.
    + destruct (finish_entries E todo (snd x)) eqn:H2; simpl; try discriminate. intros [= <-]. eauto.
    + intros [= <-]. eapply finish_entry_throw; eauto.
  - destruct (finish_entries E todo pls) eqn:H2; simpl; try discriminate. intros [= <-]. eauto.
Qed.
Lemma layout_throw l : forall sz al e, layout_loop E l sz al <> Throw e.
Proof.
  induction l as [|m l IH]; simpl; intros sz al e; [discriminate|]. destruct (external _).
  - specialize (IH sz al e). destruct (layout_loop E l sz al); simpl; congruence.
  - destruct (negb _); [discriminate|]. match goal with |- context [layout_loop E l ?s ?a] => specialize (IH s a e); destruct (layout_loop E l s a) end; simpl; congruence.
Qed.
Lemma fill_sparse_throw mid l : forall sp e, fill_sparse mid l sp <> Throw e.
Proof. induction l as [|[i m] l IH]; simpl; intros sp e; [discriminate|]. destruct (mid m); [|discriminate]. destruct (_ <? _); [apply IH|discriminate]. Qed.

Definition create_error (e : exn) : Prop :=
  e = EUnregisteredMixin \/ e = EForeignMixin \/ e = EDuplicateMixin \/ e = EFeatureClash \/ e = EBadAlloc.
Lemma build_type_throw fid mid mdom a d ms e : build_type E fid mid mdom a d ms = Throw e -> create_error e.
Proof.
  unfold build_type, create_error. destruct (check_mixins mid mdom d ms) eqn:H1; simpl; try discriminate.
  2:{ intros [= <-]. apply check_mixins_throw in H1. tauto. }
  unfold ftable_counts. pose proof (count_pls_throw fid (all_features E ms) (repeat 0 (ftable_size fid (all_features E ms)))) as H2.
  destruct (count_pls fid _ _) as [c| |]; simpl; try discriminate; [|exfalso; eapply H2; eauto].
  destruct (length ms =? 0); [discriminate|]. destruct a; simpl; [|intros [= <-]; tauto].
  unfold build_ftable. pose proof (fill_pls_throw fid (all_features E ms) c {| ft_entries := repeat None (length c); ft_pls := repeat None (length (all_features E ms)) |} 0) as H3.
  destruct (fill_pls fid c _ _ _) as [t| |]; simpl; try discriminate; [|exfalso; eapply H3; eauto].
  destruct (finish_entries E (ft_entries t) (ft_pls t)) eqn:H4; simpl; try discriminate; [|intros [= <-]; apply finish_entries_throw in H4; tauto].
  unfold layout. match goal with |- context [layout_loop E ms ?s ?a] => pose proof (layout_throw ms s a) as H5; destruct (layout_loop E ms s a) end; simpl; try discriminate; [|exfalso; eapply H5; eauto].
  unfold build_sparse. match goal with |- context [fill_sparse mid ?l ?s] => pose proof (fill_sparse_throw mid l s) as H6; destruct (fill_sparse mid l s) end; simpl; try discriminate. exfalso; eapply H6; eauto.
Qed.

Lemma not_stored_find w d q : not_stored w d q -> find_query q (d_queries (w_dom w d)) = None.
Proof.
  intros H. destruct (find_query q (d_queries (w_dom w d))) as [r|] eqn:Hq; auto. exfalso. apply H. apply find_query_some in Hq. apply in_map_iff. exists (q, r). auto.
Qed.

Lemma asked_applies w d : WInv E w -> applies E w d (map fst (d_rules (w_dom w d))).
Proof.
  intros HW a q w1 Hns. apply not_stored_find in Hns. pose proof (apply_rules_spec E (view E w d) (d_rules (w_dom w d)) q) as Ho.
  fold (asked E w d q) in Ho. rewrite map_length. fold (without_deps E q) in Ho.
  pose proof (get_type_case E a w d q) as Hc. split.
  - intros r t Hg Ht. rewrite Hg in Hc.
    assert (Ha : asked E w d q = Ok (q, t_mixins t)).
    { destruct HW as [HE HT]. inversion Hc; subst; try congruence.
      - simpl in Ht. destruct (ti_empty _ _ HT d) as [k Hk]. rewrite Hk in Ht. injection Ht as <-. auto.
      - simpl in Ht. match goal with H : find_type _ _ _ = Some _ |- _ => apply find_type_some in H; destruct H as (_ & t2 & Ht2 & <-) end. congruence.
      - simpl in Ht. unfold tupd in Ht. destruct (tref_eqb_spec (TReg (w_next w)) (TReg (w_next w))) as [_|]; [|congruence]. injection Ht as <-.
        match goal with H : build_type _ _ _ _ _ _ _ = Ok _ |- _ => apply build_type_ok in H; destruct H as (-> & _) end. auto. }
    rewrite Ha in Ho. simpl in Ho. destruct Ho as (k & H1 & H2 & H3 & _). exists k. split; [unfold bound, max_dependency_depth in H2; lia|auto].
  - intros e Hg. rewrite Hg in Hc. inversion Hc; subst.
    + match goal with H : asked _ _ _ _ = Throw _ |- _ => rewrite H in Ho end. simpl in Ho. destruct Ho as [(k & z & l & [= <-] & Z2 & Z3 & Z4)|[? _]]; [|discriminate].
      exists k, l. split; [unfold bound, max_dependency_depth in Z2; lia|auto].
    + match goal with H : build_type _ _ _ _ _ _ _ = Throw _ |- _ => apply build_type_throw in H; unfold create_error in H end. 
      repeat match goal with H : _ \/ _ |- _ => destruct H end; discriminate.
Qed.

Lemma active_list tr w d : regular_rules E -> run E (init_world E) tr w -> active_rules E tr d (map fst (d_rules (w_dom w d))).
Proof.
  intros Hr H. destruct (run_rules E Hr tr w d H) as [Hs _]. apply rsorted_keys in Hs. split; [eapply sorted_nodup; eauto|]. split.
  - intros r. now apply active_keys.
  - now apply sorted_before.
Qed.

Lemma c10 tr w d : regular_rules E -> run E (init_world E) tr w -> exists rs, active_rules E tr d rs /\ applies E w d rs.
Proof.
  intros Hr H. eexists. split; [apply active_list; eauto|]. apply asked_applies. eapply winv_run; eauto.
Qed.
Lemma c10_any_order tr1 w1 tr2 w2 d : regular_rules E -> run E (init_world E) tr1 w1 -> run E (init_world E) tr2 w2 ->
  (forall r, 0 < rule_count E tr1 d r <-> 0 < rule_count E tr2 d r) ->
  exists rs, active_rules E tr1 d rs /\ active_rules E tr2 d rs /\ applies E w1 d rs /\ applies E w2 d rs.
Proof.
  intros Hr H1 H2 Hs. pose proof (c10_set E Hr _ _ _ _ d H1 H2 Hs) as Heq. exists (map fst (d_rules (w_dom w1 d))).
  split; [now apply active_list|]. split; [rewrite Heq; now apply active_list|]. split; [apply asked_applies; eapply winv_run; eauto|].
  rewrite Heq. apply asked_applies. eapply winv_run; eauto.
Qed.

Lemma current_cinv tr w : current_history E tr w -> CInv E w /\ run E (init_world E) tr w.
Proof.
  intros [[Hp H]|H].
  - split; auto. eapply cinv_pure; eauto.
  - split; [eapply cinv_first; eauto|eapply run_where_run; eauto].
Qed.
Lemma c13 tr w d : current_history E tr w -> current_answers E w d.
Proof.
  intros H. apply current_cinv in H. destruct H as [HC H]. intros a q w1 r1 w2 r2. apply cache_transparent; auto. eapply winv_run; eauto.
Qed.
Lemma c13_canonical tr w d : canon_ok E -> regular_mixins E -> regular_rules E -> run E (init_world E) tr w ->
  (forall x, 0 < rule_count E tr d x -> x = e_canon E d) -> current_answers E w d.
Proof.
  intros Hcan Hmix Hrul Hrun Hact a q w1 r1 w2 r2. apply cache_transparent; [eapply winv_run; eauto|].
  destruct (map fst (d_rules (w_dom w d))) as [|k ks] eqn:Hkeys.
  - (* no rules: the answers do not depend on the registries *)
    revert Hkeys. clear Hact. revert tr w Hrun.
    assert (Hgen : forall tr w, run E (init_world E) tr w -> map fst (d_rules (w_dom w d)) = [] -> CInvAt E w d); [|eauto].
    intros tr w H. remember (init_world E) as w0 eqn:Hw0. induction H as [|w0 tr w3 o r w4 Hrun IH Hs Hub]; subst; [intros _; apply cinv_init|].
    intros Hk. destruct (dstep_keys E _ _ _ _ d (winv_run _ _ _ Hrun) (kinv_run E _ _ Hrun) Hs) as [Hsame|Hnone].
    2:{ intros q' rr. rewrite Hnone. intros []. }
    rewrite Hsame in Hk. eapply cinv_dstep_at; eauto; [eapply winv_run; eauto|eapply kinv_run; eauto|].
    intros _ q' rr t _ _ _ _. unfold asked. rewrite <- Hsame in Hk. 
    destruct (d_rules (w_dom w4 d)); [|discriminate]. destruct (d_rules (w_dom w3 d)); [reflexivity|discriminate].
  - assert (Hall : forall x, In x (k :: ks) -> x = e_canon E d). { intros x Hx. apply Hact. rewrite <- Hkeys in Hx. now apply (active_keys E Hrul tr w d x Hrun). }
    assert (Hnd : NoDup (k :: ks)). { rewrite <- Hkeys. destruct (run_rules E Hrul tr w d Hrun) as [Hs _]. apply rsorted_keys in Hs. eapply sorted_nodup; eauto. }
    assert (ks = []). { destruct ks as [|k2 ks]; auto. inversion Hnd as [|? ? Hni _]; subst. exfalso. apply Hni. left. rewrite (Hall k), (Hall k2) by (simpl; auto). auto. }
    subst. apply (caninv_run E Hcan Hmix _ _ Hrun). rewrite Hkeys, (Hall k) by (simpl; auto). auto.
Qed.

(** C11 *)
Lemma c11 tr w d a q w1 r t : regular_rules E -> current_history E tr w ->
  get_type E a w d q = (w1, Ok r) -> w_type w1 r = Some t ->
  exists rs, active_rules E tr d rs /\
    (in_turn E (view E w d) rs (t_mixins t) (RuleOk (t_mixins t)) \/
     (~ no_deps E q /\ t_mixins t = q /\ in_turn E (view E w d) rs (without_deps E q) (RuleOk q))).
Proof.
  intros Hr Hcur Hg Ht. apply current_cinv in Hcur. destruct Hcur as [HC Hrun].
  exists (map fst (d_rules (w_dom w d))). split; [now apply active_list|].
  assert (Ha := get_type_asked E w a d q w1 r t (winv_run _ _ _ Hrun) (HC d) Hg Ht).
  pose proof (apply_rules_spec E (view E w d) (d_rules (w_dom w d)) q) as Ho. fold (asked E w d q) in Ho. rewrite Ha in Ho. simpl in Ho.
  destruct Ho as (k & _ & _ & Hp & [Hs|[-> Hq]]); auto. revert Hq. inversion Hp as [|n l l1 l2 Hp0 Ht1]; subst. inversion Hp0; subst. intros Hq.
  rewrite Hq in Ht1. destruct (forallb (fun m => negb (m_dependency (e_mixin E m))) q) eqn:Hd.
  - left. rewrite Hq. rewrite (strip_no_deps E q) in Ht1; auto. intros m Hm. rewrite forallb_forall in Hd. apply Hd in Hm. now apply negb_true_iff.
  - right. split; auto. intros Hn. apply not_true_iff_false in Hd. apply Hd. apply forallb_forall. intros m Hm. now rewrite (Hn m Hm).
Qed.

(** C12 *)
Lemma c12_errors tr w d a q w1 e : run E (init_world E) tr w ->
  get_type E a w d q = (w1, Throw e) -> (exists z, e = ERuleUser z) \/ e = ECyclicRules \/ create_error e.
Proof.
  intros H Hg. pose proof (get_type_case E a w d q) as Hc. rewrite Hg in Hc.
  pose proof (apply_rules_spec E (view E w d) (d_rules (w_dom w d)) q) as Ho. fold (asked E w d q) in Ho. inversion Hc; subst.
  -     match goal with X : asked _ _ _ _ = Throw _ |- _ => rewrite X in Ho end. simpl in Ho. destruct Ho as [(k & z & l & -> & _)|[-> _]]; eauto.
  - right. right. eapply build_type_throw; eauto.
Qed.
Lemma c12_cyclic tr w d a q w1 : regular_rules E -> run E (init_world E) tr w ->
  get_type E a w d q = (w1, Throw ECyclicRules) ->
  exists rs, active_rules E tr d rs /\ forall k, k <= Nat.min 5 (length rs) -> exists l l',
    passes E (view E w d) rs k (without_deps E q) l /\ in_turn E (view E w d) rs l (RuleOk l') /\
    (k = 0 -> l' <> q) /\ (k <> 0 -> l' <> l).
Proof.
  intros Hr H Hg. exists (map fst (d_rules (w_dom w d))). split; [now apply active_list|].
  pose proof (get_type_case E a w d q) as Hc. rewrite Hg in Hc.
  pose proof (apply_rules_spec E (view E w d) (d_rules (w_dom w d)) q) as Ho. fold (asked E w d q) in Ho. inversion Hc; subst.
  -     match goal with X : asked _ _ _ _ = Throw _ |- _ => rewrite X in Ho end. simpl in Ho. destruct Ho as [(k & z & l & ? & _)|[_ Hk]]; [discriminate|].
    intros k Hle. rewrite map_length in Hle. destruct (Hk k) as (l & l' & Z1 & Z2 & Z3); [lia|unfold bound, max_dependency_depth; lia|].
    exists l, l'. split; auto. split; auto. destruct (Nat.eqb_spec k 0) as [->|Hn]; split; auto; congruence.
  - match goal with X : build_type _ _ _ _ _ _ _ = Throw _ |- _ => apply build_type_throw in X; unfold create_error in X end. 
    repeat match goal with X : _ \/ _ |- _ => destruct X end; discriminate.
Qed.
Lemma without_deps_none q : no_deps E q -> without_deps E q = q.
Proof. apply strip_no_deps. Qed.
End R.
