(** The feature tables of all types stay right while the contract of unregister_feature is kept. *)
From Coq Require Import List Arith ZArith NArith Lia Bool.
From Verif Require Import Base Sv BaseLemmas Info Registry RegistryProofs TypeMut Rules TypeBuild TypeBuildProofs LayoutProofs
  TypeQuery Domain ElemProofs TypesProofs SpecReg HistProofs.
Import ListNotations.

Section F.
Variable E : env.

Definition freg (w : world) (d : dptr) (f : fptr) : Prop :=
  exists i, w_fid w f = Some i /\ nth_error (d_features (w_dom w d)) i = Some (Some f).
Record FInv (w : world) : Prop := {
  fi_m : forall m d, w_mdom w m = Some d -> forall x, In x (m_features (e_mixin E m)) -> freg w d (ff_info x);
  fi_t : forall r t, w_type w r = Some t -> ft_ok E (w_fid w) (t_mixins t) (t_ftable t)
}.

Lemma all_features_in ms i x : In (i, x) (all_features E ms) <-> exists m, nth_error ms i = Some m /\ In x (m_features (e_mixin E m)).
Proof.
  unfold all_features. rewrite in_flat_map. split.
  - intros ([j m] & H1 & H2). apply (enumerate_in (fun _ => None)) in H1. destruct H1 as (i' & -> & Hn). simpl in H2.
    apply in_map_iff in H2. destruct H2 as (y & Hy0 & Hy). inversion Hy0; subst. exists m. auto.
  - intros (m & Hn & Hx). exists (i, m). split; [apply (proj2 (enumerate_in (fun _ => None) ms 0 i m)); exists i; auto|]. simpl. apply in_map. auto.
Qed.
Lemma L_ext fid fid' ms k : (forall m x, In m ms -> In x (m_features (e_mixin E m)) -> fid' (ff_info x) = fid (ff_info x)) ->
  L fid' k (all_features E ms) = L fid k (all_features E ms).
Proof.
  intros H. unfold L. apply filter_ext_in. intros [i x] Hin. unfold is_k. simpl. apply all_features_in in Hin.
  destruct Hin as (m & Hm & Hx). rewrite (H m x); auto. eapply nth_error_In; eauto.
Qed.
Lemma ft_ok_ext fid fid' ms ft : (forall m x, In m ms -> In x (m_features (e_mixin E m)) -> fid' (ff_info x) = fid (ff_info x)) ->
  ft_ok E fid ms ft -> ft_ok E fid' ms ft.
Proof.
  intros He H k. specialize (H k). unfold sorted_pls in *. rewrite (L_ext fid fid' ms k He). auto.
Qed.

Lemma same_elems_freg w w' d f : same_elems w w' -> freg w d f -> freg w' d f.
Proof. intros (_ & _ & H & H2) (i & A & B). exists i. rewrite H. destruct (H2 d) as [_ ->]. auto. Qed.
Lemma mono_freg w w' d f : feat_mono w w' -> freg w d f -> freg w' d f.
Proof. intros (H & H2) (i & A & B). exists i. auto. Qed.

Lemma dstep_same_elems w o w' r : dstep E w o = (w', r) ->
  (forall d f, o <> DRegFeature d f) -> (forall d f, o <> DUnregFeature d f) -> (forall d m, o <> DRegMixin d m) -> (forall d m, o <> DUnregMixin d m) ->
  same_elems w w'.
Proof.
  intros Hs H1 H2 H3 H4. destruct o; simpl in Hs; unfold forget, retty in Hs; injection Hs as <- _;
    try (edestruct H1; reflexivity); try (edestruct H2; reflexivity); try (edestruct H3; reflexivity); try (edestruct H4; reflexivity).
  - unfold register_type_class. destruct (register_tc _ _ _); try apply same_elems_refl. apply same_elems_set_dom; reflexivity.
  - apply same_elems_set_dom; reflexivity.
  - unfold add_rule. destruct (r_apply _); [|apply same_elems_refl]. destruct (rules_incr _ _ _). apply same_elems_set_dom; reflexivity.
  - unfold remove_rule. destruct (rules_decr _ _ _) as [[? ?]|e|u]; try apply same_elems_refl. apply same_elems_set_dom; reflexivity.
  - apply same_elems_get_type.
  - apply same_elems_get_type_mut.
  - unfold gc. destruct (existsb _ _); [apply same_elems_refl|]. split; [auto|]. split; [auto|]. split; [auto|].
    intros d2. simpl. unfold upd. destruct (Nat.eqb_spec d2 d) as [->|]; auto.
  - unfold incr_nobj. destruct (w_type w r0); [apply same_elems_with_type|apply same_elems_refl].
  - unfold decr_nobj. destruct (w_type w r0) as [t|]; [|apply same_elems_refl]. destruct (t_nobj t); [apply same_elems_refl|apply same_elems_with_type].
Qed.

Lemma register_mixin_mono w d m w' r : EInv E w -> register_mixin E w d m = (w', r) -> feat_mono w w'.
Proof.
  intros HE. unfold register_mixin. destruct (match w_mdom w m with Some d' => negb (d' =? d) | None => false end); [intros [= <- <-]; apply feat_mono_refl|].
  assert (Hm := register_features_of_mono E (m_features (e_mixin E m)) w d HE).
  destruct (register_features_of E w d (m_features (e_mixin E m))) as [w1 [[]|e|u]]; simpl in Hm; try (intros [= <- <-]; auto; fail).
  destruct (basic_register _ _ _ _ _) as [[sp id]|e|u]; intros [= <- <-]; auto.
  destruct Hm as [M1 M2]. split; simpl; auto. intros d2 i f H. unfold upd. destruct (Nat.eqb_spec d2 d) as [->|]; simpl; auto.
Qed.
Lemma unregister_mixin_feats w d m w' r : EInv E w -> unregister_mixin w d m = (w', r) ->
  w_fid w' = w_fid w /\ forall d2, d_features (w_dom w' d2) = d_features (w_dom w d2).
Proof.
  intros HE H. destruct (unregister_mixin_cases E w d m w' r HE H) as [(w1 & id & Hp & _ & _ & _ & ->)|[(_ & Hp & _)|(_ & ->)]]; auto.
  - destruct (same_elems_purge _ _ _ _ Hp) as (_ & _ & H1 & H2). simpl. split; auto. intros d2. unfold upd.
    destruct (Nat.eqb_spec d2 d) as [->|]; simpl; apply H2.
  - destruct (same_elems_purge _ _ _ _ Hp) as (_ & _ & H1 & H2). split; auto. intros d2. apply H2.
Qed.

Lemma dstep_freg w o w' r d f : EInv E w -> dstep E w o = (w', r) -> (forall d', o <> DUnregFeature d' f) -> freg w d f -> freg w' d f.
Proof.
  intros HE Hs Hno Hf. destruct o.
  - simpl in Hs. unfold forget in Hs. injection Hs as <- _. eapply mono_freg; [apply register_feature_mono; auto|auto].
  - simpl in Hs. unfold forget in Hs. injection Hs as <- _. unfold unregister_feature.
    destruct (basic_unregister _ _ _) as [sp|e|u] eqn:Hb; auto. apply basic_unregister_ok in Hb. destruct Hb as (i & B1 & B2 & ->).
    assert (Hne : f0 <> f) by (intros ->; now apply (Hno d0)).
    destruct Hf as (j & A & B). exists j. simpl. rewrite upd_other by auto. split; auto. unfold upd. destruct (Nat.eqb_spec d d0) as [->|]; auto. simpl.
    rewrite nth_error_set_nth_other; auto. intros ->. congruence.
  - simpl in Hs. unfold forget in Hs. injection Hs as <- _. destruct (register_mixin E w d0 m) eqn:Hr. simpl.
    eapply mono_freg; [eapply register_mixin_mono; eauto|auto].
  - simpl in Hs. unfold forget in Hs. injection Hs as <- _. destruct (unregister_mixin w d0 m) eqn:Hr. simpl.
    destruct (unregister_mixin_feats _ _ _ _ _ HE Hr) as [H1 H2]. destruct Hf as (j & A & B). exists j. rewrite H1, H2. auto.
  - eapply same_elems_freg; [eapply dstep_same_elems; eauto; discriminate|auto].
  - eapply same_elems_freg; [eapply dstep_same_elems; eauto; discriminate|auto].
  - eapply same_elems_freg; [eapply dstep_same_elems; eauto; discriminate|auto].
  - eapply same_elems_freg; [eapply dstep_same_elems; eauto; discriminate|auto].
  - eapply same_elems_freg; [eapply dstep_same_elems; eauto; discriminate|auto].
  - eapply same_elems_freg; [eapply dstep_same_elems; eauto; discriminate|auto].
  - eapply same_elems_freg; [eapply dstep_same_elems; eauto; discriminate|auto].
  - eapply same_elems_freg; [eapply dstep_same_elems; eauto; discriminate|auto].
  - eapply same_elems_freg; [eapply dstep_same_elems; eauto; discriminate|auto].
Qed.

Lemma free_types_some f dead r t : free_types f dead r = Some t -> f r = Some t.
Proof. unfold free_types. destruct (existsb _ _); [discriminate|auto]. Qed.
Lemma purge_types_some w d m w1 r t : purge_types w d m = Ok w1 -> w_type w1 r = Some t -> w_type w r = Some t.
Proof.
  unfold purge_types. destruct (existsb _ (d_queries (w_dom w d))); [discriminate|].
  destruct (existsb _ (filter _ _)); [discriminate|]. intros [= <-]. simpl. apply free_types_some.
Qed.

(** where the types of the next state come from *)
Lemma get_type_mut_types a w d dm q r t : w_type (fst (get_type_mut E a w d dm q)) r = Some t ->
  w_type w r = Some t \/ build_type E (w_fid w) (w_mid w) (w_mdom w) a d (t_mixins t) = Ok t.
Proof.
  unfold get_type_mut. destruct (negb _); auto. destruct (lookup_type E w d q) as [[x|oq ms [x|]]|e|u]; auto.
  destruct (build_type E (w_fid w) (w_mid w) (w_mdom w) a d ms) as [t0|e|u] eqn:Hb; auto.
  unfold insert_type. destruct (find_type w (t_mixins t0) (d_types (w_dom w d))); auto. simpl. unfold tupd. destruct (tref_eqb r (TReg (w_next w))); auto.
  intros [= <-]. right. rewrite (proj1 (build_type_ok _ _ _ _ _ _ _ _ Hb)). auto.
Qed.
Lemma get_type_types a w d q r t : w_type (fst (get_type E a w d q)) r = Some t ->
  w_type w r = Some t \/ build_type E (w_fid w) (w_mid w) (w_mdom w) a d (t_mixins t) = Ok t.
Proof. unfold get_type. destruct (find_query _ _); auto. apply get_type_mut_types. Qed.

Lemma dstep_types w o w' x r t : EInv E w -> dstep E w o = (w', x) -> w_type w' r = Some t ->
  (exists t0, w_type w r = Some t0 /\ t_mixins t0 = t_mixins t /\ t_ftable t0 = t_ftable t) \/
  (exists a d, same_elems w w' /\ build_type E (w_fid w) (w_mid w) (w_mdom w) a d (t_mixins t) = Ok t).
Proof.
  intros HE Hs Ht. destruct o; simpl in Hs; unfold forget, retty in Hs; injection Hs as <- _.
  - left. exists t. destruct (register_feature_only E w d f) as (_ & _ & H & _). rewrite <- H. auto.
  - left. exists t. unfold unregister_feature in Ht. destruct (basic_unregister _ _ _); auto.
  - left. exists t. destruct (register_mixin E w d m) as [w1 x1] eqn:Hr. simpl in Ht.
    destruct (register_mixin_cases E w d m w1 x1 HE Hr) as [(id & w2 & sp & _ & _ & _ & Hf & _ & ->)|(_ & _ & _ & H & _)].
    + assert (Ho := register_features_of_only E (m_features (e_mixin E m)) w d). rewrite Hf in Ho. destruct Ho as (_ & _ & H & _). simpl in *. rewrite <- H. auto.
    + rewrite <- H. auto.
  - left. exists t. split; auto. destruct (unregister_mixin w d m) as [w1 x1] eqn:Hr. simpl in Ht.
    destruct (unregister_mixin_cases E w d m w1 x1 HE Hr) as [(w2 & id & Hp & _ & _ & _ & ->)|[(_ & Hp & _)|(_ & ->)]]; simpl in *; auto;
      eapply purge_types_some; eauto.
  - left. exists t. unfold register_type_class in Ht. destruct (register_tc _ _ _); auto.
  - left. exists t. auto.
  - left. exists t. unfold add_rule in Ht. destruct (r_apply _); auto. destruct (rules_incr _ _ _). auto.
  - left. exists t. unfold remove_rule in Ht. destruct (rules_decr _ _ _) as [[? ?]|e|u]; auto.
  - apply get_type_types in Ht. destruct Ht as [Ht|Ht]; [eauto 6|]. right. exists alloc_ok, d. split; auto. apply same_elems_get_type.
  - apply get_type_mut_types in Ht. destruct Ht as [Ht|Ht]; [eauto 6|]. right. exists alloc_ok, d. split; auto. apply same_elems_get_type_mut.
  - left. exists t. split; auto. unfold gc in Ht. destruct (existsb _ _); auto. simpl in Ht. eapply free_types_some; eauto.
  - left. unfold incr_nobj in Ht. destruct (w_type w r0) as [t0|] eqn:H0; simpl in Ht; [|eauto 6]. unfold tupd in Ht.
    destruct (tref_eqb_spec r r0) as [->|]; [injection Ht as <-; exists t0; auto|eauto 6].
  - left. unfold decr_nobj in Ht. destruct (w_type w r0) as [t0|] eqn:H0; simpl in Ht; [|eauto 6]. destruct (t_nobj t0); simpl in Ht; [eauto 6|].
    unfold tupd in Ht. destruct (tref_eqb_spec r r0) as [->|]; [injection Ht as <-; exists t0; auto|eauto 6].
Qed.

Lemma fid_mono w o w' r f d : EInv E w -> dstep E w o = (w', r) -> freg w d f -> (forall d', o <> DUnregFeature d' f) -> w_fid w' f = w_fid w f.
Proof.
  intros HE Hs Hf Hn. assert (HE' := einv_dstep _ _ _ _ _ HE Hs). assert (Hf' := dstep_freg _ _ _ _ _ _ HE Hs Hn Hf).
  destruct o; try (destruct (dstep_same_elems _ _ _ _ Hs) as (_ & _ & -> & _); auto; discriminate).
  - simpl in Hs. unfold forget in Hs. injection Hs as <- _. destruct Hf as (i & A & _). rewrite A. apply (register_feature_mono E w d0 f0 HE). auto.
  - simpl in Hs. unfold forget in Hs. injection Hs as <- _. unfold unregister_feature. destruct (basic_unregister _ _ _); auto. simpl.
    rewrite upd_other; auto. intros ->. now apply (Hn d0).
  - simpl in Hs. unfold forget in Hs. injection Hs as <- _. destruct (register_mixin E w d0 m) eqn:Hr. simpl.
    destruct Hf as (i & A & _). rewrite A. exact (proj1 (register_mixin_mono _ _ _ _ _ HE Hr) _ _ A).
  - simpl in Hs. unfold forget in Hs. injection Hs as <- _. destruct (unregister_mixin w d0 m) eqn:Hr. simpl.
    destruct (unregister_mixin_feats _ _ _ _ _ HE Hr) as [-> _]. auto.
Qed.

Lemma built_ft_ok w a d t ms : (forall m d, w_mdom w m = Some d -> forall x, In x (m_features (e_mixin E m)) -> freg w d (ff_info x)) ->
  build_type E (w_fid w) (w_mid w) (w_mdom w) a d ms = Ok t -> ft_ok E (w_fid w) (t_mixins t) (t_ftable t).
Proof.
  intros Hm H. apply build_type_ok in H. destruct H as (-> & _ & _ & _ & _ & _ & Hd & (counts & Hc & Hb) & _).
  destruct (build_ftable_spec E (w_fid w) (w_mid w) ms) as (counts' & Hc' & [(k & _ & Hx)|(_ & ft & Hx & Hok)]).
  - intros i f Hin. apply all_features_in in Hin. destruct Hin as (m & Hn & Hx). destruct (Hm m d) with (x := f) as (j & Hj & _); auto; [|congruence].
    apply Hd. eapply nth_error_In; eauto.
  - congruence.
  - rewrite Hc in Hc'. injection Hc' as <-. rewrite Hb in Hx. injection Hx as <-. auto.
Qed.

Lemma finv_init : FInv (init_world E).
Proof.
  constructor; simpl; [discriminate|]. intros [d|n] t; [|discriminate]. intros [= <-] k. simpl. unfold ft_at. simpl. now destruct k.
Qed.
Lemma features_kept_mixin w o m d x : FInv w -> features_kept E w o -> w_mdom w m = Some d -> In x (m_features (e_mixin E m)) ->
  forall d', o <> DUnregFeature d' (ff_info x).
Proof. intros HF Hk Hm Hx d' ->. simpl in Hk. eapply Hk; eauto. now apply in_map. Qed.
Lemma finv_dstep w o w' r : WInv E w -> FInv w -> features_kept E w o -> dstep E w o = (w', r) -> FInv w'.
Proof.
  intros [HE HT] HF Hk Hs. constructor.
  - intros m d Hm x Hx. rewrite (dstep_mdom E w o w' r HE Hs m) in Hm.
    assert (Hold : w_mdom w m = Some d -> freg w' d (ff_info x)).
    { intros H. eapply dstep_freg; eauto; [eapply features_kept_mixin; eauto|eapply fi_m; eauto]. }
    destruct o; simpl in Hm; auto.
    + destruct r as [y|e|u]; auto. destruct (Nat.eqb_spec m m0) as [->|]; auto. injection Hm as ->. simpl in Hs. unfold forget in Hs.
      destruct (register_mixin E w d m0) as [w1 x1] eqn:Hr. injection Hs as <- Hx1.
      destruct (register_mixin_cases E w d m0 w1 x1 HE Hr) as [(id & w2 & sp & -> & _ & _ & Hf & _ & ->)|(Hne & _)].
      * destruct (register_features_of_ok E _ _ _ _ HE Hf x Hx) as (i & A & B). exists i. simpl. rewrite upd_same. auto.
      * destruct x1 as [[]|?|?]; [|discriminate|discriminate]. congruence.
    + destruct r as [y|e|u]; auto. destruct (Nat.eqb_spec m m0) as [->|]; [discriminate|auto].
  - intros rr t Ht. destruct (dstep_types _ _ _ _ _ _ HE Hs Ht) as [(t0 & H0 & <- & <-)|(a & d & (_ & _ & -> & _) & Hb)].
    + eapply ft_ok_ext; [|eapply (fi_t _ HF); eauto]. intros m x Hin Hx.
      destruct rr as [d|n].
      * destruct (ti_empty _ _ HT d) as [k Hk']. assert (t0 = set_nobj (empty_type d) k) by congruence. subst. destruct Hin.
      * destruct (ti_types _ _ HT _ _ (ti_alive _ _ HT _ _ H0)) as (n' & t' & [= <-] & _ & Ht' & Hok).
        assert (t' = t0) by congruence. subst t'. destruct Hok as (_ & _ & _ & Hd & _). specialize (Hd _ Hin).
        eapply fid_mono; eauto; [eapply fi_m; eauto|eapply features_kept_mixin; eauto].
    + eapply built_ft_ok; eauto. apply (fi_m _ HF).
Qed.
Lemma finv_run tr w : run_where E (features_kept E) tr w -> run E (init_world E) tr w /\ FInv w.
Proof.
  induction 1 as [|tr w o r w' H [IH1 IH2] Hk Hs Hu].
  - split; [constructor|apply finv_init].
  - split; [econstructor; eauto|]. eapply finv_dstep; eauto. eapply winv_run; eauto.
Qed.
End F.
