(** Lemmas behind the theorems about registration *)
From Coq Require Import List Arith ZArith NArith Lia Bool.
From Verif Require Import Base Sv Info Registry TypeMut Rules TypeBuild TypeQuery Domain SpecReg
  BaseLemmas SvProofs RegistryProofs ElemProofs TypesProofs HistProofs.
Import ListNotations.

Section Reg.
Variable E : env.

Lemma run_reachable tr w : run E (init_world E) tr w -> reachable E w.
Proof. intros H. exists tr. auto. Qed.

Lemma mixin_by_id tr w : run E (init_world E) tr w -> forall d i m,
  get_mixin_by_id w d (Some i) = Some m <-> mixin_registered tr m = Some d /\ w_mid w m = Some i.
Proof.
  intros H d i m. assert (HE := einv_run _ _ _ H). rewrite (run_mixins _ _ _ H). unfold get_mixin_by_id. rewrite get_by_id_spec. split.
  - intros Hn. apply (ei_m1 _ _ HE) in Hn. tauto.
  - intros [Hd Hi]. destruct (ei_m2 _ _ HE _ _ Hd) as (i' & Hi' & Hn). congruence.
Qed.
Lemma mixin_id_valid tr w : run E (init_world E) tr w -> forall m, w_mid w m = None <-> mixin_registered tr m = None.
Proof.
  intros H m. assert (HE := einv_run _ _ _ H). rewrite (run_mixins _ _ _ H). split; intros Hx.
  - destruct (w_mdom w m) as [d|] eqn:Hd; auto. destruct (ei_m2 _ _ HE _ _ Hd) as (i & Hi & _). congruence.
  - destruct (w_mid w m) as [i|] eqn:Hi; auto. destruct (ei_m3 _ _ HE _ _ Hi). congruence.
Qed.
Lemma mixin_ids_distinct tr w : run E (init_world E) tr w -> forall d m m',
  mixin_registered tr m = Some d -> mixin_registered tr m' = Some d -> w_mid w m = w_mid w m' -> m = m'.
Proof.
  intros H d m m'. assert (HE := einv_run _ _ _ H). rewrite !(run_mixins _ _ _ H). intros H1 H2 He.
  destruct (ei_m2 _ _ HE _ _ H1) as (i & Hi & Hn), (ei_m2 _ _ HE _ _ H2) as (i' & Hi' & Hn').
  assert (i = i') by congruence. subst. congruence.
Qed.
Lemma mixin_by_name_registered tr w : run E (init_world E) tr w -> forall d nm m,
  get_mixin_by_name E w d nm = Some m -> mixin_registered tr m = Some d /\ sv_bytes (m_name (e_mixin E m)) = nm.
Proof.
  intros H d nm m Hg. assert (HE := einv_run _ _ _ H). apply get_by_name_some in Hg. destruct Hg as [Hin Hnm]. split; auto.
  rewrite (run_mixins _ _ _ H). apply In_nth_error in Hin. destruct Hin as [i Hi]. apply (ei_m1 _ _ HE) in Hi. tauto.
Qed.

Lemma c01 tr w : run E (init_world E) tr w ->
  (forall d i m, get_mixin_by_id w d (Some i) = Some m <-> mixin_registered tr m = Some d /\ w_mid w m = Some i) /\
  (forall d m m', mixin_registered tr m = Some d -> mixin_registered tr m' = Some d -> w_mid w m = w_mid w m' -> m = m') /\
  (forall m, mixin_registered tr m = None ->
     w_mid w m = None /\ forall d, (forall i, get_mixin_by_id w d i <> Some m) /\ (forall nm, get_mixin_by_name E w d nm <> Some m)).
Proof.
  intros H. split; [apply mixin_by_id; auto|]. split; [apply mixin_ids_distinct; auto|].
  intros m Hm. assert (Hi := proj2 (mixin_id_valid _ _ H m) Hm). split; auto. intros d. split.
  - intros [i|]; [|discriminate]. intros Hg. apply (mixin_by_id _ _ H) in Hg. destruct Hg. congruence.
  - intros nm Hg. apply (mixin_by_name_registered _ _ H) in Hg. destruct Hg. congruence.
Qed.

Lemma c02 tr w : run E (init_world E) tr w -> exists cur, features_registered E tr cur /\
  (forall d i f, get_feature_by_id w d (Some i) = Some f <-> cur f = Some d /\ w_fid w f = Some i) /\
  (forall d f f', cur f = Some d -> cur f' = Some d -> w_fid w f = w_fid w f' -> f = f') /\
  (forall f, cur f = None -> w_fid w f = None /\ forall d, (forall i, get_feature_by_id w d i <> Some f) /\ (forall nm, get_feature_by_name E w d nm <> Some f)).
Proof.
  intros H. destruct (run_features _ _ _ H) as (cur & H1 & H2). assert (HE := einv_run _ _ _ H). exists cur. split; auto.
  assert (Hid : forall d i f, get_feature_by_id w d (Some i) = Some f <-> cur f = Some d /\ w_fid w f = Some i).
  { intros d i f. unfold get_feature_by_id. rewrite get_by_id_spec. rewrite (H2 f d). unfold fdom. split.
    - intros Hn. split; eauto. now apply (ei_f1 _ _ HE) in Hn.
    - intros [[j Hj] Hi]. apply (ei_f1 _ _ HE) in Hj as Hj'. congruence. }
  split; auto. split.
  - intros d f f' Hf Hf' He. assert (Hx : exists i, w_fid w f = Some i).
    { apply H2 in Hf. destruct Hf as [i Hi]. apply (ei_f1 _ _ HE) in Hi. eauto. }
    destruct Hx as [i Hi]. assert (Ha := proj2 (Hid d i f) (conj Hf Hi)). rewrite He in Hi. assert (Hb := proj2 (Hid d i f') (conj Hf' Hi)). congruence.
  - intros f Hf. assert (Hi := proj1 (fdoms_fid E w cur f HE H2) Hf). split; auto. intros d. split.
    + intros [i|]; [|discriminate]. rewrite Hid. intros [Hc _]. congruence.
    + intros nm Hg. apply get_by_name_some in Hg. destruct Hg as [Hin _]. apply In_nth_error in Hin.
      assert (cur f = Some d) by (apply H2; auto). congruence.
Qed.

(** what a successful registration does *)
Lemma register_mixin_effect w d m w' : reachable E w -> register_mixin E w d m = (w', Ok tt) ->
  exists id, w_mid w' m = Some id /\
    get_mixin_by_id w d (Some id) = None /\
    (forall j, j < id -> get_mixin_by_id w d (Some j) <> None) /\
    (forall d2 j, get_mixin_by_id w' d2 (Some j) = if (d2 =? d) && (j =? id) then Some m else get_mixin_by_id w d2 (Some j)) /\
    (forall m2, m2 <> m -> w_mid w' m2 = w_mid w m2 /\ w_mdom w' m2 = w_mdom w m2).
Proof.
  intros Hr H. assert (HE := einv_reachable _ _ Hr).
  destruct (register_mixin_cases _ _ _ _ _ _ HE H) as [(id & w1 & sp & _ & Hn & Hdn & Hf & Hb & ->)|[Hne _]]; [|congruence].
  assert (Ho := register_features_of_only E (m_features (e_mixin E m)) w d). rewrite Hf in Ho. simpl in Ho. destruct Ho as (O1 & O2 & _ & _ & O5).
  destruct (O5 d) as (O6 & _). rewrite O1, O6 in Hb.
  assert (Hok : reg_ok (w_mid w) (d_mixins (w_dom w d))) by (intros i p Hp; now apply (ei_m1 _ _ HE) in Hp).
  destruct (basic_register_ok _ _ _ _ _ _ _ Hok Hb) as (B1 & B2 & B3 & B4 & B5 & B6).
  exists id. simpl. rewrite upd_same. split; auto. split; [|split; [|split]].
  - unfold get_mixin_by_id, get_by_id. destruct B5 as [-> | ->]; auto.
  - intros j Hj. destruct (B6 _ Hj) as [p Hp]. unfold get_mixin_by_id, get_by_id. rewrite Hp. discriminate.
  - intros d2 j. unfold get_mixin_by_id. simpl. unfold upd. destruct (Nat.eqb_spec d2 d) as [->|]; simpl.
    + destruct (Nat.eqb_spec j id) as [->|]; [now rewrite B3|]. now rewrite B4.
    + destruct (O5 d2) as (-> & _). auto.
  - intros m2 Hm. rewrite !upd_other by auto. now rewrite O1, O2.
Qed.
Lemma register_feature_effect w d f w' : reachable E w -> register_feature E w d f = (w', Ok tt) ->
  exists id, w_fid w' f = Some id /\
    get_feature_by_id w d (Some id) = None /\
    (forall j, j < id -> get_feature_by_id w d (Some j) <> None) /\
    (forall d2 j, get_feature_by_id w' d2 (Some j) = if (d2 =? d) && (j =? id) then Some f else get_feature_by_id w d2 (Some j)) /\
    (forall f2, f2 <> f -> w_fid w' f2 = w_fid w f2).
Proof.
  intros Hr H. assert (HE := einv_reachable _ _ Hr).
  destruct (register_feature_cases E w d f HE) as [(sp & id & He & Hb)|(e & He)]; rewrite He in H; [|discriminate].
  injection H as <-.
  destruct (basic_register_ok _ _ _ _ _ _ _ (ei_f1 _ _ HE d) Hb) as (B1 & B2 & B3 & B4 & B5 & B6).
  exists id. simpl. rewrite upd_same. split; auto. split; [|split; [|split]].
  - unfold get_feature_by_id, get_by_id. destruct B5 as [-> | ->]; auto.
  - intros j Hj. destruct (B6 _ Hj) as [p Hp]. unfold get_feature_by_id, get_by_id. rewrite Hp. discriminate.
  - intros d2 j. unfold get_feature_by_id. simpl. unfold upd. destruct (Nat.eqb_spec d2 d) as [->|]; simpl; auto.
    destruct (Nat.eqb_spec j id) as [->|]; [now rewrite B3|]. now rewrite B4.
  - intros f2 Hf. now rewrite upd_other.
Qed.

(** ids only change at their own unregistration *)
Lemma mid_stable w o w' r m i : reachable E w -> dstep E w o = (w', r) -> w_mid w m = Some i ->
  w_mid w' m = Some i \/ exists d, o = DUnregMixin d m /\ r = Ok None.
Proof.
  intros Hr Hs Hm. assert (HE := einv_reachable _ _ Hr). destruct o; simpl in Hs; unfold forget, retty in Hs; injection Hs as <- <-.
  - left. destruct (register_feature_only E w d f) as (-> & _). auto.
  - left. unfold unregister_feature. destruct (basic_unregister _ _ _); auto.
  - left. destruct (register_mixin E w d m0) as [w1 r1] eqn:H. simpl.
    destruct (register_mixin_cases _ _ _ _ _ _ HE H) as [(id & w2 & sp & _ & Hn & Hdn & Hf & Hb & ->)|(Hne & (-> & _))]; auto.
    assert (Ho := register_features_of_only E (m_features (e_mixin E m0)) w d). rewrite Hf in Ho. simpl in Ho. destruct Ho as (O1 & _).
    simpl. rewrite upd_other by congruence. now rewrite O1.
  - destruct (unregister_mixin w d m0) as [w1 r1] eqn:H. simpl.
    destruct (unregister_mixin_cases _ _ _ _ _ _ HE H) as [(w2 & id & Hp & -> & _ & _ & ->)|[(-> & Hp & _)|(Hu & ->)]]; simpl; auto.
    + destruct (Nat.eq_dec m m0) as [->|Hne]; [right; eauto|left]. rewrite upd_other by auto.
      apply same_elems_purge in Hp. destruct Hp as (-> & _). auto.
    + left. apply same_elems_purge in Hp. destruct Hp as (-> & _). auto.
  - left. unfold register_type_class. destruct (register_tc _ _ _); auto.
  - auto.
  - left. unfold add_rule. destruct (r_apply _); auto. destruct (rules_incr _ _ _); auto.
  - left. unfold remove_rule. destruct (rules_decr _ _ _) as [[? ?]| |]; auto.
  - left. destruct (same_elems_get_type E alloc_ok w d q) as (-> & _). auto.
  - left. destruct (same_elems_get_type_mut E alloc_ok w d dm q) as (-> & _). auto.
  - left. unfold gc. destruct (existsb _ _); auto.
  - left. unfold incr_nobj. destruct (w_type w r0); auto.
  - left. unfold decr_nobj. destruct (w_type w r0); auto. destruct (t_nobj t); auto.
Qed.
Lemma fid_stable w o w' r f i : reachable E w -> dstep E w o = (w', r) -> w_fid w f = Some i ->
  w_fid w' f = Some i \/ exists d, o = DUnregFeature d f /\ r = Ok None.
Proof.
  intros Hr Hs Hm. assert (HE := einv_reachable _ _ Hr). destruct o; simpl in Hs; unfold forget, retty in Hs; injection Hs as <- <-.
  - left. apply (register_feature_mono E w d f0 HE). auto.
  - unfold unregister_feature. destruct (basic_unregister _ _ _); auto. simpl.
    destruct (Nat.eq_dec f f0) as [->|Hne]; [right; eauto|left]. now rewrite upd_other.
  - left. destruct (register_mixin E w d m) as [w1 r1] eqn:H. simpl. unfold register_mixin in H.
    destruct (match w_mdom w m with Some d' => negb (d' =? d) | None => false end); [now injection H as <- <-|].
    assert (Ho := register_features_of_mono E (m_features (e_mixin E m)) w d HE).
    destruct (register_features_of E w d (m_features (e_mixin E m))) as [w2 [[]|e|u]]; simpl in Ho; destruct Ho as [Ho _];
      try (injection H as <- <-; auto; fail).
    destruct (basic_register _ _ _ _ _) as [[sp id]|e|u]; injection H as <- <-; simpl; auto.
  - left. destruct (unregister_mixin w d m) as [w1 r1] eqn:H. simpl.
    destruct (unregister_mixin_cases _ _ _ _ _ _ HE H) as [(w2 & id & Hp & -> & _ & _ & ->)|[(-> & Hp & _)|(Hu & ->)]]; simpl; auto.
    + apply same_elems_purge in Hp. destruct Hp as (_ & _ & -> & _). auto.
    + apply same_elems_purge in Hp. destruct Hp as (_ & _ & -> & _). auto.
  - left. unfold register_type_class. destruct (register_tc _ _ _); auto.
  - auto.
  - left. unfold add_rule. destruct (r_apply _); auto. destruct (rules_incr _ _ _); auto.
  - left. unfold remove_rule. destruct (rules_decr _ _ _) as [[? ?]| |]; auto.
  - left. destruct (same_elems_get_type E alloc_ok w d q) as (_ & _ & -> & _). auto.
  - left. destruct (same_elems_get_type_mut E alloc_ok w d dm q) as (_ & _ & -> & _). auto.
  - left. unfold gc. destruct (existsb _ _); auto.
  - left. unfold incr_nobj. destruct (w_type w r0); auto.
  - left. unfold decr_nobj. destruct (w_type w r0); auto. destruct (t_nobj t); auto.
Qed.

Lemma c03_mixin w d m w' : reachable E w -> register_mixin E w d m = (w', Ok tt) ->
  (exists id, w_mid w' m = Some id /\ get_mixin_by_id w d (Some id) = None /\
     (forall j, j < id -> get_mixin_by_id w d (Some j) <> None)) /\
  (forall m2, m2 <> m -> w_mid w' m2 = w_mid w m2).
Proof. intros Hr H. destruct (register_mixin_effect _ _ _ _ Hr H) as (id & H1 & H2 & H3 & _ & H5). split; eauto. intros m2 Hm. now apply H5. Qed.
Lemma c03_feature w d f w' : reachable E w -> register_feature E w d f = (w', Ok tt) ->
  (exists id, w_fid w' f = Some id /\ get_feature_by_id w d (Some id) = None /\
     (forall j, j < id -> get_feature_by_id w d (Some j) <> None)) /\
  (forall f2, f2 <> f -> w_fid w' f2 = w_fid w f2).
Proof. intros Hr H. destruct (register_feature_effect _ _ _ _ Hr H) as (id & H1 & H2 & H3 & _ & H5). split; eauto. Qed.

(** names *)
Lemma c04_mixin tr w d : run E (init_world E) tr w -> s_dup_mixins (e_settings E d) = false ->
  (forall m, mixin_registered tr m = Some d -> sv_bytes (m_name (e_mixin E m)) <> []) /\
  (forall m m', mixin_registered tr m = Some d -> mixin_registered tr m' = Some d ->
     sv_bytes (m_name (e_mixin E m)) = sv_bytes (m_name (e_mixin E m')) -> m = m') /\
  (forall nm m, get_mixin_by_name E w d nm = Some m <-> mixin_registered tr m = Some d /\ sv_bytes (m_name (e_mixin E m)) = nm) /\
  (forall nm, get_mixin_by_name E w d nm = None <-> forall m, mixin_registered tr m = Some d -> sv_bytes (m_name (e_mixin E m)) <> nm).
Proof.
  intros H Hdup. assert (HE := einv_run _ _ _ H). assert (Hn := ei_n1 _ _ HE d). unfold names_ok in Hn. rewrite Hdup in Hn. destruct (Hn eq_refl) as [N1 N2].
  assert (Hin : forall m, mixin_registered tr m = Some d <-> In (Some m) (d_mixins (w_dom w d))).
  { intros m. rewrite (run_mixins _ _ _ H). split.
    - intros Hd. destruct (ei_m2 _ _ HE _ _ Hd) as (i & _ & Hi). eapply nth_error_In; eauto.
    - intros Hx. apply In_nth_error in Hx. destruct Hx as [i Hi]. now apply (ei_m1 _ _ HE) in Hi. }
  assert (Huniq : forall m m', mixin_registered tr m = Some d -> mixin_registered tr m' = Some d ->
     sv_bytes (m_name (e_mixin E m)) = sv_bytes (m_name (e_mixin E m')) -> m = m').
  { intros m m' Hm Hm' He. apply Hin in Hm, Hm'. apply In_nth_error in Hm, Hm'. destruct Hm as [i Hi], Hm' as [j Hj].
    assert (i = j) by (eapply N2; eauto). subst. congruence. }
  assert (Hnone : forall nm, get_mixin_by_name E w d nm = None <-> forall m, mixin_registered tr m = Some d -> sv_bytes (m_name (e_mixin E m)) <> nm).
  { intros nm. split.
    - intros Hg m Hm. apply Hin in Hm. eapply get_by_name_none in Hg; eauto.
    - intros Hx. destruct (get_mixin_by_name E w d nm) as [m|] eqn:Hg; auto. apply (mixin_by_name_registered _ _ H) in Hg. destruct Hg. exfalso. eapply Hx; eauto. }
  split; [|split; [|split]]; auto.
  - intros m Hm. apply N1. now apply Hin.
  - intros nm m. split; [apply mixin_by_name_registered; auto|].
    intros [Hm Hnm]. destruct (get_mixin_by_name E w d nm) as [m'|] eqn:Hg.
    + apply (mixin_by_name_registered _ _ H) in Hg. destruct Hg as [Hm' Hnm']. f_equal. apply Huniq; auto. congruence.
    + exfalso. eapply (proj1 (Hnone nm)); eauto.
Qed.
Lemma c04_feature w d : reachable E w -> s_dup_features (e_settings E d) = false ->
  (forall i f, get_feature_by_id w d (Some i) = Some f -> sv_bytes (f_name (e_feature E f)) <> []) /\
  (forall i i' f f', get_feature_by_id w d (Some i) = Some f -> get_feature_by_id w d (Some i') = Some f' ->
     sv_bytes (f_name (e_feature E f)) = sv_bytes (f_name (e_feature E f')) -> f = f') /\
  (forall nm f, get_feature_by_name E w d nm = Some f <->
     (exists i, get_feature_by_id w d (Some i) = Some f) /\ sv_bytes (f_name (e_feature E f)) = nm) /\
  (forall nm, get_feature_by_name E w d nm = None <->
     forall i f, get_feature_by_id w d (Some i) = Some f -> sv_bytes (f_name (e_feature E f)) <> nm).
Proof.
  intros Hr Hdup. assert (HE := einv_reachable _ _ Hr). assert (Hn := ei_n2 _ _ HE d). unfold names_ok in Hn. rewrite Hdup in Hn. destruct (Hn eq_refl) as [N1 N2].
  assert (Huniq : forall i i' f f', get_feature_by_id w d (Some i) = Some f -> get_feature_by_id w d (Some i') = Some f' ->
     sv_bytes (f_name (e_feature E f)) = sv_bytes (f_name (e_feature E f')) -> f = f').
  { intros i i' f f' H1 H2 He. apply get_by_id_spec in H1, H2. assert (i = i') by (eapply N2; eauto). subst. congruence. }
  assert (Hsome : forall nm f, get_feature_by_name E w d nm = Some f -> (exists i, get_feature_by_id w d (Some i) = Some f) /\ sv_bytes (f_name (e_feature E f)) = nm).
  { intros nm f Hg. apply get_by_name_some in Hg. destruct Hg as [Hin Hg]. split; auto. apply In_nth_error in Hin. destruct Hin as [i Hi].
    exists i. now apply get_by_id_spec. }
  assert (Hnone : forall nm, get_feature_by_name E w d nm = None <->
     forall i f, get_feature_by_id w d (Some i) = Some f -> sv_bytes (f_name (e_feature E f)) <> nm).
  { intros nm. split.
    - intros Hg i f Hi. apply get_by_id_spec in Hi. apply (get_by_name_none _ _ _ Hg f). eapply nth_error_In; eauto.
    - intros Hx. destruct (get_feature_by_name E w d nm) as [f|] eqn:Hg; auto. apply Hsome in Hg. destruct Hg as [[i Hi] Hg]. exfalso. eapply Hx; eauto. }
  split; [|split; [|split]]; auto.
  - intros i f Hi. apply get_by_id_spec in Hi. apply N1. eapply nth_error_In; eauto.
  - intros nm f. split; auto. intros [[i Hi] Hnm]. destruct (get_feature_by_name E w d nm) as [f'|] eqn:Hg.
    + apply Hsome in Hg. destruct Hg as [[i' Hi'] Hg]. f_equal. eapply Huniq; eauto. congruence.
    + exfalso. eapply (proj1 (Hnone nm)); eauto.
Qed.

(** failures *)
Lemma c05_register w d m w' e : reachable E w -> register_mixin E w d m = (w', Throw e) ->
  w_mid w' = w_mid w /\ w_mdom w' = w_mdom w /\ w_type w' = w_type w /\
  forall d2, d_mixins (w_dom w' d2) = d_mixins (w_dom w d2) /\ d_types (w_dom w' d2) = d_types (w_dom w d2) /\
    d_queries (w_dom w' d2) = d_queries (w_dom w d2).
Proof.
  intros Hr H. assert (HE := einv_reachable _ _ Hr).
  destruct (register_mixin_cases _ _ _ _ _ _ HE H) as [(id & w1 & sp & He & _)|(_ & H1 & H2 & H3 & H4 & H5)]; [discriminate|].
  split; auto. split; auto. split; auto. intros d2. destruct (H5 d2) as (? & ? & ? & ? & ?). auto.
Qed.
Lemma c05_unregister_feature w d f w' e : unregister_feature w d f = (w', Throw e) -> w' = w.
Proof. unfold unregister_feature. destruct (basic_unregister _ _ _); congruence. Qed.
(** for a mixin which is registered nowhere: only stored queries naming it are dropped *)
Lemma filter_true {A} (f : A -> bool) l : (forall x, In x l -> f x = true) -> filter f l = l.
Proof. induction l as [|x l IH]; simpl; auto. intros H. rewrite H by auto. now rewrite IH by auto. Qed.
Lemma filter_false {A} (f : A -> bool) l : (forall x, In x l -> f x = false) -> filter f l = [].
Proof. induction l as [|x l IH]; simpl; auto. intros H. rewrite H by auto. apply IH; auto. Qed.
Lemma ref_has_none w r : ref_has_id w None r = false.
Proof. unfold ref_has_id. destruct (w_type w r); auto. Qed.
Lemma c05_unregister_mixin w d m w' e : reachable E w -> w_mdom w m = None -> unregister_mixin w d m = (w', Throw e) ->
  w_mid w' = w_mid w /\ w_mdom w' = w_mdom w /\ w_fid w' = w_fid w /\ (forall r, w_type w' r = w_type w r) /\
  forall d2, d_mixins (w_dom w' d2) = d_mixins (w_dom w d2) /\ d_features (w_dom w' d2) = d_features (w_dom w d2) /\
    d_types (w_dom w' d2) = d_types (w_dom w d2) /\ d_rules (w_dom w' d2) = d_rules (w_dom w d2) /\
    d_queries (w_dom w' d2) = if d2 =? d then filter (fun q => negb (memb m (fst q))) (d_queries (w_dom w d2)) else d_queries (w_dom w d2).
Proof.
  intros Hr Hm H. assert (HE := einv_reachable _ _ Hr).
  destruct (unregister_mixin_cases _ _ _ _ _ _ HE H) as [(w2 & id & Hp & ? & _)|[(_ & Hp & _)|(Hu & ->)]]; try discriminate; [|destruct Hu].
  assert (Hmid : w_mid w m = None). { destruct (w_mid w m) eqn:Hi; auto. destruct (ei_m3 _ _ HE _ _ Hi). congruence. }
  unfold purge_types in Hp. rewrite Hmid in Hp. destruct (existsb _ (d_queries (w_dom w d))); [discriminate|].
  destruct (existsb _ (filter _ _)); [discriminate|]. injection Hp as <-. simpl.
  split; auto. split; auto. split; auto. split.
  - intros r. rewrite filter_false by (intros; apply ref_has_none). reflexivity.
  - intros d2. unfold upd. destruct (Nat.eqb_spec d2 d) as [->|]; simpl; auto 6.
    split; auto. split; auto. split; [apply filter_true; intros; now rewrite ref_has_none|]. split; auto.
    apply filter_ext. intros q. now rewrite ref_has_none.
Qed.

(** unregister after register *)
Lemma purge_ok w d m : TInv E w -> (forall r t, In r (d_types (w_dom w d)) -> w_type w r = Some t -> type_has_id t (w_mid w m) = false) ->
  exists w1, purge_types w d m = Ok w1.
Proof.
  intros HT Hno. unfold purge_types. destruct (existsb (fun q => dangling w (snd q)) (d_queries (w_dom w d))) eqn:Hd.
  { exfalso. apply existsb_exists in Hd. destruct Hd as ([q r] & Hin & Hd). unfold dangling in Hd. simpl in Hd.
    destruct (ti_queries _ _ HT _ _ _ Hin) as [->|Hr].
    - destruct (ti_empty _ _ HT d) as [k Hk]. rewrite Hk in Hd. discriminate.
    - destruct (ti_types _ _ HT _ _ Hr) as (n & t & _ & _ & Ht & _). rewrite Ht in Hd. discriminate. }
  rewrite (filter_false (ref_has_id w (w_mid w m))); [simpl; eauto|].
  intros r Hr. unfold ref_has_id. destruct (w_type w r) eqn:Ht; auto. eauto.
Qed.
Lemma get_by_name_app_none name nm s : get_by_name name nm (s ++ [None]) = get_by_name name nm s.
Proof. induction s as [|[p|] s IH]; simpl; auto. destruct (bytes_eqb _ _); auto. Qed.
Lemma set_nth_app_last {A} (s : list A) x y : set_nth (length s) y (s ++ [x]) = s ++ [y].
Proof. induction s; simpl; auto. now rewrite IHs. Qed.

Lemma c06 w d m w1 w2 r : reachable E w -> register_mixin E w d m = (w1, Ok tt) -> unregister_mixin w1 d m = (w2, r) ->
  r = Ok tt /\ w_mid w2 m = None /\ w_mdom w2 m = None /\
  (forall d2 i, get_mixin_by_id w2 d2 i = get_mixin_by_id w d2 i) /\
  (forall d2 nm, get_mixin_by_name E w2 d2 nm = get_mixin_by_name E w d2 nm) /\
  (forall m2, w_mid w2 m2 = w_mid w m2) /\
  exists w3, register_mixin E w2 d m = (w3, Ok tt) /\ w_mid w3 m = w_mid w1 m.
Proof.
  intros Hr H Hu. assert (HE := einv_reachable _ _ Hr). assert (HT := proj2 (winv_reachable _ _ Hr)).
  assert (HE1 := einv_register_mixin _ _ _ _ _ _ HE H). assert (HT1 := tinv_register_mixin _ _ _ _ _ _ HE HT H).
  destruct (register_mixin_effect _ _ _ _ Hr H) as (id & A1 & A2 & A3 & A4 & A5).
  assert (Hall := register_mixin_cases _ _ _ _ _ _ HE H).
  destruct Hall as [(id' & w0 & sp & _ & Hn & Hdn & Hf & Hb & Hw1)|[Hne _]]; [|congruence].
  assert (Ho := register_features_of_only E (m_features (e_mixin E m)) w d).
  assert (Hmono := register_features_of_ok E (m_features (e_mixin E m)) w d w0 HE Hf).
  rewrite Hf in Ho. simpl in Ho. destruct Ho as (O1 & O2 & O3 & O4 & O5). destruct (O5 d) as (O6 & _ & _ & O7 & O8).
  assert (Hid : id' = id). { rewrite Hw1 in A1. simpl in A1. rewrite upd_same in A1. congruence. } subst id'.
  assert (Hmd : w_mdom w1 m = Some d) by (rewrite Hw1; simpl; apply upd_same).
  destruct (ei_m2 _ _ HE1 _ _ Hmd) as (id' & Hi' & Hn'). assert (id' = id) by congruence. subst id'.
  destruct (purge_ok w1 d m HT1) as [wp Hp].
  { intros rr t Hin Ht. destruct (type_has_id t (w_mid w1 m)) eqn:Hh; auto. exfalso.
    destruct (ti_types _ _ HT1 _ _ Hin) as (n & t' & _ & _ & Ht' & Hok). rewrite Ht in Ht'. injection Ht' as <-.
    apply (type_has_id_mixin E w1 d t m HE1 Hok Hmd) in Hh.
    assert (Hin0 : In rr (d_types (w_dom w d))). { rewrite Hw1 in Hin. simpl in Hin. rewrite upd_same in Hin. simpl in Hin. now rewrite O7 in Hin. }
    assert (Ht0 : w_type w rr = Some t) by (rewrite Hw1 in Ht; simpl in Ht; now rewrite O3 in Ht).
    destruct (ti_types _ _ HT _ _ Hin0) as (n' & t' & _ & _ & Ht' & Hok'). rewrite Ht0 in Ht'. injection Ht' as <-.
    destruct Hok' as (_ & _ & _ & Hok' & _). specialize (Hok' m Hh). congruence. }
  assert (Hs := same_elems_purge _ _ _ _ Hp). destruct Hs as (S1 & S2 & S3 & S4).
  destruct (unregister_mixin_cases _ _ _ _ _ _ HE1 Hu) as [(wp' & id' & Hp' & Hrr & B1 & B2 & Hw2)|[(_ & _ & Hx)|(Hx & ->)]].
  2:{ congruence. }
  2:{ exfalso. unfold unregister_mixin in Hu. rewrite Hp in Hu. unfold unregister_mixin_elem in Hu.
      destruct (S4 d) as [S5 _]. rewrite S1, S5, (basic_unregister_complete _ _ _ _ Hi' Hn') in Hu. injection Hu as _ <-. destruct Hx. }
  rewrite Hp in Hp'. injection Hp' as <-. assert (id' = id) by congruence. subst id'. split; auto.
  assert (Hmid2 : forall m2, w_mid w2 m2 = w_mid w m2).
  { intros m2. rewrite Hw2. simpl. rewrite S1. unfold upd. destruct (Nat.eqb_spec m2 m) as [->|Hne]; auto. now apply A5. }
  split; [rewrite Hmid2; auto|]. split; [rewrite Hw2; simpl; apply upd_same|].
  (* the slots: as before, up to a trailing empty one *)
  assert (Hok : reg_ok (w_mid w) (d_mixins (w_dom w d))) by (intros i p Hpp; now apply (ei_m1 _ _ HE) in Hpp).
  assert (Hslots : d_mixins (w_dom w2 d) = d_mixins (w_dom w d) \/ d_mixins (w_dom w2 d) = d_mixins (w_dom w d) ++ [None]).
  { rewrite Hw2. simpl. rewrite upd_same. simpl. rewrite Hw1. simpl. rewrite upd_same. simpl.
    rewrite O1, O6 in Hb. destruct (basic_register_ok _ _ _ _ _ _ _ Hok Hb) as (C1 & C2 & _).
    rewrite basic_register_complete in Hb by auto. destruct (scan_fwd (d_mixins (w_dom w d)) 0) as [i|] eqn:Hsf; injection Hb as <- <-.
    - left. rewrite set_nth_set_nth. apply set_nth_id. apply scan_fwd_some in Hsf. destruct Hsf as (_ & Hsf & _). now rewrite Nat.sub_0_r in Hsf.
    - right. apply set_nth_app_last. }
  assert (Hoth : forall d2, d2 <> d -> d_mixins (w_dom w2 d2) = d_mixins (w_dom w d2)).
  { intros d2 Hd. rewrite Hw2. simpl. rewrite upd_other by auto. destruct (S4 d2) as [-> _]. rewrite Hw1. simpl. rewrite upd_other by auto. apply O5. }
  split; [|split; [|split; [exact Hmid2|]]].
  - intros d2 [i|]; [|reflexivity]. unfold get_mixin_by_id, get_by_id. destruct (Nat.eq_dec d2 d) as [->|Hd]; [|now rewrite Hoth].
    destruct Hslots as [-> | ->]; auto. destruct (Nat.lt_ge_cases i (length (d_mixins (w_dom w d)))).
    + now rewrite nth_error_app1.
    + rewrite nth_error_app2 by auto. rewrite (proj2 (nth_error_None (d_mixins (w_dom w d)) i)) by auto.
      destruct (i - _) as [|[|k]]; auto.
  - intros d2 nm. unfold get_mixin_by_name. destruct (Nat.eq_dec d2 d) as [->|Hd]; [|now rewrite Hoth].
    destruct Hslots as [-> | ->]; auto. apply get_by_name_app_none.
  - unfold register_mixin.
    assert (Hmd2 : w_mdom w2 m = None) by (rewrite Hw2; simpl; apply upd_same). rewrite Hmd2.
    assert (Hff : forall fs, (forall x, In x fs -> In x (m_features (e_mixin E m))) -> register_features_of E w2 d fs = (w2, Ok tt)).
    { induction fs as [|x fs IH]; intros Hsub; simpl; auto. destruct (Hmono x) as (i & Hi1 & Hi2); [apply Hsub; simpl; auto|].
      assert (Hfid : w_fid w2 = w_fid w0) by (rewrite Hw2; simpl; rewrite S3, Hw1; reflexivity).
      assert (Hfd : d_features (w_dom w2 d) = d_features (w_dom w0 d)).
      { rewrite Hw2. simpl. rewrite upd_same. simpl. destruct (S4 d) as [_ ->]. rewrite Hw1. simpl. rewrite upd_same. reflexivity. }
      rewrite Hfid, Hi1, Hfd, Hi2, Nat.eqb_refl. apply IH. intros y Hy. apply Hsub. simpl. auto. }
    rewrite Hff by auto. rewrite A1.
    assert (Hok2 : reg_ok (w_mid w2) (d_mixins (w_dom w2 d))).
    { intros i p Hpp. rewrite Hmid2. destruct Hslots as [Hsl|Hsl]; rewrite Hsl in Hpp; [apply Hok; auto|].
      destruct (Nat.lt_ge_cases i (length (d_mixins (w_dom w d)))).
      - rewrite nth_error_app1 in Hpp by auto. apply Hok; auto.
      - rewrite nth_error_app2 in Hpp by auto. destruct (i - _) as [|[|k]]; discriminate. }
    rewrite O1, O6 in Hb. destruct (basic_register_ok _ _ _ _ _ _ _ Hok Hb) as (C1 & C2 & C3 & C4 & C5 & C6).
    assert (C2' : negb (s_dup_mixins (e_settings E d)) = true -> sv_bytes (mname E m) <> [] /\
       (forall p, In (Some p) (d_mixins (w_dom w2 d)) -> sv_bytes (mname E p) <> sv_bytes (mname E m))).
    { intros Hx. destruct (C2 Hx) as [D1 D2]. split; auto. intros p Hin. apply D2. destruct Hslots as [Hsl|Hsl]; rewrite Hsl in Hin; auto.
      apply in_app_iff in Hin. simpl in Hin. destruct Hin as [|[|[]]]; [auto|discriminate]. }
    rewrite (basic_register_complete _ _ _ _ _ Hok2 (eq_trans (Hmid2 m) Hn) C2').
    assert (Hfwd : match scan_fwd (d_mixins (w_dom w2 d)) 0 with None => length (d_mixins (w_dom w2 d)) | Some i => i end = id).
    { rewrite basic_register_complete in Hb by auto.
      destruct Hslots as [-> | ->].
      - destruct (scan_fwd (d_mixins (w_dom w d)) 0); injection Hb as _ <-; auto.
      - rewrite scan_fwd_app. destruct (scan_fwd (d_mixins (w_dom w d)) 0); injection Hb as _ <-; auto. }
    destruct (scan_fwd (d_mixins (w_dom w2 d)) 0) as [i|]; eexists; (split; [reflexivity|]); simpl; rewrite upd_same; congruence.
Qed.

(** type classes *)
Lemma c07 tr w d : run E (init_world E) tr w ->
  (forall nm c, get_type_class E w d nm = Some c <-> tc_registered tr d c = true /\ sv_bytes (c_name (e_tc E c)) = nm) /\
  (forall nm t, (exists b, is_of E t (get_type_class E w d nm) = Ok b) \/
     (is_of E t (get_type_class E w d nm) = Throw EUnknownTypeClass /\ forall c, tc_registered tr d c = true -> sv_bytes (c_name (e_tc E c)) <> nm)) /\
  (forall nm t b, is_of E t (get_type_class E w d nm) = Ok b ->
     exists c f, tc_registered tr d c = true /\ sv_bytes (c_name (e_tc E c)) = nm /\ c_matches (e_tc E c) = Some f /\ b = f (t_mixins t)).
Proof.
  intros H. destruct (run_tcs _ _ _ d H) as (T1 & T2 & T3).
  assert (Hg : forall nm c, get_type_class E w d nm = Some c <-> tc_registered tr d c = true /\ sv_bytes (c_name (e_tc E c)) = nm).
  { intros nm c. unfold get_type_class. split.
    - intros Hg. apply get_by_name_some in Hg. rewrite T1. auto.
    - intros [Hc Hnm]. rewrite T1 in Hc. destruct (get_by_name _ nm (d_tcs (w_dom w d))) as [c'|] eqn:Hg.
      + apply get_by_name_some in Hg. destruct Hg as [Hin Hg]. apply In_nth_error in Hin, Hc. destruct Hin as [i Hi], Hc as [j Hj].
        assert (i = j) by (eapply T2; eauto; congruence). subst. congruence.
      + exfalso. eapply get_by_name_none in Hg; eauto. }
  split; auto. split.
  - intros nm t. destruct (get_type_class E w d nm) as [c|] eqn:Hc; simpl.
    + left. apply Hg in Hc. destruct Hc as [Hc _]. apply T1 in Hc. destruct (T3 _ Hc) as [Hm _].
      destruct (c_matches (e_tc E c)); [eauto|congruence].
    + right. split; auto. intros c Hr Hnm. assert (get_type_class E w d nm = Some c) by (apply Hg; auto). congruence.
  - intros nm t b. destruct (get_type_class E w d nm) as [c|] eqn:Hc; simpl; [|discriminate].
    apply Hg in Hc. destruct (c_matches (e_tc E c)) as [f|] eqn:Hm; [|discriminate]. intros [= <-]. exists c, f. tauto.
Qed.

(** one domain *)
Lemma c08 tr w : run E (init_world E) tr w ->
  (forall m d d' i i', get_mixin_by_id w d i = Some m -> get_mixin_by_id w d' i' = Some m -> d = d' /\ i = i') /\
  (forall m, w_mdom w m = mixin_registered tr m) /\
  (forall m d0 d, mixin_registered tr m = Some d0 -> ~ is_ok (snd (register_mixin E w d m))) /\
  (forall m d0 d, mixin_registered tr m = Some d0 ->
     (d <> d0 \/ forall x, In x (m_features (e_mixin E m)) -> exists i, get_feature_by_id w d i = Some (ff_info x)) ->
     register_mixin E w d m = (w, Throw (if d =? d0 then EIdRegistered else EInfoHasDomain))).
Proof.
  intros H. assert (HE := einv_run _ _ _ H). split; [|split; [|split]].
  - intros m d d' [i|] [i'|]; try discriminate. rewrite !(mixin_by_id _ _ H). intros [H1 H2] [H3 H4]. split; congruence.
  - intros m. now rewrite (run_mixins _ _ _ H).
  - intros m d0 d Hm. rewrite (run_mixins _ _ _ H) in Hm. destruct (register_mixin E w d m) as [w' r] eqn:Hr. simpl.
    destruct (register_mixin_cases _ _ _ _ _ _ HE Hr) as [(id & w1 & sp & _ & Hn & Hdn & _)|[Hne _]]; [congruence|].
    destruct r as [[]| |]; simpl; auto.
  - intros m d0 d Hm Hx. rewrite (run_mixins _ _ _ H) in Hm. unfold register_mixin. rewrite Hm, (Nat.eqb_sym d0 d).
    destruct (Nat.eqb_spec d d0) as [->|Hd]; simpl; auto. destruct Hx as [Hx|Hx]; [congruence|].
    assert (Hff : forall fs, (forall x, In x fs -> In x (m_features (e_mixin E m))) -> register_features_of E w d0 fs = (w, Ok tt)).
    { induction fs as [|x fs IH]; intros Hsub; simpl; auto. destruct (Hx x) as ([i|] & Hi); [apply Hsub; simpl; auto| |discriminate].
      apply get_by_id_spec in Hi. rewrite (ei_f1 _ _ HE _ _ _ Hi), Hi, Nat.eqb_refl. apply IH. intros y Hy. apply Hsub. simpl. auto. }
    rewrite Hff by auto. destruct (ei_m2 _ _ HE _ _ Hm) as (i & Hi & _). unfold basic_register. now rewrite Hi.
Qed.

End Reg.
