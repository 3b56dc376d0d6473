(** The invariant of the element registries over all runs *)
From Coq Require Import List Arith ZArith NArith Lia Bool.
From Verif Require Import Base Sv Info Registry TypeMut Rules TypeBuild TypeQuery Domain BaseLemmas SvProofs RegistryProofs.
Import ListNotations.

Section Elem.
Variable E : env.

Definition names_ok (name : nat -> sv) (unique : bool) (s : list (option nat)) : Prop :=
  unique = true ->
  (forall p, In (Some p) s -> sv_bytes (name p) <> []) /\
  (forall i j p q, nth_error s i = Some (Some p) -> nth_error s j = Some (Some q) ->
     sv_bytes (name p) = sv_bytes (name q) -> i = j).

Record EInv (w : world) : Prop := {
  ei_m1 : forall d i m, nth_error (d_mixins (w_dom w d)) i = Some (Some m) -> w_mid w m = Some i /\ w_mdom w m = Some d;
  ei_m2 : forall m d, w_mdom w m = Some d -> exists i, w_mid w m = Some i /\ nth_error (d_mixins (w_dom w d)) i = Some (Some m);
  ei_m3 : forall m i, w_mid w m = Some i -> exists d, w_mdom w m = Some d;
  ei_f1 : forall d i f, nth_error (d_features (w_dom w d)) i = Some (Some f) -> w_fid w f = Some i;
  ei_f2 : forall f i, w_fid w f = Some i -> exists d, nth_error (d_features (w_dom w d)) i = Some (Some f);
  ei_f3 : forall d d' i i' f, nth_error (d_features (w_dom w d)) i = Some (Some f) ->
     nth_error (d_features (w_dom w d')) i' = Some (Some f) -> d = d';
  ei_n1 : forall d, names_ok (mname E) (negb (s_dup_mixins (e_settings E d))) (d_mixins (w_dom w d));
  ei_n2 : forall d, names_ok (fname E) (negb (s_dup_features (e_settings E d))) (d_features (w_dom w d))
}.

Lemma names_ok_register name u s s' id info :
  names_ok name u s ->
  (u = true -> sv_bytes (name info) <> [] /\ forall p, In (Some p) s -> sv_bytes (name p) <> sv_bytes (name info)) ->
  nth_error s' id = Some (Some info) -> (forall j, j <> id -> nth_error s' j = nth_error s j) ->
  names_ok name u s'.
Proof.
  intros Hok Hu Hid Hoth Ht. destruct (Hok Ht) as [H1 H2]. destruct (Hu Ht) as [H3 H4]. split.
  - intros p Hin. apply In_nth_error in Hin. destruct Hin as [i Hi].
    destruct (Nat.eq_dec i id) as [->|Hne]; [congruence|]. rewrite Hoth in Hi by auto. apply H1. eapply nth_error_In; eauto.
  - intros i j p q Hi Hj Heq.
    destruct (Nat.eq_dec i id) as [->|Hi']; destruct (Nat.eq_dec j id) as [->|Hj']; auto.
    + rewrite Hoth in Hj by auto. exfalso. apply (H4 q); [eapply nth_error_In; eauto|congruence].
    + rewrite Hoth in Hi by auto. exfalso. apply (H4 p); [eapply nth_error_In; eauto|congruence].
    + rewrite Hoth in Hi, Hj by auto. eauto.
Qed.
Lemma nth_error_set_none (s : list (option nat)) i j p : nth_error (set_nth i None s) j = Some (Some p) -> i <> j /\ nth_error s j = Some (Some p).
Proof.
  rewrite nth_error_set_nth. destruct (Nat.eqb_spec i j) as [->|]; simpl; auto.
  destruct (Nat.ltb_spec j (length s)); [discriminate|]. intros Hx. apply nth_error_lt in Hx. lia.
Qed.
Lemma names_ok_unregister name u s i : names_ok name u s -> names_ok name u (set_nth i None s).
Proof.
  intros Hok Ht. destruct (Hok Ht) as [H1 H2]. split.
  - intros p Hin. apply In_nth_error in Hin. destruct Hin as [j Hj]. apply nth_error_set_none in Hj.
    apply H1. eapply nth_error_In. apply Hj.
  - intros j k p q Hj Hk. apply nth_error_set_none in Hj, Hk. apply H2; tauto.
Qed.

Lemma einv_init : EInv (init_world E).
Proof.
  constructor; simpl; try discriminate.
  - intros d [|i]; discriminate.
  - intros d [|i]; discriminate.
  - intros d d' [|i]; discriminate.
  - intros d _. split; [simpl; tauto|]. intros [|i]; discriminate.
  - intros d _. split; [simpl; tauto|]. intros [|i]; discriminate.
Qed.

(** all fields of EInv depend only on the element registries *)
Definition same_elems (w w' : world) : Prop :=
  w_mid w' = w_mid w /\ w_mdom w' = w_mdom w /\ w_fid w' = w_fid w /\
  forall d, d_mixins (w_dom w' d) = d_mixins (w_dom w d) /\ d_features (w_dom w' d) = d_features (w_dom w d).
Lemma einv_same w w' : same_elems w w' -> EInv w -> EInv w'.
Proof.
  intros (H1 & H2 & H3 & H4) [A1 A2 A3 A4 A5 A6 A7 A8].
  constructor; try rewrite H1; try rewrite H2; try rewrite H3; intros; try (destruct (H4 d) as [H4a H4b]).
  - rewrite H4a in H. auto.
  - rewrite H4a. auto.
  - eauto.
  - rewrite H4b in H. eauto.
  - destruct (A5 _ _ H) as [d Hd]. exists d. destruct (H4 d) as [_ ->]. auto.
  - destruct (H4 d') as [_ H4d]. rewrite H4b in H. rewrite H4d in H0. eauto.
  - rewrite H4a. auto.
  - rewrite H4b. auto.
Qed.
Lemma same_elems_refl w : same_elems w w.
Proof. repeat split. Qed.

(** register a feature *)
Lemma register_feature_cases w d f : EInv w ->
  (exists sp id,
     register_feature E w d f = ({| w_mid := w_mid w; w_mdom := w_mdom w; w_fid := upd (w_fid w) f (Some id);
        w_dom := upd (w_dom w) d (with_features (w_dom w d) sp); w_type := w_type w; w_next := w_next w |}, Ok tt) /\
     basic_register (fname E) (w_fid w) (d_features (w_dom w d)) (negb (s_dup_features (e_settings E d))) f = Ok (sp, id)) \/
  (exists e, register_feature E w d f = (w, Throw e)).
Proof.
  intros H. unfold register_feature.
  assert (Hnub := basic_register_not_ub (fname E) (w_fid w) (d_features (w_dom w d)) (negb (s_dup_features (e_settings E d))) f).
  destruct (basic_register _ _ _ _ _) as [[sp id]|e|u]; eauto.
  exfalso. apply Hnub; simpl; auto. intros i p. apply (ei_f1 _ H).
Qed.

Lemma einv_register_feature w d f w' r : EInv w -> register_feature E w d f = (w', r) -> EInv w'.
Proof.
  intros HI H. destruct (register_feature_cases w d f HI) as [(sp & id & He & Hb)|(e & He)]; rewrite He in H; injection H as <- <-; auto.
  destruct (basic_register_ok _ _ _ _ _ _ _ (ei_f1 _ HI d) Hb) as (B1 & B2 & B3 & B4 & B5 & B6).
  assert (Hnth : forall d2 i f2, nth_error (d_features (upd (w_dom w) d (with_features (w_dom w d) sp) d2)) i = Some (Some f2) ->
    (d2 = d /\ i = id /\ f2 = f) \/ (f2 <> f /\ nth_error (d_features (w_dom w d2)) i = Some (Some f2))).
  { intros d2 i f2. unfold upd. destruct (Nat.eqb_spec d2 d) as [->|Hd]; simpl.
    - destruct (Nat.eq_dec i id) as [->|Hi].
      + rewrite B3. intros [= <-]. auto.
      + rewrite B4 by auto. intros Hx. right. split; auto. intros ->. apply (ei_f1 _ HI) in Hx. congruence.
    - intros Hx. right. split; auto. intros ->. apply (ei_f1 _ HI) in Hx. congruence. }
  constructor; simpl; try (intros d2; intros; unfold upd in *; destruct (d2 =? d) eqn:?; simpl in *; now eapply (ei_m1 _ HI)).
  - intros d2 i m. unfold upd. destruct (Nat.eqb_spec d2 d) as [->|]; simpl; apply (ei_m1 _ HI).
  - intros m d2 Hm. destruct (ei_m2 _ HI _ _ Hm) as (i & H1 & H2). exists i. split; auto.
    unfold upd. destruct (Nat.eqb_spec d2 d) as [->|]; auto.
  - apply (ei_m3 _ HI).
  - intros d2 i f2 Hx. destruct (Hnth _ _ _ Hx) as [(-> & -> & ->)|(Hne & Hx')].
    + apply upd_same.
    + rewrite upd_other by auto. now apply (ei_f1 _ HI) in Hx'.
  - intros f2 i. unfold upd at 1. destruct (Nat.eqb_spec f2 f) as [->|Hne].
    + intros [= <-]. exists d. rewrite upd_same. auto.
    + intros Hf. destruct (ei_f2 _ HI _ _ Hf) as [d2 Hd2]. exists d2. unfold upd.
      destruct (Nat.eqb_spec d2 d) as [->|]; auto. simpl. rewrite B4; auto. intros ->. destruct B5; congruence.
  - intros d2 d3 i i' f2 H2 H3. destruct (Hnth _ _ _ H2) as [(-> & -> & ->)|(Hne & H2')];
      destruct (Hnth _ _ _ H3) as [(-> & -> & Hff)|(Hne' & H3')]; auto; try congruence.
    eapply (ei_f3 _ HI); eauto.
  - intros d2. unfold upd. destruct (Nat.eqb_spec d2 d) as [->|]; apply (ei_n1 _ HI).
  - intros d2. unfold upd. destruct (Nat.eqb_spec d2 d) as [->|]; [|apply (ei_n2 _ HI)]. simpl.
    eapply names_ok_register; eauto. apply (ei_n2 _ HI).
Qed.

Lemma einv_unregister_feature w d f w' r : EInv w -> unregister_feature w d f = (w', r) -> EInv w'.
Proof.
  intros HI. unfold unregister_feature. destruct (basic_unregister _ _ _) as [sp|e|u] eqn:Hb; intros [= <- <-]; auto.
  apply basic_unregister_ok in Hb. destruct Hb as (id & B1 & B2 & ->).
  constructor; simpl.
  - intros d2 i m. unfold upd. destruct (Nat.eqb_spec d2 d) as [->|]; simpl; apply (ei_m1 _ HI).
  - intros m d2 Hm. destruct (ei_m2 _ HI _ _ Hm) as (i & H1 & H2). exists i. split; auto.
    unfold upd. destruct (Nat.eqb_spec d2 d) as [->|]; auto.
  - apply (ei_m3 _ HI).
  - intros d2 i f2. unfold upd at 1. destruct (Nat.eqb_spec d2 d) as [->|Hd]; simpl; intros Hx.
    + apply nth_error_set_none in Hx. destruct Hx as [Hne Hx]. apply (ei_f1 _ HI) in Hx as Hf.
      rewrite upd_other; auto. congruence.
    + apply (ei_f1 _ HI) in Hx as Hf. rewrite upd_other; auto. intros ->.
      apply Hd. eapply (ei_f3 _ HI); eauto.
  - intros f2 i. unfold upd at 1. destruct (Nat.eqb_spec f2 f) as [->|Hne]; [discriminate|].
    intros Hf. destruct (ei_f2 _ HI _ _ Hf) as [d2 Hd2]. exists d2. unfold upd.
    destruct (Nat.eqb_spec d2 d) as [->|]; auto. simpl. rewrite nth_error_set_nth_other; auto. congruence.
  - intros d2 d3 i i' f2 H2 H3.
    assert (H2' : nth_error (d_features (w_dom w d2)) i = Some (Some f2)).
    { unfold upd in H2. destruct (Nat.eqb_spec d2 d) as [->|]; auto. simpl in H2. apply nth_error_set_none in H2. tauto. }
    assert (H3' : nth_error (d_features (w_dom w d3)) i' = Some (Some f2)).
    { unfold upd in H3. destruct (Nat.eqb_spec d3 d) as [->|]; auto. simpl in H3. apply nth_error_set_none in H3. tauto. }
    eapply (ei_f3 _ HI); eauto.
  - intros d2. unfold upd. destruct (Nat.eqb_spec d2 d) as [->|]; apply (ei_n1 _ HI).
  - intros d2. unfold upd. destruct (Nat.eqb_spec d2 d) as [->|]; [|apply (ei_n2 _ HI)]. simpl.
    apply names_ok_unregister. apply (ei_n2 _ HI).
Qed.

(** what registering features keeps *)
Definition only_features (w w' : world) : Prop :=
  w_mid w' = w_mid w /\ w_mdom w' = w_mdom w /\ w_type w' = w_type w /\ w_next w' = w_next w /\
  forall d, d_mixins (w_dom w' d) = d_mixins (w_dom w d) /\ d_tcs (w_dom w' d) = d_tcs (w_dom w d) /\
    d_rules (w_dom w' d) = d_rules (w_dom w d) /\ d_types (w_dom w' d) = d_types (w_dom w d) /\
    d_queries (w_dom w' d) = d_queries (w_dom w d).
Lemma only_features_refl w : only_features w w.
Proof. repeat split. Qed.
Lemma only_features_trans a b c : only_features a b -> only_features b c -> only_features a c.
Proof.
  intros (A1 & A2 & A3 & A4 & A5) (B1 & B2 & B3 & B4 & B5).
  split; [congruence|]. split; [congruence|]. split; [congruence|]. split; [congruence|].
  intros d. destruct (A5 d) as (? & ? & ? & ? & ?), (B5 d) as (? & ? & ? & ? & ?). repeat split; congruence.
Qed.
Lemma register_feature_only w d f : only_features w (fst (register_feature E w d f)).
Proof.
  unfold register_feature. destruct (basic_register _ _ _ _ _) as [[sp id]|e|u]; try apply only_features_refl.
  simpl. split; [auto|]. split; [auto|]. split; [auto|]. split; [auto|].
  intros d2. simpl. unfold upd. destruct (Nat.eqb_spec d2 d) as [->|]; simpl; repeat split.
Qed.
Lemma register_features_of_only fs : forall w d, only_features w (fst (register_features_of E w d fs)).
Proof.
  induction fs as [|f fs IH]; intros w d; simpl; [apply only_features_refl|].
  destruct (w_fid w (ff_info f)) as [i|].
  - destruct (nth_error _ i) as [[p|]|]; try apply only_features_refl.
    destruct (p =? ff_info f); [apply IH|apply only_features_refl].
  - assert (H := register_feature_only w d (ff_info f)).
    destruct (register_feature E w d (ff_info f)) as [w1 [[]|e|u]]; simpl in *; auto.
    eapply only_features_trans; eauto.
Qed.
Lemma einv_register_features_of fs : forall w d, EInv w -> EInv (fst (register_features_of E w d fs)).
Proof.
  induction fs as [|f fs IH]; intros w d HI; simpl; auto.
  destruct (w_fid w (ff_info f)) as [i|].
  - destruct (nth_error _ i) as [[p|]|]; auto. destruct (p =? ff_info f); auto.
  - destruct (register_feature E w d (ff_info f)) as [w1 [[]|e|u]] eqn:Hr; simpl in *;
      apply einv_register_feature in Hr; auto.
Qed.

(** registered features stay registered with the same id *)
Definition feat_mono (w w' : world) : Prop :=
  (forall f i, w_fid w f = Some i -> w_fid w' f = Some i) /\
  (forall d i f, nth_error (d_features (w_dom w d)) i = Some (Some f) -> nth_error (d_features (w_dom w' d)) i = Some (Some f)).
Lemma feat_mono_refl w : feat_mono w w.
Proof. split; auto. Qed.
Lemma feat_mono_trans a b c : feat_mono a b -> feat_mono b c -> feat_mono a c.
Proof. intros [A1 A2] [B1 B2]. split; auto. Qed.
Lemma register_feature_mono w d f : EInv w -> feat_mono w (fst (register_feature E w d f)).
Proof.
  intros HI. destruct (register_feature_cases w d f HI) as [(sp & id & -> & Hb)|(e & ->)]; [|apply feat_mono_refl].
  destruct (basic_register_ok _ _ _ _ _ _ _ (ei_f1 _ HI d) Hb) as (B1 & B2 & B3 & B4 & B5 & B6).
  split; simpl.
  - intros f2 i Hf. rewrite upd_other; congruence.
  - intros d2 i f2 Hf. unfold upd. destruct (Nat.eqb_spec d2 d) as [->|]; auto. simpl. rewrite B4; auto.
    intros ->. destruct B5; congruence.
Qed.
Lemma register_features_of_mono fs : forall w d, EInv w -> feat_mono w (fst (register_features_of E w d fs)).
Proof.
  induction fs as [|f fs IH]; intros w d HI; simpl; [apply feat_mono_refl|].
  destruct (w_fid w (ff_info f)) as [i|].
  - destruct (nth_error _ i) as [[p|]|]; try apply feat_mono_refl.
    destruct (p =? ff_info f); [apply IH; auto|apply feat_mono_refl].
  - assert (H := register_feature_mono w d (ff_info f) HI).
    destruct (register_feature E w d (ff_info f)) as [w1 [[]|e|u]] eqn:Hr; simpl in *; auto.
    eapply feat_mono_trans; eauto. apply IH. eapply einv_register_feature; eauto.
Qed.
(** on success all of them are registered in the domain *)
Lemma register_features_of_ok fs : forall w d w', EInv w -> register_features_of E w d fs = (w', Ok tt) ->
  forall x, In x fs -> exists i, w_fid w' (ff_info x) = Some i /\ nth_error (d_features (w_dom w' d)) i = Some (Some (ff_info x)).
Proof.
  induction fs as [|f fs IH]; intros w d w' HI; simpl; [tauto|].
  destruct (w_fid w (ff_info f)) as [i|] eqn:Hf.
  - destruct (nth_error (d_features (w_dom w d)) i) as [[p|]|] eqn:Hn; try discriminate.
    destruct (Nat.eqb_spec p (ff_info f)) as [->|]; [|discriminate].
    intros Hr x [<-|Hx]; [|eapply IH; eauto].
    assert (Hm := register_features_of_mono fs w d HI). rewrite Hr in Hm. destruct Hm as [M1 M2]. simpl in *. exists i. auto.
  - destruct (register_feature E w d (ff_info f)) as [w1 [[]|e|u]] eqn:Hr; simpl in *; try discriminate.
    assert (HI1 := einv_register_feature _ _ _ _ _ HI Hr).
    intros Hr2 x [<-|Hx]; [|eapply IH; eauto].
    assert (Hm := register_features_of_mono fs w1 d HI1). rewrite Hr2 in Hm. destruct Hm as [M1 M2]. simpl in *.
    destruct (register_feature_cases w d (ff_info f) HI) as [(sp & id & He & Hb)|(e & He)]; rewrite He in Hr; [|discriminate].
    destruct (basic_register_ok _ _ _ _ _ _ _ (ei_f1 _ HI d) Hb) as (B1 & B2 & B3 & B4 & B5 & B6).
    injection Hr as <-. exists id. split.
    + apply M1. simpl. apply upd_same.
    + apply M2. simpl. rewrite upd_same. auto.
Qed.

Lemma einv_register_mixin w d m w' r : EInv w -> register_mixin E w d m = (w', r) -> EInv w'.
Proof.
  intros HI0. unfold register_mixin.
  destruct (match w_mdom w m with Some d' => negb (d' =? d) | None => false end) eqn:Hdom.
  { now intros [= <- <-]. }
  assert (HI1 := einv_register_features_of (m_features (e_mixin E m)) w d HI0).
  destruct (register_features_of E w d (m_features (e_mixin E m))) as [w1 [[]|e|u]]; simpl in HI1; try (intros [= <- <-]; auto; fail).
  rename HI1 into HI. clear HI0 Hdom w. rename w1 into w.
  destruct (basic_register _ _ _ _ _) as [[sp id]|e|u] eqn:Hb; try (intros [= <- <-]; auto; fail).
  intros [= <- <-].
  assert (Hok : reg_ok (w_mid w) (d_mixins (w_dom w d))) by (intros i p Hp; now apply (ei_m1 _ HI) in Hp).
  destruct (basic_register_ok _ _ _ _ _ _ _ Hok Hb) as (B1 & B2 & B3 & B4 & B5 & B6).
  assert (Hnth : forall d2 i m2, nth_error (d_mixins (upd (w_dom w) d (with_mixins (w_dom w d) sp) d2)) i = Some (Some m2) ->
    (d2 = d /\ i = id /\ m2 = m) \/ (m2 <> m /\ nth_error (d_mixins (w_dom w d2)) i = Some (Some m2))).
  { intros d2 i m2. unfold upd. destruct (Nat.eqb_spec d2 d) as [->|Hd]; simpl.
    - destruct (Nat.eq_dec i id) as [->|Hi].
      + rewrite B3. intros [= <-]. auto.
      + rewrite B4 by auto. intros Hx. right. split; auto. intros ->. apply (ei_m1 _ HI) in Hx. destruct Hx; congruence.
    - intros Hx. right. split; auto. intros ->. apply (ei_m1 _ HI) in Hx. destruct Hx; congruence. }
  constructor; simpl.
  - intros d2 i m2 Hx. destruct (Hnth _ _ _ Hx) as [(-> & -> & ->)|(Hne & Hx')].
    + now rewrite !upd_same.
    + rewrite !upd_other by auto. now apply (ei_m1 _ HI).
  - intros m2 d2. unfold upd at 1. destruct (Nat.eqb_spec m2 m) as [->|Hne].
    + intros [= <-]. exists id. rewrite !upd_same. auto.
    + intros Hm. destruct (ei_m2 _ HI _ _ Hm) as (i & H1 & H2). exists i. rewrite upd_other by auto. split; auto.
      unfold upd. destruct (Nat.eqb_spec d2 d) as [->|]; auto. simpl. rewrite B4; auto. intros ->. destruct B5; congruence.
  - intros m2 i. unfold upd. destruct (Nat.eqb_spec m2 m) as [->|Hne]; eauto. apply (ei_m3 _ HI).
  - intros d2 i f. unfold upd. destruct (Nat.eqb_spec d2 d) as [->|]; simpl; apply (ei_f1 _ HI).
  - intros f i Hf. destruct (ei_f2 _ HI _ _ Hf) as [d2 H2]. exists d2.
    unfold upd. destruct (Nat.eqb_spec d2 d) as [->|]; auto.
  - intros d2 d3 i i' f. unfold upd. destruct (Nat.eqb_spec d2 d) as [->|]; destruct (Nat.eqb_spec d3 d) as [->|]; simpl; apply (ei_f3 _ HI).
  - intros d2. unfold upd. destruct (Nat.eqb_spec d2 d) as [->|]; [|apply (ei_n1 _ HI)]. simpl.
    eapply names_ok_register; eauto. apply (ei_n1 _ HI).
  - intros d2. unfold upd. destruct (Nat.eqb_spec d2 d) as [->|]; apply (ei_n2 _ HI).
Qed.

Lemma same_elems_purge w d m w1 : purge_types w d m = Ok w1 -> same_elems w w1.
Proof.
  unfold purge_types. destruct (existsb _ (d_queries (w_dom w d))); [discriminate|].
  destruct (existsb _ (filter _ _)); [discriminate|]. intros [= <-].
  split; [auto|]. split; [auto|]. split; [auto|]. intros d2. simpl. unfold upd. destruct (Nat.eqb_spec d2 d) as [->|]; auto.
Qed.
Lemma purge_not_throw w d m e : purge_types w d m <> Throw e.
Proof.
  unfold purge_types. destruct (existsb _ (d_queries (w_dom w d))); [discriminate|].
  destruct (existsb _ (filter _ _)); discriminate.
Qed.
Lemma einv_unregister_mixin_elem w d m w' r : EInv w -> unregister_mixin_elem w d m = (w', r) -> EInv w'.
Proof.
  intros HI. unfold unregister_mixin_elem.
  destruct (basic_unregister _ _ _) as [sp|e|u] eqn:Hb; try (intros [= <- <-]; auto; fail).
  intros [= <- <-]. apply basic_unregister_ok in Hb. destruct Hb as (id & B1 & B2 & ->).
  constructor; simpl.
  - intros d2 i m2. unfold upd at 1. destruct (Nat.eqb_spec d2 d) as [->|Hd]; simpl; intros Hx.
    + apply nth_error_set_none in Hx. destruct Hx as [Hne Hx]. apply (ei_m1 _ HI) in Hx.
      assert (m2 <> m) by (intros ->; destruct Hx; congruence). rewrite !upd_other; auto.
    + apply (ei_m1 _ HI) in Hx as Hf. assert (m2 <> m). { intros ->. apply (ei_m1 _ HI) in B2. destruct Hf, B2. congruence. }
      rewrite !upd_other; auto.
  - intros m2 d2. unfold upd at 1. destruct (Nat.eqb_spec m2 m) as [->|Hne]; [discriminate|].
    intros Hm. destruct (ei_m2 _ HI _ _ Hm) as (i & H1 & H2). exists i. rewrite upd_other by auto. split; auto.
    unfold upd. destruct (Nat.eqb_spec d2 d) as [->|]; auto. simpl. rewrite nth_error_set_nth_other; auto.
    intros ->. congruence.
  - intros m2 i. unfold upd. destruct (Nat.eqb_spec m2 m) as [->|Hne]; [discriminate|]. apply (ei_m3 _ HI).
  - intros d2 i f. unfold upd. destruct (Nat.eqb_spec d2 d) as [->|]; simpl; apply (ei_f1 _ HI).
  - intros f i Hf. destruct (ei_f2 _ HI _ _ Hf) as [d2 H2]. exists d2. unfold upd.
    destruct (Nat.eqb_spec d2 d) as [->|]; auto.
  - intros d2 d3 i i' f. unfold upd. destruct (Nat.eqb_spec d2 d) as [->|]; destruct (Nat.eqb_spec d3 d) as [->|]; simpl; apply (ei_f3 _ HI).
  - intros d2. unfold upd. destruct (Nat.eqb_spec d2 d) as [->|]; [|apply (ei_n1 _ HI)]. simpl.
    apply names_ok_unregister. apply (ei_n1 _ HI).
  - intros d2. unfold upd. destruct (Nat.eqb_spec d2 d) as [->|]; apply (ei_n2 _ HI).
Qed.
Lemma einv_unregister_mixin w d m w' r : EInv w -> unregister_mixin w d m = (w', r) -> EInv w'.
Proof.
  intros HI. unfold unregister_mixin.
  destruct (purge_types w d m) as [w1|e|u] eqn:Hp; try (intros [= <- <-]; auto; fail).
  intros H. eapply einv_unregister_mixin_elem; [|exact H]. eapply einv_same; [|exact HI]. eapply same_elems_purge; eauto.
Qed.

Lemma same_elems_set_dom w d s :
  d_mixins s = d_mixins (w_dom w d) -> d_features s = d_features (w_dom w d) -> same_elems w (set_dom w d s).
Proof.
  intros H1 H2. split; [auto|]. split; [auto|]. split; [auto|]. intros d2. simpl. unfold upd.
  destruct (Nat.eqb_spec d2 d) as [->|]; auto.
Qed.
Lemma same_elems_store w d q r : same_elems w (store_found w d q r).
Proof. apply same_elems_set_dom; reflexivity. Qed.
Lemma same_elems_insert w d q t : same_elems w (fst (insert_type w d q t)).
Proof.
  unfold insert_type. destruct (find_type _ _ _); [apply same_elems_store|]. simpl.
  split; [auto|]. split; [auto|]. split; [auto|]. intros d2. simpl. unfold upd. destruct (Nat.eqb_spec d2 d) as [->|]; auto.
Qed.
Lemma same_elems_get_type_mut a w d dm q : same_elems w (fst (get_type_mut E a w d dm q)).
Proof.
  unfold get_type_mut. destruct (negb _); [apply same_elems_refl|].
  destruct (lookup_type E w d q) as [[t|oq ms [t|]]|e|u]; try apply same_elems_refl.
  - apply same_elems_store.
  - destruct (build_type _ _ _ _ _ _ _) as [t|e|u]; try apply same_elems_refl.
    assert (H := same_elems_insert w d oq t). destruct (insert_type w d oq t). auto.
Qed.
Lemma same_elems_get_type a w d q : same_elems w (fst (get_type E a w d q)).
Proof. unfold get_type. destruct (find_query _ _); [apply same_elems_refl|apply same_elems_get_type_mut]. Qed.
Lemma same_elems_with_type w r t : same_elems w (with_type w r t).
Proof. repeat split. Qed.

Lemma einv_dstep w o w' r : EInv w -> dstep E w o = (w', r) -> EInv w'.
Proof.
  intros HI. destruct o; simpl; unfold forget, retty; intros [= <- _].
  - destruct (register_feature E w d f) eqn:H. simpl. eapply einv_register_feature; eauto.
  - destruct (unregister_feature w d f) eqn:H. simpl. eapply einv_unregister_feature; eauto.
  - destruct (register_mixin E w d m) eqn:H. simpl. eapply einv_register_mixin; eauto.
  - destruct (unregister_mixin w d m) eqn:H. simpl. eapply einv_unregister_mixin; eauto.
  - eapply einv_same; [|eauto]. unfold register_type_class. destruct (register_tc _ _ _); try apply same_elems_refl.
    apply same_elems_set_dom; reflexivity.
  - eapply einv_same; [|eauto]. apply same_elems_set_dom; reflexivity.
  - eapply einv_same; [|eauto]. unfold add_rule. destruct (r_apply _); try apply same_elems_refl.
    destruct (rules_incr _ _ _). apply same_elems_set_dom; reflexivity.
  - eapply einv_same; [|eauto]. unfold remove_rule. destruct (rules_decr _ _ _) as [[? ?]| |]; try apply same_elems_refl.
    apply same_elems_set_dom; reflexivity.
  - eapply einv_same; [|eauto]. apply same_elems_get_type.
  - eapply einv_same; [|eauto]. apply same_elems_get_type_mut.
  - eapply einv_same; [|eauto]. unfold gc. destruct (existsb _ _); try apply same_elems_refl.
    split; [auto|]. split; [auto|]. split; [auto|]. intros d2. simpl. unfold upd. destruct (Nat.eqb_spec d2 d) as [->|]; auto.
  - eapply einv_same; [|eauto]. unfold incr_nobj. destruct (w_type w r0); try apply same_elems_refl. apply same_elems_with_type.
  - eapply einv_same; [|eauto]. unfold decr_nobj. destruct (w_type w r0); try apply same_elems_refl. destruct (t_nobj t); try apply same_elems_refl. apply same_elems_with_type.
Qed.

Lemma einv_run tr w' : run E (init_world E) tr w' -> EInv w'.
Proof.
  intros H. remember (init_world E) as w0. induction H; subst.
  - apply einv_init.
  - eapply einv_dstep; eauto.
Qed.
Lemma einv_reachable w : reachable E w -> EInv w.
Proof. intros [tr H]. eapply einv_run; eauto. Qed.

End Elem.
