(** The registries agree with the history of calls *)
From Coq Require Import List Arith ZArith NArith Lia Bool.
From Verif Require Import Base Sv Info Registry TypeMut Rules TypeBuild TypeQuery Domain SpecReg
  BaseLemmas SvProofs RegistryProofs ElemProofs TypesProofs.
Import ListNotations.

Ltac dmatch := repeat match goal with |- context [match ?x with _ => _ end] => destruct x end; auto.

Section Hist.
Variable E : env.

(** *** what each operation does to the mixins *)
Lemma register_mixin_cases w d m w' r : EInv E w -> register_mixin E w d m = (w', r) ->
  (exists id w1 sp,
     r = Ok tt /\ w_mid w m = None /\ w_mdom w m = None /\
     register_features_of E w d (m_features (e_mixin E m)) = (w1, Ok tt) /\
     basic_register (mname E) (w_mid w1) (d_mixins (w_dom w1 d)) (negb (s_dup_mixins (e_settings E d))) m = Ok (sp, id) /\
     w' = {| w_mid := upd (w_mid w1) m (Some id); w_mdom := upd (w_mdom w1) m (Some d); w_fid := w_fid w1;
             w_dom := upd (w_dom w1) d (with_mixins (w_dom w1 d) sp); w_type := w_type w1; w_next := w_next w1 |}) \/
  (r <> Ok tt /\ only_features w w').
Proof.
  intros HE. unfold register_mixin.
  destruct (match w_mdom w m with Some d' => negb (d' =? d) | None => false end) eqn:Hdom.
  { intros [= <- <-]. right. split; [discriminate|apply only_features_refl]. }
  assert (Ho := register_features_of_only E (m_features (e_mixin E m)) w d).
  destruct (register_features_of E w d (m_features (e_mixin E m))) as [w1 [[]|e|u]] eqn:Hf; simpl in *;
    try (intros [= <- <-]; right; split; [discriminate|auto]; fail).
  destruct (basic_register _ _ _ _ _) as [[sp id]|e|u] eqn:Hb; intros [= <- <-];
    try (right; split; [discriminate|auto]; fail).
  left. exists id, w1, sp. destruct Ho as (O1 & O2 & _).
  assert (Hn : w_mid w m = None).
  { rewrite <- O1. unfold basic_register in Hb. destruct (w_mid w1 m); [discriminate|auto]. }
  split; [auto|]. split; [auto|]. split; [|auto].
  destruct (w_mdom w m) as [d'|] eqn:Hd; auto. destruct (ei_m2 _ _ HE _ _ Hd) as (i & Hi & _). congruence.
Qed.

Lemma unregister_mixin_cases w d m w' r : EInv E w -> unregister_mixin w d m = (w', r) ->
  (exists w1 id, purge_types w d m = Ok w1 /\ r = Ok tt /\ w_mid w m = Some id /\ nth_error (d_mixins (w_dom w d)) id = Some (Some m) /\
     w' = {| w_mid := upd (w_mid w1) m None; w_mdom := upd (w_mdom w1) m None; w_fid := w_fid w1;
        w_dom := upd (w_dom w1) d (with_mixins (w_dom w1 d) (set_nth id None (d_mixins (w_dom w d)))); w_type := w_type w1; w_next := w_next w1 |}) \/
  (r = Throw EUnregForeign /\ purge_types w d m = Ok w' /\ w_mdom w m <> Some d) \/
  (is_ub r /\ w' = w).
Proof.
  intros HE. unfold unregister_mixin. destruct (purge_types w d m) as [w1|e|u] eqn:Hp.
  - assert (Hs := same_elems_purge _ _ _ _ Hp). destruct Hs as (S1 & S2 & S3 & S4). destruct (S4 d) as [S5 _].
    unfold unregister_mixin_elem. rewrite S1, S5. destruct (basic_unregister _ _ _) as [sp|e|u] eqn:Hb.
    + intros [= <- <-]. left. apply basic_unregister_ok in Hb. destruct Hb as (id & B1 & B2 & ->).
      exists w1, id. rewrite S1. auto 6.
    + intros [= <- <-]. right. left.
      assert (He : e = EUnregForeign).
      { unfold basic_unregister in Hb. destruct (w_mid w m); [|congruence].
        destruct (nth_error _ _) as [[p|]|]; try congruence. destruct (p =? m); congruence. }
      subst e. split; auto. split; auto. intros Hd. destruct (ei_m2 _ _ HE _ _ Hd) as (i & Hi & Hn).
      eapply basic_unregister_throw; eauto.
    + exfalso. eapply (basic_unregister_not_ub (w_mid w) (d_mixins (w_dom w d)) m). rewrite Hb. exact I.
  - exfalso. eapply purge_not_throw; eauto.
  - intros [= <- <-]. right. right. simpl. auto.
Qed.

Lemma dstep_mdom w o w' r : EInv E w -> dstep E w o = (w', r) ->
  forall m, w_mdom w' m = mixin_step (w_mdom w) (o, r) m.
Proof.
  intros HE Hs m. destruct o; simpl in Hs |- *; unfold forget, retty in Hs; injection Hs as <- <-.
  - assert (H := register_feature_only E w d f). destruct H as (_ & -> & _). dmatch.
  - unfold unregister_feature. destruct (basic_unregister _ _ _); auto.
  - destruct (register_mixin E w d m0) as [w' r] eqn:Hr. simpl.
    destruct (register_mixin_cases _ _ _ _ _ HE Hr) as [(id & w1 & sp & -> & _ & _ & Hf & _ & ->)|(Hne & Ho)]; simpl.
    + unfold upd. destruct (m =? m0); auto. assert (H := register_features_of_only E (m_features (e_mixin E m0)) w d).
      rewrite Hf in H. simpl in H. destruct H as (_ & -> & _). auto.
    + destruct Ho as (_ & -> & _). destruct r as [[]| |]; congruence.
  - destruct (unregister_mixin w d m0) as [w' r] eqn:Hr. simpl.
    destruct (unregister_mixin_cases _ _ _ _ _ HE Hr) as [(w1 & id & Hp & -> & _ & _ & ->)|[(-> & Hp & _)|(Hu & ->)]]; simpl.
    + unfold upd. destruct (m =? m0); auto. apply same_elems_purge in Hp. destruct Hp as (_ & -> & _). auto.
    + apply same_elems_purge in Hp. destruct Hp as (_ & -> & _). auto.
    + destruct r as [[]| |]; simpl in *; tauto.
  - unfold register_type_class. destruct (register_tc _ _ _); auto.
  - auto.
  - unfold add_rule. destruct (r_apply _); auto. destruct (rules_incr _ _ _); auto.
  - unfold remove_rule. destruct (rules_decr _ _ _) as [[? ?]| |]; auto.
  - destruct (same_elems_get_type E alloc_ok w d q) as (_ & -> & _). dmatch.
  - destruct (same_elems_get_type_mut E alloc_ok w d dm q) as (_ & -> & _). dmatch.
  - unfold gc. destruct (existsb _ _); auto.
  - unfold incr_nobj. destruct (w_type w r0); auto.
  - unfold decr_nobj. destruct (w_type w r0); auto. destruct (t_nobj t); auto.
Qed.

Lemma mixin_step_ext cur cur' c : (forall m, cur m = cur' m) -> forall m, mixin_step cur c m = mixin_step cur' c m.
Proof. intros H m. destruct c as [[] []]; simpl; auto; dmatch. Qed.
Lemma run_mixins tr w : run E (init_world E) tr w -> forall m, mixin_registered tr m = w_mdom w m.
Proof.
  intros H. remember (init_world E) as w0. induction H; subst; intros m; auto.
  unfold mixin_registered. rewrite fold_left_app. simpl fold_left.
  rewrite (dstep_mdom w1 o w2 r); auto; [|eapply einv_run; eauto].
  apply (mixin_step_ext (mixin_registered tr) (w_mdom w1) (o, r)). apply IHrun; auto.
Qed.

(** *** features *)
(** in which domain a feature is registered, by the state *)
Definition fdom (w : world) (d : dptr) (f : fptr) : Prop := exists i, nth_error (d_features (w_dom w d)) i = Some (Some f).
Definition fdoms (w : world) (cur : fptr -> option dptr) : Prop := forall f d, cur f = Some d <-> fdom w d f.

Lemma fdoms_fid w cur f : EInv E w -> fdoms w cur -> (cur f = None <-> w_fid w f = None).
Proof.
  intros HE Hc. split; intros H.
  - destruct (w_fid w f) as [i|] eqn:Hf; auto. destruct (ei_f2 _ _ HE _ _ Hf) as [d Hd].
    assert (cur f = Some d) by (apply Hc; exists i; auto). congruence.
  - destruct (cur f) as [d|] eqn:Hd; auto. apply Hc in Hd. destruct Hd as [i Hi]. apply (ei_f1 _ _ HE) in Hi. congruence.
Qed.
Lemma fdoms_register w d f w' r cur : EInv E w -> fdoms w cur -> register_feature E w d f = (w', r) ->
  (r = Ok tt /\ cur f = None /\ fdoms w' (fun y => if y =? f then Some d else cur y)) \/ ((exists e, r = Throw e) /\ w' = w).
Proof.
  intros HE Hc H. destruct (register_feature_cases E w d f HE) as [(sp & id & He & Hb)|(e & He)]; rewrite He in H; injection H as <- <-; eauto.
  left. split; auto.
  destruct (basic_register_ok _ _ _ _ _ _ _ (ei_f1 _ _ HE d) Hb) as (B1 & B2 & B3 & B4 & B5 & B6).
  assert (Hn : cur f = None) by (now apply (fdoms_fid w)). split; auto.
  intros g d2. unfold fdom. simpl.
  destruct (Nat.eqb_spec g f) as [->|Hne].
  - split.
    + intros [= <-]. exists id. rewrite upd_same. auto.
    + intros [i Hi]. unfold upd in Hi. destruct (Nat.eqb_spec d2 d) as [->|]; auto.
      apply (ei_f1 _ _ HE) in Hi. congruence.
  - rewrite (Hc g d2). unfold fdom, upd. destruct (Nat.eqb_spec d2 d) as [->|]; [|tauto]. simpl. split; intros [i Hi]; exists i.
    + rewrite B4; auto. intros ->. destruct B5; congruence.
    + destruct (Nat.eq_dec i id) as [->|]; [congruence|]. rewrite B4 in Hi; auto.
Qed.
Lemma fdoms_ext w cur cur' : (forall f, cur f = cur' f) -> fdoms w cur -> fdoms w cur'.
Proof. intros He H f d. rewrite <- He. apply H. Qed.
Lemma add_features_ext cur cur' d fs : (forall f, cur f = cur' f) -> forall f, add_features cur d fs f = add_features cur' d fs f.
Proof. intros H f. unfold add_features. now rewrite H. Qed.

Lemma fdoms_features_of fs : forall w d w' r cur, EInv E w -> fdoms w cur -> register_features_of E w d fs = (w', r) -> ~ is_ub r ->
  (r = Ok tt /\ fdoms w' (add_features cur d (map ff_info fs))) \/
  (exists e n, r = Throw e /\ fdoms w' (add_features cur d (firstn n (map ff_info fs)))).
Proof.
  induction fs as [|f fs IH]; intros w d w' r cur HE Hc; simpl.
  - intros [= <- <-] _. left. split; auto. eapply fdoms_ext; [|eauto]. intros f. unfold add_features. destruct (cur f); auto.
  - destruct (w_fid w (ff_info f)) as [i|] eqn:Hf.
    + destruct (nth_error (d_features (w_dom w d)) i) as [[p|]|] eqn:Hn; try (intros [= <- <-] Hu; simpl in Hu; tauto).
      destruct (Nat.eqb_spec p (ff_info f)) as [->|]; [|intros [= <- <-] Hu; simpl in Hu; tauto].
      intros Hr Hu. assert (Hcf : cur (ff_info f) = Some d) by (apply Hc; exists i; auto).
      assert (Hx : forall l g, add_features cur d l g = add_features cur d (ff_info f :: l) g).
      { intros l g. unfold add_features. destruct (cur g) eqn:Hg; auto. simpl. destruct (Nat.eqb_spec g (ff_info f)); [congruence|auto]. }
      destruct (IH _ _ _ _ _ HE Hc Hr Hu) as [[-> H]|(e & n & -> & H)].
      * left. split; auto. eapply fdoms_ext; eauto.
      * right. exists e, (S n). split; auto. eapply fdoms_ext; [|eauto]. intros g. simpl. apply Hx.
    + destruct (register_feature E w d (ff_info f)) as [w1 r1] eqn:Hr1.
      assert (HE1 := einv_register_feature _ _ _ _ _ _ HE Hr1).
      destruct (fdoms_register _ _ _ _ _ _ HE Hc Hr1) as [(-> & Hcf & H1)|([e ->] & ->)].
      * intros Hr Hu.
        assert (Hx : forall l g, add_features (fun y => if y =? ff_info f then Some d else cur y) d l g = add_features cur d (ff_info f :: l) g).
        { intros l g. unfold add_features. simpl. destruct (Nat.eqb_spec g (ff_info f)) as [->|Hne].
          - now rewrite Hcf.
          - destruct (cur g); auto. }
        destruct (IH _ _ _ _ _ HE1 H1 Hr Hu) as [[-> H]|(e & n & -> & H)].
        -- left. split; auto. eapply fdoms_ext; [|eauto]. apply Hx.
        -- right. exists e, (S n). split; auto. eapply fdoms_ext; [|eauto]. intros g. simpl. apply Hx.
      * intros [= <- <-] _. right. exists e, 0. split; auto. eapply fdoms_ext; [|eauto]. intros g. unfold add_features. simpl. destruct (cur g); auto.
Qed.

Lemma fdoms_same w w' cur : (forall d, d_features (w_dom w' d) = d_features (w_dom w d)) -> fdoms w cur -> fdoms w' cur.
Proof. intros H Hc f d. unfold fdom. rewrite H. apply Hc. Qed.

Lemma fdoms_dstep w tr cur o w' r : EInv E w -> dstep E w o = (w', r) -> ~ is_ub r ->
  features_registered E tr cur -> fdoms w cur -> exists cur', features_registered E (tr ++ [(o, r)]) cur' /\ fdoms w' cur'.
Proof.
  intros HE Hs Hu Hreg Hc.
  assert (Hother : (forall d f x, (o, r) <> (DRegFeature d f, Ok x)) -> (forall d f x, (o, r) <> (DUnregFeature d f, Ok x)) ->
    (forall d m, o <> DRegMixin d m) -> (forall d, d_features (w_dom w' d) = d_features (w_dom w d)) ->
    exists cur', features_registered E (tr ++ [(o, r)]) cur' /\ fdoms w' cur').
  { intros H1 H2 H3 H4. exists cur. split; [apply fr_other; auto|eapply fdoms_same; eauto]. }
  destruct o; simpl in Hs; unfold forget, retty in Hs; injection Hs as Hw Hr;
    try (apply Hother; [congruence|congruence|congruence|intros d2; subst w'; auto]).
  - destruct (register_feature E w d f) as [w1 r1] eqn:Hr1. simpl in Hw, Hr. subst w1.
    destruct (fdoms_register _ _ _ _ _ _ HE Hc Hr1) as [(-> & Hcf & H1)|([e ->] & ->)]; subst r.
    + eexists. split; [apply fr_reg; eauto|auto].
    + apply Hother; congruence.
  - unfold unregister_feature in Hw, Hr. destruct (basic_unregister _ _ _) as [sp|e|u] eqn:Hb; simpl in Hw, Hr; subst w' r;
      try (apply Hother; congruence).
    eexists. split; [apply fr_unreg; eauto|].
    apply basic_unregister_ok in Hb. destruct Hb as (id & B1 & B2 & ->). intros g d2. unfold fdom. simpl.
    destruct (Nat.eqb_spec g f) as [->|Hne].
    + split; [discriminate|]. intros [i Hi]. exfalso. unfold upd in Hi. destruct (Nat.eqb_spec d2 d) as [->|Hd].
      * simpl in Hi. apply nth_error_set_none in Hi. destruct Hi as [Hii Hi]. apply (ei_f1 _ _ HE) in Hi. congruence.
      * apply Hd. eapply (ei_f3 _ _ HE); eauto.
    + rewrite (Hc g d2). unfold fdom, upd. destruct (Nat.eqb_spec d2 d) as [->|]; [|tauto]. simpl. split; intros [i Hi]; exists i.
      * rewrite nth_error_set_nth_other; auto. congruence.
      * apply nth_error_set_none in Hi. tauto.
  - clear Hother. destruct (register_mixin E w d m) as [w1 r1] eqn:Hr1. simpl in Hw, Hr. subst w1.
    destruct (register_mixin_cases _ _ _ _ _ HE Hr1) as [(id & w1 & sp & -> & _ & _ & Hf & _ & ->)|(Hne & Ho)].
    + destruct (fdoms_features_of _ _ _ _ _ _ HE Hc Hf (fun x => x)) as [[_ H]|(e & n & He & _)]; [|discriminate].
      subst r. eexists. split; [apply fr_mixin; eauto|]. eapply fdoms_same; [|eauto]. intros d2. simpl. unfold upd.
      destruct (Nat.eqb_spec d2 d) as [->|]; auto.
    + unfold register_mixin in Hr1.
      destruct (match w_mdom w m with Some d' => negb (d' =? d) | None => false end).
      { injection Hr1 as <- <-. subst r. eexists. split; [eapply (fr_mixin_throw _ _ _ _ _ _ 0); eauto|].
        eapply fdoms_ext; [|eauto]. intros g. unfold add_features. simpl. destruct (cur g); auto. }
      destruct (register_features_of E w d (m_features (e_mixin E m))) as [w1 x] eqn:Hf.
      destruct x as [[]|e|u].
      * destruct (fdoms_features_of _ _ _ _ _ _ HE Hc Hf (fun x => x)) as [[_ H]|(e & n & He & _)]; [|discriminate].
        destruct (basic_register _ _ _ _ _) as [[sp id]|e|u]; injection Hr1 as <- <-; [congruence| |subst r; simpl in Hu; tauto].
        subst r. eexists. split; [eapply (fr_mixin_throw _ _ _ _ _ _ (length (map ff_info (m_features (e_mixin E m))))); eauto|].
        rewrite firstn_all. auto.
      * injection Hr1 as <- <-.
        destruct (fdoms_features_of _ _ _ _ _ _ HE Hc Hf (fun x => x)) as [[He _]|(e' & n & He & H)]; [discriminate|].
        injection He as <-. subst r. eexists. split; [eapply (fr_mixin_throw _ _ _ _ _ _ n); eauto|auto].
      * injection Hr1 as <- <-. subst r. simpl in Hu. tauto.
  - destruct (unregister_mixin w d m) as [w1 r1] eqn:Hr1. simpl.
    destruct (unregister_mixin_cases _ _ _ _ _ HE Hr1) as [(w2 & id & Hp & -> & _ & _ & ->)|[(-> & Hp & _)|(Hu' & ->)]]; simpl; auto.
    + apply same_elems_purge in Hp. destruct Hp as (_ & _ & _ & Hp). destruct (Hp d2) as [_ <-].
      unfold upd. destruct (Nat.eqb_spec d2 d) as [->|]; auto.
    + apply same_elems_purge in Hp. destruct Hp as (_ & _ & _ & Hp). apply Hp.
  - unfold register_type_class. destruct (register_tc _ _ _); auto. simpl. unfold upd. destruct (Nat.eqb_spec d2 d) as [->|]; auto.
  - simpl. unfold upd. destruct (Nat.eqb_spec d2 d) as [->|]; auto.
  - unfold add_rule. destruct (r_apply _); auto. destruct (rules_incr _ _ _). simpl. unfold upd. destruct (Nat.eqb_spec d2 d) as [->|]; auto.
  - unfold remove_rule. destruct (rules_decr _ _ _) as [[? ?]| |]; auto. simpl. unfold upd. destruct (Nat.eqb_spec d2 d) as [->|]; auto.
  - destruct (same_elems_get_type E alloc_ok w d q) as (_ & _ & _ & H). apply H.
  - destruct (same_elems_get_type_mut E alloc_ok w d dm q) as (_ & _ & _ & H). apply H.
  - unfold gc. destruct (existsb _ _); auto. simpl. unfold upd. destruct (Nat.eqb_spec d2 d) as [->|]; auto.
  - unfold incr_nobj. destruct (w_type w r0); auto.
  - unfold decr_nobj. destruct (w_type w r0); auto. destruct (t_nobj t); auto.
Qed.
Lemma run_features tr w : run E (init_world E) tr w -> exists cur, features_registered E tr cur /\ fdoms w cur.
Proof.
  intros H. remember (init_world E) as w0. induction H; subst.
  - exists (fun _ => None). split; [constructor|]. intros f d. split; [discriminate|]. intros [[|i] Hi]; discriminate.
  - destruct IHrun as (cur & Hc1 & Hc2); auto. eapply fdoms_dstep; eauto. eapply einv_run; eauto.
Qed.

(** *** type classes *)
Definition tcs_ok (s : list (option cptr)) (cur : cptr -> bool) : Prop :=
  (forall c, cur c = true <-> In (Some c) s) /\
  (forall i j c c', nth_error s i = Some (Some c) -> nth_error s j = Some (Some c') ->
     sv_bytes (c_name (e_tc E c)) = sv_bytes (c_name (e_tc E c')) -> i = j) /\
  (forall c, In (Some c) s -> c_matches (e_tc E c) <> None /\ sv_bytes (c_name (e_tc E c)) <> []).

Lemma scan_tc_free name nm rs : forall b, scan_tc name nm rs true = Ok b -> b = true.
Proof. induction rs as [|[c|] rs IH]; simpl; intros b; [congruence| |auto]. destruct (sv_eqb _ _); [discriminate|auto]. Qed.
Lemma scan_tc_ok name nm rs : forall free b, scan_tc name nm rs free = Ok b ->
  (forall c, In (Some c) rs -> sv_bytes (name c) <> sv_bytes nm) /\ (b = false -> ~ In None rs).
Proof.
  induction rs as [|[c|] rs IH]; simpl; intros free b.
  - intros [= <-]. tauto.
  - destruct (sv_eqb_spec (name c) nm); [discriminate|]. intros H. apply IH in H. destruct H as [H1 H2]. split.
    + intros c' [[= <-]|Hin]; auto.
    + intros Hb [[=]|Hin]. now apply H2.
  - intros H. assert (Hb := scan_tc_free _ _ _ _ H). apply IH in H. destruct H as [H1 H2]. split.
    + intros c' [[=]|Hin]; auto.
    + congruence.
Qed.

Lemma tcs_register s cur c s' : tcs_ok s cur -> register_tc (e_tc E) s c = Ok s' -> tcs_ok s' (fun y => if y =? c then true else cur y).
Proof.
  intros (H1 & H2 & H3). unfold register_tc. destruct (sv_empty _) eqn:Hem; [discriminate|].
  destruct (c_matches (e_tc E c)) as [f|] eqn:Hm; [|discriminate].
  destruct (scan_tc _ _ _ _) as [[]|e|u] eqn:Hs; simpl; try discriminate. intros [= <-].
  apply scan_tc_ok in Hs. destruct Hs as [Hs1 Hs2]. assert (Hs1' : forall x, In (Some x) s -> sv_bytes (c_name (e_tc E x)) <> sv_bytes (c_name (e_tc E c))).
  { intros x Hx. apply Hs1. now rewrite <- in_rev. }
  assert (Hne : sv_bytes (c_name (e_tc E c)) <> []) by (intros Hx; apply sv_empty_spec in Hx; congruence).
  split; [|split].
  - intros x. rewrite in_app_iff. simpl. destruct (Nat.eqb_spec x c) as [->|Hx]; [tauto|]. rewrite H1. intuition congruence.
  - assert (Hn : forall i x, nth_error (s ++ [Some c]) i = Some (Some x) -> (i = length s /\ x = c) \/ nth_error s i = Some (Some x)).
    { intros i x Hi. destruct (Nat.lt_ge_cases i (length s)).
      - rewrite nth_error_app1 in Hi by auto. auto.
      - rewrite nth_error_app2 in Hi by auto. destruct (i - length s) as [|k] eqn:Hk; simpl in Hi.
        + injection Hi as <-. left. split; auto. lia.
        + destruct k; discriminate. }
    intros i j x y Hi Hj He. destruct (Hn _ _ Hi) as [[-> ->]|Hi'], (Hn _ _ Hj) as [[-> ->]|Hj']; auto.
    + exfalso. apply (Hs1' y); auto. eapply nth_error_In; eauto.
    + exfalso. apply (Hs1' x); auto. eapply nth_error_In; eauto.
    + eauto.
  - intros x Hin. rewrite in_app_iff in Hin. simpl in Hin. destruct Hin as [Hin|[[= <-]|[]]]; auto. split; congruence.
Qed.
Lemma unregister_tc_nth s c : (exists i, nth_error s i = Some (Some c) /\ unregister_tc s c = set_nth i None s) \/ (~ In (Some c) s /\ unregister_tc s c = s).
Proof.
  induction s as [|[p|] s IH]; simpl.
  - right. auto.
  - destruct (Nat.eqb_spec p c) as [->|Hn]; [left; exists 0; auto|].
    destruct IH as [(i & H1 & ->)|[H1 ->]]; [left; exists (S i); auto|right]. split; auto. intros [[=]|]; auto.
  - destruct IH as [(i & H1 & ->)|[H1 ->]]; [left; exists (S i); auto|right]. split; auto. intros [[=]|]; auto.
Qed.
Lemma tcs_unregister s cur c : tcs_ok s cur -> tcs_ok (unregister_tc s c) (fun y => if y =? c then false else cur y).
Proof.
  intros (H1 & H2 & H3). destruct (unregister_tc_nth s c) as [(i & Hi & ->)|[Hno ->]].
  - split; [|split].
    + intros x. destruct (Nat.eqb_spec x c) as [->|Hx].
      * split; [discriminate|]. intros Hin. exfalso. apply In_nth_error in Hin. destruct Hin as [j Hj]. apply nth_error_set_none in Hj.
        destruct Hj as [Hij Hj]. apply Hij. eapply H2; eauto.
      * rewrite H1. split; intros Hin; apply In_nth_error in Hin; destruct Hin as [j Hj].
        -- apply (nth_error_In _ j). rewrite nth_error_set_nth_other; auto. congruence.
        -- apply nth_error_set_none in Hj. eapply nth_error_In. apply Hj.
    + intros a b x y Ha Hb. apply nth_error_set_none in Ha, Hb. apply H2; tauto.
    + intros x Hin. apply In_nth_error in Hin. destruct Hin as [j Hj]. apply nth_error_set_none in Hj. apply H3. eapply nth_error_In. apply Hj.
  - split; [|auto]. intros x. destruct (Nat.eqb_spec x c) as [->|]; auto. split; [discriminate|tauto].
Qed.
Lemma tcs_ok_ext s cur cur' : (forall c, cur c = cur' c) -> tcs_ok s cur -> tcs_ok s cur'.
Proof. intros He (H1 & H2 & H3). split; auto. intros c. rewrite <- He. auto. Qed.

Lemma register_features_of_tcs fs : forall w d d2, d_tcs (w_dom (fst (register_features_of E w d fs)) d2) = d_tcs (w_dom w d2).
Proof. intros w d d2. destruct (register_features_of_only E fs w d) as (_ & _ & _ & _ & H). apply H. Qed.

Lemma purge_dom w d m w1 : purge_types w d m = Ok w1 -> forall d2,
  d_tcs (w_dom w1 d2) = d_tcs (w_dom w d2) /\ d_rules (w_dom w1 d2) = d_rules (w_dom w d2).
Proof.
  unfold purge_types. destruct (existsb _ (d_queries (w_dom w d))); [discriminate|].
  destruct (existsb _ (filter _ _)); [discriminate|]. intros [= <-] d2. simpl. unfold upd. destruct (Nat.eqb_spec d2 d) as [->|]; auto.
Qed.
Lemma insert_type_dom w d q t d2 :
  d_tcs (w_dom (fst (insert_type w d q t)) d2) = d_tcs (w_dom w d2) /\ d_rules (w_dom (fst (insert_type w d q t)) d2) = d_rules (w_dom w d2).
Proof.
  unfold insert_type. destruct (find_type _ _ _); simpl; unfold upd; destruct (Nat.eqb_spec d2 d) as [->|]; auto.
Qed.
Lemma get_type_mut_dom a w d dm q d2 :
  d_tcs (w_dom (fst (get_type_mut E a w d dm q)) d2) = d_tcs (w_dom w d2) /\ d_rules (w_dom (fst (get_type_mut E a w d dm q)) d2) = d_rules (w_dom w d2).
Proof.
  unfold get_type_mut. destruct (negb _); auto.
  destruct (lookup_type E w d q) as [[t|oq ms [t|]]|e|u]; simpl; auto.
  - unfold upd. destruct (Nat.eqb_spec d2 d) as [->|]; auto.
  - destruct (build_type _ _ _ _ _ _ _) as [t|e|u]; simpl; auto.
    assert (H := insert_type_dom w d oq t d2). destruct (insert_type w d oq t). auto.
Qed.
Lemma get_type_dom a w d q d2 :
  d_tcs (w_dom (fst (get_type E a w d q)) d2) = d_tcs (w_dom w d2) /\ d_rules (w_dom (fst (get_type E a w d q)) d2) = d_rules (w_dom w d2).
Proof. unfold get_type. destruct (find_query _ _); auto. apply get_type_mut_dom. Qed.

(** operations that are about something else keep type classes and rules *)
Lemma dstep_dom w o w' r : EInv E w -> dstep E w o = (w', r) -> forall d2,
  ((forall d c, o <> DRegTc d c) -> (forall d c, o <> DUnregTc d c) -> d_tcs (w_dom w' d2) = d_tcs (w_dom w d2)) /\
  ((forall d c, o <> DAddRule d c) -> (forall d c, o <> DRemRule d c) -> d_rules (w_dom w' d2) = d_rules (w_dom w d2)).
Proof.
  intros HE Hs d2. destruct o; simpl in Hs; unfold forget, retty in Hs; injection Hs as <- _.
  - destruct (register_feature_only E w d f) as (_ & _ & _ & _ & H). destruct (H d2) as (_ & -> & -> & _). auto.
  - unfold unregister_feature. destruct (basic_unregister _ _ _); auto. simpl. unfold upd. destruct (Nat.eqb_spec d2 d) as [->|]; auto.
  - destruct (register_mixin E w d m) as [w' r'] eqn:Hr. simpl.
    destruct (register_mixin_cases _ _ _ _ _ HE Hr) as [(id & w1 & sp & -> & _ & _ & Hf & _ & ->)|(Hne & Ho)]; simpl.
    + assert (H := register_features_of_only E (m_features (e_mixin E m)) w d).
      rewrite Hf in H. simpl in H. destruct H as (_ & _ & _ & _ & H). destruct (H d2) as (_ & <- & <- & _). unfold upd. destruct (Nat.eqb_spec d2 d) as [->|]; auto.
    + destruct Ho as (_ & _ & _ & _ & H). destruct (H d2) as (_ & -> & -> & _). auto.
  - destruct (unregister_mixin w d m) as [w' r'] eqn:Hr. simpl.
    destruct (unregister_mixin_cases _ _ _ _ _ HE Hr) as [(w1 & id & Hp & -> & _ & _ & ->)|[(-> & Hp & _)|(Hu & ->)]]; simpl; auto.
    + destruct (purge_dom _ _ _ _ Hp d2) as [<- <-]. unfold upd. destruct (Nat.eqb_spec d2 d) as [->|]; auto.
    + destruct (purge_dom _ _ _ _ Hp d2) as [<- <-]. auto.
  - split; [intros H; exfalso; eapply H; eauto|]. intros _ _. unfold register_type_class. destruct (register_tc _ _ _); auto. simpl. unfold upd. destruct (Nat.eqb_spec d2 d) as [->|]; auto.
  - split; [intros _ H; exfalso; eapply H; eauto|]. intros _ _. simpl. unfold upd. destruct (Nat.eqb_spec d2 d) as [->|]; auto.
  - split; [|intros H; exfalso; eapply H; eauto]. intros _ _. unfold add_rule. destruct (r_apply _); auto. destruct (rules_incr _ _ _). simpl. unfold upd. destruct (Nat.eqb_spec d2 d) as [->|]; auto.
  - split; [|intros _ H; exfalso; eapply H; eauto]. intros _ _. unfold remove_rule. destruct (rules_decr _ _ _) as [[? ?]| |]; auto. simpl. unfold upd. destruct (Nat.eqb_spec d2 d) as [->|]; auto.
  - destruct (get_type_dom alloc_ok w d q d2). auto.
  - destruct (get_type_mut_dom alloc_ok w d dm q d2). auto.
  - unfold gc. destruct (existsb _ _); auto. simpl. unfold upd. destruct (Nat.eqb_spec d2 d) as [->|]; auto.
  - unfold incr_nobj. destruct (w_type w r0); auto.
  - unfold decr_nobj. destruct (w_type w r0); auto. destruct (t_nobj t); auto.
Qed.

Lemma run_tcs tr w d : run E (init_world E) tr w -> tcs_ok (d_tcs (w_dom w d)) (tc_registered tr d).
Proof.
  intros H. remember (init_world E) as w0. induction H; subst.
  - split; [|split].
    + intros c. simpl. split; [discriminate|tauto].
    + intros [|i]; discriminate.
    + simpl. tauto.
  - assert (IH := IHrun eq_refl). clear IHrun. assert (HE := einv_run _ _ _ H).
    unfold tc_registered. rewrite fold_left_app. simpl fold_left. fold (tc_registered tr d).
    destruct (dstep_dom _ _ _ _ HE H0 d) as [Hd _].
    destruct o; try (rewrite Hd by congruence; exact IH); simpl in H0; unfold forget in H0; injection H0 as <- <-; simpl.
    + unfold register_type_class. destruct (register_tc (e_tc E) (d_tcs (w_dom w1 d0)) c) as [s|e|u] eqn:Hr; simpl; auto.
      unfold upd. rewrite (Nat.eqb_sym d d0). destruct (Nat.eqb_spec d0 d) as [->|]; auto. simpl. eapply tcs_register; eauto.
    + unfold upd. rewrite (Nat.eqb_sym d d0). destruct (Nat.eqb_spec d0 d) as [->|]; auto. simpl. apply tcs_unregister; auto.
Qed.
End Hist.
