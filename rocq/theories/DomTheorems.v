(** Lemmas behind the theorems about types and stored queries *)
From Coq Require Import List Arith ZArith NArith Lia Bool.
From Verif Require Import Base Sv Info Registry TypeMut Rules TypeBuild TypeQuery Domain SpecReg SpecDom
  BaseLemmas SvProofs RegistryProofs TypeBuildProofs LayoutProofs ElemProofs TypesProofs HistProofs RegTheorems.
Import ListNotations.

Section Dom.
Variable E : env.

Lemma get_type_mut_same a w d q : get_type_mut E a w d d q = get_type E a w d q.
Proof.
  unfold get_type. destruct (find_query q (d_queries (w_dom w d))) eqn:Hq; auto.
  unfold get_type_mut, lookup_type. rewrite Nat.eqb_refl, Hq. reflexivity.
Qed.

Definition asked (w : world) (d : dptr) (q : list mptr) := apply_rules E (view E w d) (d_rules (w_dom w d)) q.

Inductive gt_case (a : bool) (w : world) (d : dptr) (q : list mptr) : world * res tref -> Prop :=
| gt_stored t : find_query q (d_queries (w_dom w d)) = Some t -> gt_case a w d q (w, Ok t)
| gt_rule_throw e : find_query q (d_queries (w_dom w d)) = None -> asked w d q = Throw e -> gt_case a w d q (w, Throw e)
| gt_rule_ub u : find_query q (d_queries (w_dom w d)) = None -> asked w d q = Ub u -> gt_case a w d q (w, Ub u)
| gt_empty : find_query q (d_queries (w_dom w d)) = None -> asked w d q = Ok (q, []) ->
    gt_case a w d q (store_found w d q (TEmpty d), Ok (TEmpty d))
| gt_found ms r : find_query q (d_queries (w_dom w d)) = None -> asked w d q = Ok (q, ms) -> ms <> [] ->
    find_type w ms (d_types (w_dom w d)) = Some r -> gt_case a w d q (store_found w d q r, Ok r)
| gt_new ms t : find_query q (d_queries (w_dom w d)) = None -> asked w d q = Ok (q, ms) -> ms <> [] ->
    find_type w ms (d_types (w_dom w d)) = None ->
    build_type E (w_fid w) (w_mid w) (w_mdom w) a d ms = Ok t ->
    gt_case a w d q ({| w_mid := w_mid w; w_mdom := w_mdom w; w_fid := w_fid w;
        w_dom := upd (w_dom w) d (with_types (w_dom w d) (d_types (w_dom w d) ++ [TReg (w_next w)]) (store_query q (TReg (w_next w)) (d_queries (w_dom w d))));
        w_type := tupd (w_type w) (TReg (w_next w)) (Some t); w_next := S (w_next w) |}, Ok (TReg (w_next w)))
| gt_throw ms e : find_query q (d_queries (w_dom w d)) = None -> asked w d q = Ok (q, ms) -> ms <> [] ->
    find_type w ms (d_types (w_dom w d)) = None ->
    build_type E (w_fid w) (w_mid w) (w_mdom w) a d ms = Throw e -> gt_case a w d q (w, Throw e)
| gt_ub ms u : find_query q (d_queries (w_dom w d)) = None -> asked w d q = Ok (q, ms) -> ms <> [] ->
    find_type w ms (d_types (w_dom w d)) = None ->
    build_type E (w_fid w) (w_mid w) (w_mdom w) a d ms = Ub u -> gt_case a w d q (w, Ub u).

Ltac gtnames fq ask ne ft bt :=
  try match goal with H : find_query _ _ = _ |- _ => rename H into fq end;
  try match goal with H : asked _ _ _ = _ |- _ => rename H into ask end;
  try match goal with H : _ <> @nil _ |- _ => rename H into ne end;
  try match goal with H : find_type _ _ _ = _ |- _ => rename H into ft end;
  try match goal with H : build_type _ _ _ _ _ _ _ = _ |- _ => rename H into bt end.
Ltac gtinv C := inversion C; subst; gtnames ident:(Hfq) ident:(Hask) ident:(Hmne) ident:(Hft) ident:(Hbt).

Lemma get_type_case a w d q : gt_case a w d q (get_type E a w d q).
Proof.
  unfold get_type, get_type_mut, lookup_type. destruct (find_query q (d_queries (w_dom w d))) as [t|] eqn:Hq.
  - now apply gt_stored.
  - rewrite Nat.eqb_refl. simpl. unfold bind. fold (asked w d q). destruct (asked w d q) as [[oq ms]|e|u] eqn:Hr.
    + assert (oq = q) by (eapply apply_rules_query; exact Hr). subst oq. simpl.
      destruct ms as [|m ms0]; [now apply gt_empty|].
      destruct (find_type w (m :: ms0) (d_types (w_dom w d))) as [r|] eqn:Hf.
      * eapply gt_found; eauto. discriminate.
      * destruct (build_type E (w_fid w) (w_mid w) (w_mdom w) a d (m :: ms0)) as [t|e|u] eqn:Hb.
        -- unfold insert_type. pose proof (build_type_ok _ _ _ _ _ _ _ _ Hb) as (-> & _). rewrite Hf.
           eapply gt_new; eauto. discriminate.
        -- eapply gt_throw; eauto. discriminate.
        -- eapply gt_ub; eauto. discriminate.
    + now apply gt_rule_throw.
    + now apply gt_rule_ub.
Qed.

(** *** C14, C15 *)
Lemma has_type_ok w d r t : reachable E w -> has_type w d r t ->
  t_dom t = d /\ NoDup (t_mixins t) /\ (forall m, In m (t_mixins t) -> w_mdom w m = Some d).
Proof.
  intros Hr [Ht Hin]. destruct (winv_reachable _ _ Hr) as [HE HT]. destruct Hin as [->|Hin].
  - destruct (ti_empty _ _ HT d) as [k Hk]. rewrite Hk in Ht. injection Ht as <-. simpl. repeat split; auto; [constructor|easy].
  - destruct (ti_types _ _ HT _ _ Hin) as (n & t' & -> & _ & Ht' & H1 & _ & H2 & H3 & _). rewrite Ht in Ht'. injection Ht' as <-. auto.
Qed.

Lemma has_type_unique w d r r' t t' : reachable E w -> has_type w d r t -> has_type w d r' t' -> (r = r' <-> t_mixins t = t_mixins t').
Proof.
  intros Hr [Ht Hin] [Ht' Hin']. destruct (winv_reachable _ _ Hr) as [HE HT]. split; [intros ->; rewrite Ht in Ht'; now injection Ht' as ->|].
  intros Heq. destruct Hin as [->|Hin], Hin' as [->|Hin']; auto.
  - destruct (ti_empty _ _ HT d) as [k Hk]. rewrite Hk in Ht. injection Ht as <-. simpl in Heq.
    destruct (ti_types _ _ HT _ _ Hin') as (n & t2 & -> & _ & Ht2 & _ & Hne & _). rewrite Ht2 in Ht'. injection Ht' as <-. congruence.
  - destruct (ti_empty _ _ HT d) as [k Hk]. rewrite Hk in Ht'. injection Ht' as <-. simpl in Heq.
    destruct (ti_types _ _ HT _ _ Hin) as (n & t2 & -> & _ & Ht2 & _ & Hne & _). rewrite Ht2 in Ht. injection Ht as <-. congruence.
  - exact (ti_uniq _ _ HT _ _ _ _ _ Hin Hin' Ht Ht' Heq).
Qed.

Lemma get_type_dstep a w d q w' r : get_type E a w d q = (w', Ok r) -> dstep E w (DGetType d q a) = (w', Ok (Some r)).
Proof. simpl. intros ->. reflexivity. Qed.

Lemma reach_step w o w' r : reachable E w -> dstep E w o = (w', r) -> ~ is_ub r -> reachable E w'.
Proof. intros [tr H] Hs Hu. exists (tr ++ [(o, r)]). econstructor; eauto. Qed.

Lemma reach_get_type a w d q w' r : reachable E w -> get_type E a w d q = (w', Ok r) -> reachable E w'.
Proof. intros H Hg. eapply reach_step; eauto using get_type_dstep. Qed.

Lemma get_type_has_type a w d q w' r : reachable E w -> get_type E a w d q = (w', Ok r) -> exists t, has_type w' d r t.
Proof.
  intros Hr Hg. pose proof (winv_reachable _ _ (reach_get_type _ _ _ _ _ _ Hr Hg)) as [_ HT'].
  destruct (winv_reachable _ _ Hr) as [HE HT].
  assert (Hin : r = TEmpty d \/ In r (d_types (w_dom w' d))).
  { pose proof (get_type_case a w d q) as Hc. rewrite Hg in Hc. gtinv Hc.
    - apply find_query_some in Hfq. apply (ti_queries _ _ HT) in Hfq. auto.
    - auto.
    - right. unfold store_found. simpl. rewrite upd_same. simpl. now apply find_type_some in Hft.
    - right. simpl. rewrite upd_same. simpl. apply in_or_app. simpl. auto. }
  destruct Hin as [->|Hin].
  - destruct (ti_empty _ _ HT' d) as [k Hk]. eexists. split; eauto.
  - destruct (ti_types _ _ HT' _ _ Hin) as (n & t & -> & _ & Ht & _). exists t. split; auto.
Qed.

(** a type obtained stays the same type while it lives: other get_type calls *)
Lemma get_type_keeps a w d q w' r d2 r2 t2 : reachable E w -> get_type E a w d q = (w', r) -> has_type w d2 r2 t2 -> has_type w' d2 r2 t2.
Proof.
  intros Hr Hg [Ht Hin]. destruct (winv_reachable _ _ Hr) as [HE HT]. pose proof (get_type_case a w d q) as Hc. rewrite Hg in Hc.
  gtinv Hc; try (split; now auto).
  - split; [exact Ht|]. destruct Hin as [|Hin]; auto. right. unfold store_found. simpl. unfold upd. destruct (d2 =? d) eqn:Hd; auto.
    apply Nat.eqb_eq in Hd. subst. auto.
  - split; [exact Ht|]. destruct Hin as [|Hin]; auto. right. unfold store_found. simpl. unfold upd. destruct (d2 =? d) eqn:Hd; auto.
    apply Nat.eqb_eq in Hd. subst. auto.
  - split.
    + simpl. unfold tupd. destruct (tref_eqb_spec r2 (TReg (w_next w))) as [->|]; auto.
      rewrite (tinv_fresh E w (w_next w) HT) in Ht by lia. discriminate.
    + destruct Hin as [|Hin]; auto. right. simpl. unfold upd. destruct (d2 =? d) eqn:Hd; auto.
      apply Nat.eqb_eq in Hd. subst. simpl. apply in_or_app. auto.
Qed.

Lemma c14_calls a a' w d q q' w1 w2 r1 r2 : reachable E w ->
  get_type E a w d q = (w1, Ok r1) -> get_type E a' w1 d q' = (w2, Ok r2) ->
  exists t1 t2, has_type w2 d r1 t1 /\ has_type w2 d r2 t2 /\ (r1 = r2 <-> t_mixins t1 = t_mixins t2).
Proof.
  intros Hr H1 H2. assert (Hr1 := reach_get_type _ _ _ _ _ _ Hr H1). assert (Hr2 := reach_get_type _ _ _ _ _ _ Hr1 H2).
  destruct (get_type_has_type _ _ _ _ _ _ Hr H1) as [t1 Ht1]. destruct (get_type_has_type _ _ _ _ _ _ Hr1 H2) as [t2 Ht2].
  exists t1, t2. assert (Ht1' := get_type_keeps _ _ _ _ _ _ _ _ _ Hr1 H2 Ht1). split; auto. split; auto.
  eapply has_type_unique; eauto.
Qed.

Lemma c15_state tr w d r t : run E (init_world E) tr w -> has_type w d r t ->
  NoDup (t_mixins t) /\ forall m, In m (t_mixins t) -> mixin_registered tr m = Some d.
Proof.
  intros Hr Ht. destruct (has_type_ok _ _ _ _ (run_reachable E _ _ Hr) Ht) as (_ & H1 & H2).
  split; auto. intros m Hm. rewrite (run_mixins E _ _ Hr). auto.
Qed.
Lemma c15_call tr w a d q w' r : run E (init_world E) tr w -> get_type E a w d q = (w', Ok r) ->
  exists t, has_type w' d r t /\ NoDup (t_mixins t) /\ forall m, In m (t_mixins t) -> mixin_registered tr m = Some d.
Proof.
  intros Hr Hg. destruct (get_type_has_type _ _ _ _ _ _ (run_reachable E _ _ Hr) Hg) as [t Ht]. exists t. split; auto.
  assert (Hr' : run E (init_world E) (tr ++ [(DGetType d q a, Ok (Some r))]) w') by (econstructor; eauto using get_type_dstep).
  destruct (c15_state _ _ _ _ _ Hr' Ht) as [H1 H2]. split; auto. intros m Hm. specialize (H2 m Hm).
  unfold mixin_registered in H2. rewrite fold_left_app in H2. exact H2.
Qed.

(** *** C17 *)
Lemma ref_nobj_some w r t : w_type w r = Some t -> ref_nobj w r = t_nobj t.
Proof. unfold ref_nobj. now intros ->. Qed.

Lemma c17 w d w' x : reachable E w -> gc w d = (w', x) ->
  x = Ok tt /\
  (forall r, In r (d_types (w_dom w' d)) -> In r (d_types (w_dom w d))) /\
  (forall r t, In r (d_types (w_dom w d)) -> w_type w r = Some t ->
     if t_nobj t =? 0 then ~ In r (d_types (w_dom w' d)) /\ w_type w' r = None
     else In r (d_types (w_dom w' d)) /\ w_type w' r = Some t) /\
  (forall q r, In (q, r) (d_queries (w_dom w' d)) <->
     In (q, r) (d_queries (w_dom w d)) /\ (r = TEmpty d \/ exists t, w_type w r = Some t /\ t_nobj t <> 0)) /\
  w_mid w' = w_mid w /\ w_mdom w' = w_mdom w /\ d_mixins (w_dom w' d) = d_mixins (w_dom w d) /\ same_but_types w w' d.
Proof.
  intros Hr Hg. destruct (winv_reachable _ _ Hr) as [HE HT]. unfold gc in Hg.
  assert (Hd : existsb (dangling w) (d_types (w_dom w d)) = false).
  { apply not_true_is_false. intros H. apply existsb_exists in H. destruct H as (r & Hin & Hd).
    destruct (ti_types _ _ HT _ _ Hin) as (n & t & -> & _ & Ht & _). unfold dangling in Hd. rewrite Ht in Hd. discriminate. }
  rewrite Hd in Hg. injection Hg as <- <-. split; auto. cbn [w_dom w_type w_mid w_mdom w_fid]. rewrite upd_same. cbn [d_types d_queries with_types d_mixins].
  assert (Halive : forall d2 r, In r (d_types (w_dom w d2)) -> exists t, w_type w r = Some t /\ t_dom t = d2).
  { intros d2 r Hin. destruct (ti_types _ _ HT _ _ Hin) as (n & t & -> & _ & Ht & Hok & _). eauto. }
  split. { intros r H. now apply filter_In in H. }
  split.
  { intros r t Hin Ht. destruct (Nat.eqb_spec (t_nobj t) 0) as [Hz|Hz].
    - split.
      + intros H. apply filter_In in H. destruct H as [_ H]. rewrite (ref_nobj_some _ _ _ Ht), Hz in H. discriminate.
      + rewrite free_types_spec. destruct (existsb_tref r (filter (fun r => ref_nobj w r =? 0) (d_types (w_dom w d)))) as [|Hn]; auto.
        exfalso. apply Hn. apply filter_In. rewrite (ref_nobj_some _ _ _ Ht), Hz. auto.
    - split.
      + apply filter_In. rewrite (ref_nobj_some _ _ _ Ht). split; auto. destruct (Nat.eqb_spec (t_nobj t) 0); auto; congruence.
      + rewrite free_types_spec. destruct (existsb_tref r (filter (fun r => ref_nobj w r =? 0) (d_types (w_dom w d)))) as [Hn|]; auto.
        apply filter_In in Hn. destruct Hn as [_ Hn]. rewrite (ref_nobj_some _ _ _ Ht) in Hn. apply Nat.eqb_eq in Hn. congruence. }
  split.
  { intros q r. rewrite filter_In. split.
    - intros [Hin Hk]. split; auto. apply negb_true_iff in Hk. simpl in Hk. destruct (ti_queries _ _ HT _ _ _ Hin) as [->|Ht]; auto.
      right. destruct (Halive _ _ Ht) as (t & H1 & _). exists t. split; auto. intros Hz.
      destruct (existsb_tref r (filter (fun r => ref_nobj w r =? 0) (d_types (w_dom w d)))) as [|Hn]; [discriminate|].
      apply Hn. apply filter_In. split; auto. rewrite (ref_nobj_some _ _ _ H1), Hz. auto.
    - intros [Hin Hk]. split; auto. apply negb_true_iff. simpl.
      destruct (existsb_tref r (filter (fun r => ref_nobj w r =? 0) (d_types (w_dom w d)))) as [Hn|]; auto. exfalso.
      apply filter_In in Hn. destruct Hn as [Hn1 Hn2]. destruct Hk as [->|(t & Ht & Hz)].
      + destruct (ti_types _ _ HT _ _ Hn1) as (n & t & Hx & _). discriminate.
      + rewrite (ref_nobj_some _ _ _ Ht) in Hn2. apply Nat.eqb_eq in Hn2. congruence. }
  repeat split; auto.
  - simpl. unfold upd. now destruct (Nat.eqb_spec d2 d) as [->|].
  - simpl. unfold upd. now destruct (Nat.eqb_spec d2 d) as [->|].
  - simpl. unfold upd. now destruct (Nat.eqb_spec d2 d) as [->|].
  - simpl. rewrite upd_other; auto.
  - simpl. rewrite upd_other; auto.
  - intros d2 r Hd2 Hin. simpl. rewrite free_types_spec. destruct (existsb_tref r (filter (fun r => ref_nobj w r =? 0) (d_types (w_dom w d)))) as [Hn|]; auto.
    apply filter_In in Hn. destruct Hn as [Hn _]. destruct (Halive _ _ Hn) as (t & H1 & H2). destruct (Halive _ _ Hin) as (t' & H1' & H2'). congruence.
  - intros d2. simpl. rewrite free_types_spec. destruct (existsb_tref (TEmpty d2) (filter (fun r => ref_nobj w r =? 0) (d_types (w_dom w d)))) as [Hn|]; auto.
    apply filter_In in Hn. destruct Hn as [Hn _]. destruct (ti_types _ _ HT _ _ Hn) as (n & t & Hx & _). discriminate.
Qed.

(** *** C18 *)
Lemma c18 tr w d m : run E (init_world E) tr w -> mixin_registered tr m = Some d ->
  (forall r t, In r (d_types (w_dom w d)) -> w_type w r = Some t -> In m (t_mixins t) -> t_nobj t = 0) ->
  exists w', unregister_mixin w d m = (w', Ok tt) /\
  (forall r, In r (d_types (w_dom w' d)) -> In r (d_types (w_dom w d))) /\
  (forall r t, In r (d_types (w_dom w d)) -> w_type w r = Some t ->
     (In m (t_mixins t) -> ~ In r (d_types (w_dom w' d)) /\ w_type w' r = None) /\
     (~ In m (t_mixins t) -> In r (d_types (w_dom w' d)) /\ w_type w' r = Some t)) /\
  (forall q r, In (q, r) (d_queries (w_dom w' d)) <->
     In (q, r) (d_queries (w_dom w d)) /\ ~ In m q /\ forall t, w_type w r = Some t -> ~ In m (t_mixins t)) /\
  same_but_types w w' d.
Proof.
  intros Hrun Hreg Hobj. assert (Hr := run_reachable E _ _ Hrun). destruct (winv_reachable _ _ Hr) as [HE HT].
  rewrite (run_mixins E _ _ Hrun) in Hreg. destruct (ei_m2 _ _ HE _ _ Hreg) as (id & Hid & Hnth).
  assert (Hhas : forall r t, In r (d_types (w_dom w d)) -> w_type w r = Some t -> ref_has_id w (w_mid w m) r = true <-> In m (t_mixins t)).
  { intros r t Hin Ht. unfold ref_has_id. rewrite Ht. destruct (ti_types _ _ HT _ _ Hin) as (n & t' & -> & _ & Ht' & Hok).
    rewrite Ht in Ht'. injection Ht' as <-. eapply type_has_id_mixin; eauto. }
  assert (Hemp : ref_has_id w (w_mid w m) (TEmpty d) = false).
  { unfold ref_has_id. destruct (ti_empty _ _ HT d) as [k ->]. unfold type_has_id, index_of. rewrite Hid. simpl. now destruct id. }
  unfold unregister_mixin, purge_types.
  assert (Hdang : existsb (fun q => dangling w (snd q)) (d_queries (w_dom w d)) = false).
  { apply not_true_is_false. intros H. apply existsb_exists in H. destruct H as ([q r] & Hin & Hd). unfold dangling in Hd. simpl in Hd.
    destruct (ti_queries _ _ HT _ _ _ Hin) as [->|Hin'].
    - destruct (ti_empty _ _ HT d) as [k Hk]. rewrite Hk in Hd. discriminate.
    - destruct (ti_types _ _ HT _ _ Hin') as (n & t & -> & _ & Ht & _). rewrite Ht in Hd. discriminate. }
  rewrite Hdang.
  assert (Hno : existsb (fun r => negb (ref_nobj w r =? 0)) (filter (ref_has_id w (w_mid w m)) (d_types (w_dom w d))) = false).
  { apply not_true_is_false. intros H. apply existsb_exists in H. destruct H as (r & Hin & Hd). apply filter_In in Hin. destruct Hin as [Hin Hh].
    destruct (ti_types _ _ HT _ _ Hin) as (n & t & -> & _ & Ht & Hok). rewrite (ref_nobj_some _ _ _ Ht) in Hd.
    rewrite (Hobj _ _ Hin Ht) in Hd; [discriminate|]. eapply Hhas; eauto. }
  rewrite Hno. unfold unregister_mixin_elem. cbn [w_mid w_dom w_mdom w_fid w_type]. rewrite upd_same. cbn [d_mixins with_types].
  unfold basic_unregister. rewrite Hid, Hnth, Nat.eqb_refl. eexists. split; [reflexivity|].
  cbn [w_mid w_dom w_mdom w_fid w_type]. rewrite !upd_same. cbn [d_types d_queries with_types with_mixins d_mixins].
  split. { intros r H. now apply filter_In in H. }
  split.
  { intros r t Hin Ht. specialize (Hhas r t Hin Ht). split; intros Hm.
    - split.
      + intros H. apply filter_In in H. destruct H as [_ H]. apply Hhas in Hm. rewrite Hid in Hm. rewrite Hm in H. discriminate.
      + rewrite free_types_spec. destruct (existsb_tref r (filter (ref_has_id w (Some id)) (d_types (w_dom w d)))) as [|Hn]; auto.
        exfalso. apply Hn. apply filter_In. rewrite <- Hid. split; auto. now apply Hhas.
    - assert (Hf : ref_has_id w (Some id) r = false). { apply not_true_is_false. rewrite <- Hid. now rewrite Hhas. }
      split.
      + apply filter_In. now rewrite Hf.
      + rewrite free_types_spec. destruct (existsb_tref r (filter (ref_has_id w (Some id)) (d_types (w_dom w d)))) as [Hn|]; auto.
        apply filter_In in Hn. destruct Hn. congruence. }
  split.
  { intros q r. rewrite filter_In. simpl. rewrite negb_true_iff, orb_false_iff. split.
    - intros (Hin & Hf & Hm). split; auto. split; [now apply memb_false|]. intros t Ht.
      destruct (ti_queries _ _ HT _ _ _ Hin) as [->|Hin'].
      + destruct (ti_empty _ _ HT d) as [k Hk]. rewrite Hk in Ht. injection Ht as <-. simpl. auto.
      + rewrite <- (Hhas r t Hin' Ht), Hid, Hf. discriminate.
    - intros (Hin & Hm & Ht). split; auto. split; [|now apply memb_false]. destruct (ti_queries _ _ HT _ _ _ Hin) as [->|Hin']; [now rewrite <- Hid|].
      destruct (ti_types _ _ HT _ _ Hin') as (n & t & -> & _ & Ht' & Hok). apply not_true_is_false. rewrite <- Hid, (Hhas _ _ Hin' Ht'). auto. }
  repeat split; auto.
  - simpl. unfold upd. now destruct (Nat.eqb_spec d2 d) as [->|].
  - simpl. unfold upd. now destruct (Nat.eqb_spec d2 d) as [->|].
  - simpl. unfold upd. now destruct (Nat.eqb_spec d2 d) as [->|].
  - simpl. rewrite !upd_other; auto.
  - simpl. rewrite !upd_other; auto.
  - intros d2 r Hd2 Hin. simpl. rewrite free_types_spec. destruct (existsb_tref r (filter (ref_has_id w (Some id)) (d_types (w_dom w d)))) as [Hn|]; auto.
    apply filter_In in Hn. destruct Hn as [Hn _]. destruct (ti_types _ _ HT _ _ Hn) as (n & t & -> & _ & Ht' & Hok & _).
    destruct (ti_types _ _ HT _ _ Hin) as (n' & t' & Hx & _ & Ht2 & Hok2 & _). congruence.
  - intros d2. simpl. rewrite free_types_spec. destruct (existsb_tref (TEmpty d2) (filter (ref_has_id w (Some id)) (d_types (w_dom w d)))) as [Hn|]; auto.
    apply filter_In in Hn. destruct Hn as [Hn _]. destruct (ti_types _ _ HT _ _ Hn) as (n & t & Hx & _). discriminate.
Qed.

(** *** C19 *)
Lemma c19 a w d q w' e : get_type E a w d q = (w', Throw e) -> w' = w.
Proof. intros H. pose proof (get_type_case a w d q) as Hc. rewrite H in Hc. gtinv Hc; auto. Qed.
Lemma c19_mut a w d dm q w' e : get_type_mut E a w d dm q = (w', Throw e) -> w' = w.
Proof.
  destruct (Nat.eqb_spec dm d) as [->|Hn].
  - rewrite get_type_mut_same. apply c19.
  - unfold get_type_mut. apply Nat.eqb_neq in Hn. rewrite Hn. simpl. congruence.
Qed.

(** *** C13: the cache *)
Definition CInvAt (w : world) (d : dptr) : Prop := forall q r, In (q, r) (d_queries (w_dom w d)) ->
  exists t, w_type w r = Some t /\ asked w d q = Ok (q, t_mixins t).
Definition CInv (w : world) : Prop := forall d, CInvAt w d.

Lemma apply_pass_pure v v' rules : rules_pure E -> forall l, apply_pass E v rules l = apply_pass E v' rules l.
Proof.
  intros Hp. induction rules as [|[r c] rules IH]; intros l; simpl; auto.
  destruct (r_apply (e_rule E r)) as [f|] eqn:Hf; auto. rewrite (Hp r f Hf v v' l). destruct (f v' l); auto.
Qed.
Lemma rules_loop_ext v v' rules rules' : length rules = length rules' -> (forall l, apply_pass E v rules l = apply_pass E v' rules' l) ->
  forall fuel i orig last cur, rules_loop E fuel i v rules orig last cur = rules_loop E fuel i v' rules' orig last cur.
Proof.
  intros Hl H. induction fuel as [|fuel IH]; intros; simpl; auto. rewrite H, Hl. unfold bind. destruct (apply_pass E v' rules' cur); auto.
  destruct (list_eqb last a); auto. destruct ((i =? max_dependency_depth) || (i =? length rules')); auto.
Qed.
Lemma apply_rules_pure v v' rules q : rules_pure E -> apply_rules E v rules q = apply_rules E v' rules q.
Proof. intros Hp. unfold apply_rules. apply rules_loop_ext; auto. intros. now apply apply_pass_pure. Qed.
Lemma apply_pass_map v rules rules' : map fst rules = map fst rules' -> forall l, apply_pass E v rules l = apply_pass E v rules' l.
Proof.
  revert rules'. induction rules as [|[r c] rules IH]; intros [|[r' c'] rules'] H l; simpl in *; try discriminate; auto.
  injection H as -> H. destruct (r_apply (e_rule E r')) as [f|]; auto. destruct (f v l); auto.
Qed.
Lemma apply_rules_map v rules rules' q : map fst rules = map fst rules' -> apply_rules E v rules q = apply_rules E v rules' q.
Proof.
  intros H. unfold apply_rules. apply rules_loop_ext; [|now apply apply_pass_map]. 
  rewrite <- (map_length fst rules), H. apply map_length.
Qed.

(** when a count changes but not to or from zero, the keys stay *)
Lemma rules_incr_keys r : forall l l' b, rules_incr E r l = (l', b) -> (forall k c, In (k, c) l -> c <> 0) -> b = false -> map fst l' = map fst l.
Proof.
  induction l as [|[k c] l IH]; intros l' b; simpl.
  - intros [= <- <-]. discriminate.
  - intros H Hc. destruct (rule_less E k r).
    + destruct (rules_incr E r l) as [t b0] eqn:Ht. injection H as <- <-. intros ->. simpl. f_equal. eapply IH; eauto.
    + destruct (rule_less E r k); injection H as <- <-; [discriminate|]. intros. reflexivity.
Qed.
Lemma rules_decr_keys r : forall l l' b, rules_decr E r l = Ok (l', b) -> b = false -> map fst l' = map fst l.
Proof.
  induction l as [|[k c] l IH]; intros l' b; simpl.
  - intros [= <- <-]. auto.
  - intros H Hb. destruct (rule_less E k r).
    + apply bind_ok in H. destruct H as ([t b0] & Ht & H). injection H as <- <-. simpl. f_equal. eapply IH; eauto.
    + destruct (rule_less E r k); [now injection H as <- <-|]. destruct c as [|[|c]]; [discriminate| |]; injection H as <- <-; [discriminate|auto].
Qed.

(** the counts are positive *)
Definition KInv (w : world) : Prop := forall d k c, In (k, c) (d_rules (w_dom w d)) -> c <> 0.
Lemma rules_incr_pos r : forall l, (forall k c, In (k, c) l -> c <> 0) -> forall k c, In (k, c) (fst (rules_incr E r l)) -> c <> 0.
Proof.
  induction l as [|[k c] l IH]; simpl; intros Hc k' c'.
  - intros [[= <- <-]|[]]. auto.
  - destruct (rule_less E k r).
    + destruct (rules_incr E r l) as [t b]. simpl in *. intros [[= <- <-]|Hin]; eauto.
    + destruct (rule_less E r k); simpl; intros [[= <- <-]|Hin]; eauto.
Qed.
Lemma rules_decr_pos r : forall l l' b, rules_decr E r l = Ok (l', b) -> (forall k c, In (k, c) l -> c <> 0) -> forall k c, In (k, c) l' -> c <> 0.
Proof.
  induction l as [|[k c] l IH]; simpl; intros l' b H Hc k' c'.
  - injection H as <- <-. intros [].
  - destruct (rule_less E k r).
    + apply bind_ok in H. destruct H as ([t b0] & Ht & H). injection H as <- <-. simpl in *. intros [[= <- <-]|Hin]; [eauto|eapply IH; eauto].
    + destruct (rule_less E r k); [injection H as <- <-; simpl; eauto|]. destruct c as [|[|c]]; [discriminate| |]; injection H as <- <-; simpl; eauto.
      intros [[= <- <-]|Hin]; eauto.
Qed.
Lemma kinv_init : KInv (init_world E).
Proof.
  intros d k c. simpl. destruct (s_canonicalize (e_settings E d)); simpl; [|easy]. intros [[= <- <-]|[]]. auto.
Qed.
Lemma kinv_dstep w o w' r : EInv E w -> KInv w -> dstep E w o = (w', r) -> KInv w'.
Proof.
  intros HE HK Hs d2. pose proof (dstep_dom E _ _ _ _ HE Hs d2) as [_ Hrules].
  destruct o; try (rewrite Hrules; [apply HK|discriminate|discriminate]); simpl in Hs; unfold forget in Hs.
  - unfold add_rule in Hs. destruct (r_apply (e_rule E r0)); [|injection Hs as <- <-; apply HK].
    pose proof (rules_incr_pos r0 (d_rules (w_dom w d))) as Hp. destruct (rules_incr E r0 (d_rules (w_dom w d))) as [l b]. injection Hs as <- <-.
    simpl. unfold upd. destruct (Nat.eqb_spec d2 d) as [->|]; [|apply HK]. simpl. intros k c Hin. eapply Hp; eauto.
  - unfold remove_rule in Hs. destruct (rules_decr E r0 (d_rules (w_dom w d))) as [[l b]|e|u] eqn:Hp; injection Hs as <- <-; try apply HK.
    simpl. unfold upd. destruct (Nat.eqb_spec d2 d) as [->|]; [|apply HK]. simpl. intros k c Hin. eapply rules_decr_pos; eauto.
Qed.
Lemma kinv_run tr w : run E (init_world E) tr w -> KInv w.
Proof.
  intros H. remember (init_world E) as w0 eqn:Hw0. induction H; subst; [apply kinv_init|].
  eapply kinv_dstep; eauto. eapply einv_run; eauto.
Qed.

(** steps that keep what the rules see keep CInv *)
Lemma asked_regs w w' d q : w_mid w' = w_mid w -> d_mixins (w_dom w' d) = d_mixins (w_dom w d) -> map fst (d_rules (w_dom w' d)) = map fst (d_rules (w_dom w d)) ->
  asked w' d q = asked w d q.
Proof.
  intros H1 H2 H3. unfold asked. rewrite (apply_rules_map _ _ _ q H3). unfold view, get_mixin_by_name. now rewrite H1, H2.
Qed.

Lemma asked_store w d q r d2 q2 : asked (store_found w d q r) d2 q2 = asked w d2 q2.
Proof. apply asked_regs; simpl; auto; unfold upd; now destruct (Nat.eqb_spec d2 d) as [->|]. Qed.

Lemma cinv_store w d q r t d2 : CInvAt w d2 -> has_type w d r t -> asked w d q = Ok (q, t_mixins t) -> CInvAt (store_found w d q r) d2.
Proof.
  intros HC [Ht Hin] Ha q2 r2 H. rewrite asked_store. unfold store_found in *. simpl in *. unfold upd in H. destruct (Nat.eqb_spec d2 d) as [->|].
  - simpl in H. apply store_query_in in H. destruct H as [[-> ->]|H]; eauto.
  - eauto.
Qed.

Lemma cinv_same w w' d :
  (forall q r, In (q, r) (d_queries (w_dom w' d)) -> In (q, r) (d_queries (w_dom w d))) ->
  (forall q r t, In (q, r) (d_queries (w_dom w' d)) -> w_type w r = Some t -> exists t', w_type w' r = Some t' /\ t_mixins t' = t_mixins t) ->
  (forall q r t, In (q, r) (d_queries (w_dom w' d)) -> w_type w r = Some t -> asked w d q = Ok (q, t_mixins t) -> asked w' d q = asked w d q) ->
  CInvAt w d -> CInvAt w' d.
Proof.
  intros Hq Ht Hv HC q r Hin. destruct (HC _ _ (Hq _ _ Hin)) as (t & H1 & H2). destruct (Ht _ _ _ Hin H1) as (t' & H3 & H4).
  exists t'. split; auto. rewrite (Hv _ _ _ Hin H1 H2). now rewrite H4.
Qed.

Lemma cinv_get_type a w d q w' r d2 : WInv E w -> CInvAt w d2 -> get_type E a w d q = (w', r) -> CInvAt w' d2.
Proof.
  intros [HE HT] HC Hg. pose proof (get_type_case a w d q) as Hc. rewrite Hg in Hc. gtinv Hc; auto.
  - destruct (ti_empty _ _ HT d) as [k Hk]. eapply cinv_store; eauto. split; eauto. assumption.
  - pose proof (find_type_some _ _ _ _ Hft) as (Hin & t & Ht & Hm). eapply cinv_store; eauto; [split; eauto|]. now rewrite Hm.
  - pose proof (build_type_ok _ _ _ _ _ _ _ _ Hbt) as (Hm & _).
    intros q2 r2. simpl. intros Hin.
    assert (Hold : In (q2, r2) (d_queries (w_dom w d2)) -> exists t0, tupd (w_type w) (TReg (w_next w)) (Some t) r2 = Some t0 /\ asked w d2 q2 = Ok (q2, t_mixins t0)).
    { intros Hi. destruct (HC _ _ Hi) as (t2 & Ht2 & Hr2). exists t2. split; auto. unfold tupd. destruct (tref_eqb_spec r2 (TReg (w_next w))) as [->|]; auto.
      rewrite (tinv_fresh E w (w_next w) HT) in Ht2 by lia. discriminate. }
    rewrite asked_regs with (w := w) by (simpl; auto; unfold upd; now destruct (Nat.eqb_spec d2 d) as [->|]). unfold upd in Hin. destruct (Nat.eqb_spec d2 d) as [->|]; [|auto]. simpl in Hin.
    apply store_query_in in Hin. destruct Hin as [[-> ->]|Hin]; [|auto]. exists t. split.
    + unfold tupd. destruct (tref_eqb_spec (TReg (w_next w)) (TReg (w_next w))); congruence.
    + rewrite Hm. auto.
Qed.

(** what registering and unregistering a mixin does to rules, queries and types *)
Lemma register_mixin_queries w d m w1 x : EInv E w -> register_mixin E w d m = (w1, x) ->
  w_type w1 = w_type w /\ (forall d2, d_queries (w_dom w1 d2) = d_queries (w_dom w d2) /\ d_rules (w_dom w1 d2) = d_rules (w_dom w d2)) /\
  (forall m2, w_mdom w m2 <> None -> w_mid w1 m2 = w_mid w m2).
Proof.
  intros HE Hr. destruct (register_mixin_cases E _ _ _ _ _ HE Hr) as [(id & w2 & sp & -> & _ & Hm & Hf & Hb & ->)|[_ Ho]].
  - pose proof (register_features_of_only E (m_features (e_mixin E m)) w d) as (H1 & H2 & H3 & _ & H5). rewrite Hf in *. simpl in *. split; auto.
    split.
    + intros d2. destruct (H5 d2) as (_ & _ & H6 & _ & H7). unfold upd. destruct (Nat.eqb_spec d2 d) as [->|]; simpl; auto.
    + intros m2 Hm2. unfold upd. destruct (Nat.eqb_spec m2 m) as [->|]; congruence.
  - destruct Ho as (H1 & H2 & H3 & _ & H5). split; auto. split; [|intros; congruence]. intros d2. destruct (H5 d2) as (_ & _ & H6 & _ & H7). auto.
Qed.
Lemma unregister_mixin_queries w d m w1 x : EInv E w -> TInv E w -> unregister_mixin w d m = (w1, x) ->
  (forall d2, d_rules (w_dom w1 d2) = d_rules (w_dom w d2)) /\
  (forall d2 q r, In (q, r) (d_queries (w_dom w1 d2)) -> In (q, r) (d_queries (w_dom w d2)) /\ w_type w1 r = w_type w r) /\
  (forall d2 q r t m2, In (q, r) (d_queries (w_dom w1 d2)) -> w_type w r = Some t -> In m2 (t_mixins t) -> w_mid w1 m2 = w_mid w m2).
Proof.
  intros HE HT Hr. unfold unregister_mixin in Hr. destruct (purge_types w d m) as [w2|e|u] eqn:Hpu; [|injection Hr as <- <-; auto|injection Hr as <- <-; auto].
  assert (H2 : (forall d2, d_rules (w_dom w2 d2) = d_rules (w_dom w d2)) /\
        (forall d2 q r, In (q, r) (d_queries (w_dom w2 d2)) -> In (q, r) (d_queries (w_dom w d2)) /\ w_type w2 r = w_type w r) /\
        (forall q r t, In (q, r) (d_queries (w_dom w2 d)) -> w_type w r = Some t -> type_has_id t (w_mid w m) = false)).
  { split; [intros d2; apply (purge_dom _ _ _ _ Hpu d2)|]. unfold purge_types in Hpu.
        destruct (existsb (fun q => dangling w (snd q)) (d_queries (w_dom w d))); [discriminate|].
        destruct (existsb _ _); [discriminate|]. injection Hpu as <-. split.
     - intros d2 q r Hin. cbn [w_dom] in Hin. unfold upd in Hin.
        cbn [w_type]. rewrite free_types_spec.
        destruct (existsb_tref r (filter (ref_has_id w (w_mid w m)) (d_types (w_dom w d)))) as [Hd|Hd];
        destruct (Nat.eqb_spec d2 d) as [->|Hne]; cbn [d_queries with_types] in Hin; auto.
        + apply filter_In in Hin. destruct Hin as [Hin Hk]. apply filter_In in Hd. destruct Hd as [_ Hd].
          simpl in Hk. rewrite Hd in Hk. discriminate.
        + apply filter_In in Hd. destruct Hd as [Hd _]. exfalso. destruct (ti_types _ _ HT _ _ Hd) as (n & t & -> & _ & Ht & Hok & _).
          destruct (ti_queries _ _ HT _ _ _ Hin) as [Hx|Hin']; [discriminate|].
          destruct (ti_types _ _ HT _ _ Hin') as (n' & t' & _ & _ & Ht' & Hok' & _). congruence.
        + apply filter_In in Hin. tauto.
     - intros q r t Hin Ht. cbn [w_dom] in Hin. rewrite upd_same in Hin. cbn [d_queries with_types] in Hin. apply filter_In in Hin. destruct Hin as [_ Hk].
        apply negb_true_iff, orb_false_iff in Hk. destruct Hk as [Hk _]. unfold ref_has_id in Hk. simpl in Hk. now rewrite Ht in Hk. }
  assert (Hmid : w_mid w2 = w_mid w /\ d_mixins (w_dom w2 d) = d_mixins (w_dom w d)).
  { unfold purge_types in Hpu. destruct (existsb (fun q => dangling w (snd q)) (d_queries (w_dom w d))); [discriminate|].
    destruct (existsb _ _); [discriminate|]. injection Hpu as <-. simpl. rewrite upd_same. auto. }
  destruct Hmid as [Hmid Hmdom]. destruct H2 as (Ha & Hb & Hc). unfold unregister_mixin_elem in Hr. destruct (basic_unregister (w_mid w2) (d_mixins (w_dom w2 d)) m) as [sp|e|u] eqn:Hbu; injection Hr as <- <-.
  - simpl. split; [|split].
    + intros d2. unfold upd. destruct (Nat.eqb_spec d2 d) as [->|]; simpl; auto.
    + intros d2 q r. unfold upd. destruct (Nat.eqb_spec d2 d) as [->|]; simpl; auto.
    + intros d2 q r t m2 Hin Ht Hm2. rewrite Hmid. unfold upd. destruct (Nat.eqb_spec m2 m) as [->|]; auto. exfalso.
      assert (Hin2 : In (q, r) (d_queries (w_dom w2 d2))). { unfold upd in Hin. destruct (Nat.eqb_spec d2 d) as [->|]; simpl in Hin; auto. }
      destruct (Hb _ _ _ Hin2) as [Hin0 _]. destruct (ti_queries _ _ HT _ _ _ Hin0) as [->|Hty].
      * destruct (ti_empty _ _ HT d2) as [k Hk]. rewrite Hk in Ht. injection Ht as <-. destruct Hm2.
      * destruct (ti_types _ _ HT _ _ Hty) as (n & t' & -> & _ & Ht' & Hok). rewrite Ht in Ht'. injection Ht' as <-.
        assert (Hdm : w_mdom w m = Some d2) by (apply Hok; auto).
        assert (Hd : d2 = d).
        { destruct (ei_m2 _ _ HE _ _ Hdm) as (id & Hid & Hnth). unfold basic_unregister in Hbu. rewrite Hmid, Hid in Hbu.
          rewrite Hmdom in Hbu.
          destruct (nth_error (d_mixins (w_dom w d)) id) as [[p|]|] eqn:Hn; try discriminate. destruct (Nat.eqb_spec p m) as [->|]; [|discriminate].
          destruct (ei_m1 _ _ HE _ _ _ Hn) as (_ & Hx). congruence. }
        subst d2. specialize (Hc _ _ _ Hin2 Ht). assert (type_has_id t (w_mid w m) = true) by (eapply type_has_id_mixin; eauto). congruence.
  - split; auto. split; auto. intros. congruence.
  - split; auto. split; auto. intros. congruence.
Qed.

Definition mixin_op (o : dop) : Prop := match o with DRegMixin _ _ | DUnregMixin _ _ => True | _ => False end.

(** one step *)
Lemma cinv_dstep_at w o w' r d2 : WInv E w -> KInv w -> CInvAt w d2 -> dstep E w o = (w', r) ->
  (mixin_op o -> forall q rr t, In (q, rr) (d_queries (w_dom w' d2)) -> In (q, rr) (d_queries (w_dom w d2)) -> w_type w rr = Some t ->
     asked w d2 q = Ok (q, t_mixins t) -> asked w' d2 q = asked w d2 q) ->
  CInvAt w' d2.
Proof.
  intros HW HK HC Hs Hp. pose proof HW as [HE HT]. destruct o; simpl in Hs; unfold forget, retty in Hs.
  - destruct (register_feature E w d f) as [w1 x] eqn:Hr. injection Hs as <- <-. simpl.
    pose proof (register_feature_only E w d f) as (H1 & H2 & H3 & H4 & H5). rewrite Hr in *. simpl in *.
    destruct (H5 d2) as (Ha & Hb & Hc & Hd & He). apply (cinv_same w); auto.
    + intros q r. congruence.
    + intros. exists t. now rewrite H3.
    + intros. apply asked_regs; auto; congruence.
  - destruct (unregister_feature w d f) as [w1 x] eqn:Hr. injection Hs as <- <-. simpl.
    unfold unregister_feature in Hr. destruct (basic_unregister (w_fid w) (d_features (w_dom w d)) f); injection Hr as <- <-; auto.
    apply (cinv_same w); auto; simpl; intros; eauto.
    + unfold upd in H. now destruct (Nat.eqb_spec d2 d) as [->|].
    + apply asked_regs; simpl; auto; unfold upd; now destruct (Nat.eqb_spec d2 d) as [->|].
  - destruct (register_mixin E w d m) as [w1 x] eqn:Hr. injection Hs as <- <-. simpl.
    destruct (register_mixin_queries _ _ _ _ _ HE Hr) as (Hty & Hdq & _).
    apply (cinv_same w); auto.
    + intros q r. now rewrite (proj1 (Hdq d2)).
    + intros. exists t. now rewrite Hty.
    + intros q r t Hin Ht Ha. eapply Hp; simpl; eauto. now rewrite <- (proj1 (Hdq d2)).
  - destruct (unregister_mixin w d m) as [w1 x] eqn:Hr. injection Hs as <- <-. simpl.
    destruct (unregister_mixin_queries _ _ _ _ _ HE HT Hr) as (Ha & Hb & _). apply (cinv_same w); auto.
    + intros q r Hin. apply Hb in Hin. tauto.
    + intros q r t Hin Ht. apply Hb in Hin. destruct Hin as [_ ->]. eauto.
    + intros q r t Hin Ht Hk. eapply Hp; simpl; eauto. apply Hb in Hin. tauto.
  - destruct (register_type_class E w d c) as [w1 x] eqn:Hr. injection Hs as <- <-. simpl. unfold register_type_class in Hr.
    destruct (register_tc (e_tc E) (d_tcs (w_dom w d)) c); injection Hr as <- <-; auto.
    apply (cinv_same w); auto; simpl; intros; eauto.
    + unfold upd in H. now destruct (Nat.eqb_spec d2 d) as [->|].
    + apply asked_regs; simpl; auto; unfold upd; now destruct (Nat.eqb_spec d2 d) as [->|].
  - injection Hs as <- <-. simpl.
    apply (cinv_same w); auto; simpl; intros; eauto.
    + unfold upd in H. now destruct (Nat.eqb_spec d2 d) as [->|].
    + apply asked_regs; simpl; auto; unfold upd; now destruct (Nat.eqb_spec d2 d) as [->|].
  - destruct (add_rule E w d r0) as [w1 x] eqn:Hr. injection Hs as <- <-. simpl. unfold add_rule in Hr.
    destruct (r_apply (e_rule E r0)); [|injection Hr as <- <-; auto].
    destruct (rules_incr E r0 (d_rules (w_dom w d))) as [l b] eqn:Hi. injection Hr as <- <-.
    intros q rr. simpl. unfold upd. destruct (Nat.eqb_spec d2 d) as [->|Hne]; simpl.
    + destruct b; [intros []|]. intros Hin. destruct (HC _ _ Hin) as (t & Ht & Hq). exists t. split; auto. rewrite <- Hq.
      apply asked_regs; simpl; auto; rewrite upd_same; auto. simpl. eapply rules_incr_keys; eauto.
    + intros Hin. destruct (HC _ _ Hin) as (t & Ht & Hq). exists t. split; auto. rewrite <- Hq.
      apply asked_regs; simpl; auto; rewrite upd_other; auto.
  - destruct (remove_rule E w d r0) as [w1 x] eqn:Hr. injection Hs as <- <-. simpl. unfold remove_rule in Hr.
    destruct (rules_decr E r0 (d_rules (w_dom w d))) as [[l b]|e|u] eqn:Hi; injection Hr as <- <-; auto.
    intros q rr. simpl. unfold upd. destruct (Nat.eqb_spec d2 d) as [->|Hne]; simpl.
    + destruct b; [intros []|]. intros Hin. destruct (HC _ _ Hin) as (t & Ht & Hq). exists t. split; auto. rewrite <- Hq.
      apply asked_regs; simpl; auto; rewrite upd_same; auto. simpl. eapply rules_decr_keys; eauto.
    + intros Hin. destruct (HC _ _ Hin) as (t & Ht & Hq). exists t. split; auto. rewrite <- Hq.
      apply asked_regs; simpl; auto; rewrite upd_other; auto.
  - destruct (get_type E alloc_ok w d q) as [w1 x] eqn:Hr. injection Hs as <- <-. simpl. eapply cinv_get_type; eauto.
  - destruct (get_type_mut E alloc_ok w d dm q) as [w1 x] eqn:Hr. injection Hs as <- <-. simpl.
    destruct (Nat.eqb_spec dm d) as [->|Hn].
    + rewrite get_type_mut_same in Hr. eapply cinv_get_type; eauto.
    + unfold get_type_mut in Hr. apply Nat.eqb_neq in Hn. rewrite Hn in Hr. simpl in Hr. now injection Hr as <- <-.
  - destruct (gc w d) as [w1 x] eqn:Hr. injection Hs as <- <-. simpl. unfold gc in Hr.
    destruct (existsb (dangling w) (d_types (w_dom w d))); injection Hr as <- <-; auto.
    apply (cinv_same w); auto.
    + intros q rr. simpl. unfold upd. destruct (Nat.eqb_spec d2 d) as [->|]; simpl; auto. intros H. now apply filter_In in H.
    + intros q rr t Hin Ht. exists t. split; auto. cbn [w_type]. rewrite free_types_spec.
      destruct (existsb_tref rr (filter (fun r => ref_nobj w r =? 0) (d_types (w_dom w d)))) as [Hd|]; auto. exfalso.
      cbn [w_dom] in Hin. unfold upd in Hin. destruct (Nat.eqb_spec d2 d) as [->|Hne]; cbn [d_queries with_types] in Hin.
      * apply filter_In in Hin. destruct Hin as [_ Hk]. simpl in Hk. destruct (existsb_tref rr (filter (fun r => ref_nobj w r =? 0) (d_types (w_dom w d)))); [discriminate|]. auto.
      * apply filter_In in Hd. destruct Hd as [Hd _]. destruct (ti_types _ _ HT _ _ Hd) as (n & t2 & -> & _ & Ht2 & Hok & _).
        destruct (ti_queries _ _ HT _ _ _ Hin) as [Hx|Hin']; [discriminate|].
        destruct (ti_types _ _ HT _ _ Hin') as (n' & t' & _ & _ & Ht' & Hok' & _). congruence.
    + intros. apply asked_regs; simpl; auto; unfold upd; now destruct (Nat.eqb_spec d2 d) as [->|].
  - destruct (incr_nobj w r0) as [w1 x] eqn:Hr. injection Hs as <- <-. simpl. unfold incr_nobj in Hr.
    destruct (w_type w r0) as [t0|] eqn:Ht0; injection Hr as <- <-; auto. apply (cinv_same w); auto.
    intros q rr t Hin Ht. simpl. unfold tupd. destruct (tref_eqb_spec rr r0) as [->|]; eauto. rewrite Ht in Ht0. injection Ht0 as ->. eauto.
  - destruct (decr_nobj w r0) as [w1 x] eqn:Hr. injection Hs as <- <-. simpl. unfold decr_nobj in Hr.
    destruct (w_type w r0) as [t0|] eqn:Ht0; [|injection Hr as <- <-; auto]. destruct (t_nobj t0); injection Hr as <- <-; auto. apply (cinv_same w); auto.
    intros q rr t Hin Ht. simpl. unfold tupd. destruct (tref_eqb_spec rr r0) as [->|]; eauto. rewrite Ht in Ht0. injection Ht0 as ->. eauto.
Qed.

Lemma cinv_dstep w o w' r : WInv E w -> KInv w -> CInv w -> dstep E w o = (w', r) ->
  rules_pure E \/ registered_first w o -> CInv w'.
Proof.
  intros HW HK HC Hs Hp d2. eapply cinv_dstep_at; eauto. intros Ho q rr t Hin' Hin Ht Ha. destruct Hp as [Hp|Hp].
  - unfold asked. pose proof (dstep_dom E _ _ _ _ (proj1 HW) Hs d2) as [_ Hr]. rewrite Hr by (destruct o; destruct Ho; discriminate).
    now apply apply_rules_pure.
  - destruct o; destruct Ho; simpl in Hp; rewrite Hp in Hin; destruct Hin.
Qed.

(** the keys of the rules change only when the queries are dropped *)
Lemma dstep_keys w o w' r d2 : WInv E w -> KInv w -> dstep E w o = (w', r) ->
  map fst (d_rules (w_dom w' d2)) = map fst (d_rules (w_dom w d2)) \/ d_queries (w_dom w' d2) = [].
Proof.
  intros HW HK Hs. pose proof (dstep_dom E _ _ _ _ (proj1 HW) Hs d2) as [_ Hrules].
  destruct o; try (rewrite Hrules by discriminate; auto; fail); simpl in Hs; unfold forget in Hs.
  - unfold add_rule in Hs. destruct (r_apply (e_rule E r0)); [|injection Hs as <- <-; auto].
    destruct (rules_incr E r0 (d_rules (w_dom w d))) as [l b] eqn:Hi. injection Hs as <- <-. simpl. unfold upd.
    destruct (Nat.eqb_spec d2 d) as [->|]; simpl; auto. destruct b; auto. left. eapply rules_incr_keys; eauto.
  - unfold remove_rule in Hs. destruct (rules_decr E r0 (d_rules (w_dom w d))) as [[l b]|e|u] eqn:Hi; injection Hs as <- <-; auto.
    simpl. unfold upd. destruct (Nat.eqb_spec d2 d) as [->|]; simpl; auto. destruct b; auto. left. eapply rules_decr_keys; eauto.
Qed.

Lemma run_where_run ok tr w : run_where E ok tr w -> run E (init_world E) tr w.
Proof. induction 1; econstructor; eauto. Qed.

Lemma cinv_init : CInv (init_world E).
Proof. intros d q r []. Qed.
Lemma cinv_pure tr w : rules_pure E -> run E (init_world E) tr w -> CInv w.
Proof.
  intros Hp H. remember (init_world E) as w0 eqn:Hw0. induction H; subst; [apply cinv_init|].
  eapply cinv_dstep; eauto; [eapply winv_run; eauto|eapply kinv_run; eauto].
Qed.
Lemma cinv_first tr w : run_where E registered_first tr w -> CInv w.
Proof.
  induction 1; [apply cinv_init|]. apply run_where_run in H. eapply cinv_dstep; eauto; [eapply winv_run; eauto|eapply kinv_run; eauto].
Qed.

Lemma find_type_ext w w' ms ts : (forall r, In r ts -> w_type w' r = w_type w r) -> find_type w' ms ts = find_type w ms ts.
Proof.
  induction ts as [|r ts IH]; simpl; intros H; auto. rewrite (H r) by auto. destruct (w_type w r); [|apply IH; auto]. destruct (span_equiv _ _); auto.
Qed.

(** the cache never changes the result *)
Lemma asked_forget w d d2 q : asked (forget_queries w d) d2 q = asked w d2 q.
Proof. apply asked_regs; auto; simpl; destruct (Nat.eqb_spec d2 d) as [->|]; auto. Qed.
Lemma cache_transparent w a d q w1 r1 w2 r2 : WInv E w -> CInvAt w d ->
  get_type E a w d q = (w1, r1) -> get_type E a (forget_queries w d) d q = (w2, r2) ->
  r2 = r1 /\ (forall r, w_type w2 r = w_type w1 r) /\ (forall d2, d_types (w_dom w2 d2) = d_types (w_dom w1 d2)).
Proof.
  intros [HE HT] HC H1 H2. pose proof (get_type_case a w d q) as C1. rewrite H1 in C1.
  pose proof (get_type_case a (forget_queries w d) d q) as C2. rewrite H2 in C2.
  assert (Hty : d_types (w_dom (forget_queries w d) d) = d_types (w_dom w d)) by (simpl; now rewrite Nat.eqb_refl).
  assert (Hfty : forall ms ts, find_type (forget_queries w d) ms ts = find_type w ms ts) by (intros; now apply find_type_ext).
  assert (Hdt : forall d2, d_types (w_dom (forget_queries w d) d2) = d_types (w_dom w d2)).
  { intros d2. simpl. now destruct (Nat.eqb_spec d2 d) as [->|]. }
  inversion C2; subst; rewrite ?asked_forget, ?Hty, ?Hfty in *; gtnames ident:(Zfq) ident:(Zask) ident:(Zne) ident:(Zft) ident:(Zbt).
  { simpl in Zfq. rewrite Nat.eqb_refl in Zfq. discriminate. }
  all: try (simpl in Zfq; clear Zfq); try (cbn [forget_queries w_fid w_mid w_mdom] in Zbt); inversion C1; subst; try congruence;
    try (match goal with Hfq : find_query _ _ = Some _ |- _ =>
      apply find_query_some in Hfq; destruct (HC _ _ Hfq) as (t9 & Ht0 & Ha0); pose proof (ti_queries _ _ HT _ _ _ Hfq) as Hwhere end; try congruence).
  - split; [congruence|auto].
  - split; [congruence|auto].
  - (* stored, empty *)
    rewrite Ha0 in Zask. injection Zask as Zask. destruct Hwhere as [->|Hin].
    + split; auto. split; auto. intros d2. simpl. unfold upd. destruct (Nat.eqb_spec d2 d) as [->|]; auto; simpl; now rewrite ?Nat.eqb_refl.
    + destruct (ti_types _ _ HT _ _ Hin) as (n & t8 & -> & _ & Ht & _ & Hne & _). rewrite Ht0 in Ht. injection Ht as <-. congruence.
  - split; auto. split; auto. intros d2. simpl. unfold upd. destruct (Nat.eqb_spec d2 d) as [->|]; auto; simpl; now rewrite ?Nat.eqb_refl.
  - (* stored, found *)
    rewrite Ha0 in Zask. injection Zask as <-. apply find_type_some in Zft. destruct Zft as (Hin2 & t2 & Ht2 & Hm2). destruct Hwhere as [->|Hin].
    + destruct (ti_empty _ _ HT d) as [k Hk]. rewrite Hk in Ht0. injection Ht0 as <-. simpl in Zne. congruence.
    + assert (r = t) by (eapply (ti_uniq _ _ HT d); eauto). subst. split; auto. split; auto. intros d2. simpl. unfold upd. destruct (Nat.eqb_spec d2 d) as [->|]; auto; simpl; now rewrite ?Nat.eqb_refl.
  - assert (ms0 = ms) by congruence. subst. assert (r = r0) by congruence. subst. split; auto. split; auto.
    intros d2. simpl. unfold upd. destruct (Nat.eqb_spec d2 d) as [->|]; auto; simpl; now rewrite ?Nat.eqb_refl.
  - rewrite Ha0 in Zask. injection Zask as <-. exfalso. destruct Hwhere as [->|Hin].
    + destruct (ti_empty _ _ HT d) as [k Hk]. rewrite Hk in Ht0. injection Ht0 as <-. simpl in Zne. congruence.
    + exact (find_type_none _ _ _ _ _ Zft Hin Ht0 eq_refl).
  - assert (ms0 = ms) by congruence. subst. simpl in Zbt. assert (t = t0) by congruence. subst. split; auto. split; auto.
    intros d2. simpl. unfold upd. destruct (Nat.eqb_spec d2 d) as [->|]; auto; simpl; now rewrite ?Nat.eqb_refl.
  - rewrite Ha0 in Zask. injection Zask as <-. exfalso. destruct Hwhere as [->|Hin].
    + destruct (ti_empty _ _ HT d) as [k Hk]. rewrite Hk in Ht0. injection Ht0 as <-. simpl in Zne. congruence.
    + exact (find_type_none _ _ _ _ _ Zft Hin Ht0 eq_refl).
  - assert (ms0 = ms) by congruence. subst. simpl in Zbt. split; [congruence|auto].
  - rewrite Ha0 in Zask. injection Zask as <-. exfalso. destruct Hwhere as [->|Hin].
    + destruct (ti_empty _ _ HT d) as [k Hk]. rewrite Hk in Ht0. injection Ht0 as <-. simpl in Zne. congruence.
    + exact (find_type_none _ _ _ _ _ Zft Hin Ht0 eq_refl).
  - assert (ms0 = ms) by congruence. subst. simpl in Zbt. split; [congruence|auto].
Qed.

(** the type got is the one the rules say *)
Lemma get_type_asked w a d q w1 r t : WInv E w -> CInvAt w d -> get_type E a w d q = (w1, Ok r) -> w_type w1 r = Some t ->
  asked w d q = Ok (q, t_mixins t).
Proof.
  intros [HE HT] HC H1 Ht. pose proof (get_type_case a w d q) as C1. rewrite H1 in C1. gtinv C1.
  - apply find_query_some in Hfq. destruct (HC _ _ Hfq) as (t0 & Ht0 & Ha). congruence.
  - simpl in Ht. destruct (ti_empty _ _ HT d) as [k Hk]. rewrite Hk in Ht. injection Ht as <-. auto.
  - simpl in Ht. apply find_type_some in Hft. destruct Hft as (_ & t2 & Ht2 & <-). congruence.
  - simpl in Ht. unfold tupd in Ht. destruct (tref_eqb_spec (TReg (w_next w)) (TReg (w_next w))) as [_|]; [|congruence]. injection Ht as <-.
    pose proof (build_type_ok _ _ _ _ _ _ _ _ Hbt) as (-> & _). auto.
Qed.
End Dom.
