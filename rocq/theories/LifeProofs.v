(** Lemmas on traversal, and on domains that end *)
From Coq Require Import List Arith ZArith NArith Lia Bool.
From Verif Require Import Base Sv Info Registry TypeMut Rules TypeBuild TypeQuery Domain SpecReg SpecDom SpecRule BaseLemmas RegistryProofs ElemProofs TypesProofs HistProofs
  RegTheorems DomTheorems RuleTheorems SpecOrd SpecOom Oom OomProofs Life SpecLife.
Import ListNotations.

(** ** Traversal *)
Lemma visit_in s x : In x (visit_sparse s) <-> In (Some x) s.
Proof.
  induction s as [|[y|] s IH]; cbn; [tauto| |].
  - rewrite IH. split; [intros [->|]; auto|intros [[= ->]|]; auto].
  - rewrite IH. split; [auto|intros [|]; [discriminate|auto]].
Qed.
Lemma visit_nodup s : (forall i j x, nth_error s i = Some (Some x) -> nth_error s j = Some (Some x) -> i = j) -> NoDup (visit_sparse s).
Proof.
  induction s as [|[y|] s IH]; cbn; intros H; [constructor| |].
  - constructor.
    + rewrite visit_in. intros Hin. apply In_nth_error in Hin as [i Hi]. specialize (H 0 (S i) y eq_refl Hi). discriminate.
    + apply IH. intros i j x Hi Hj. specialize (H (S i) (S j) x Hi Hj). congruence.
  - apply IH. intros i j x Hi Hj. specialize (H (S i) (S j) x Hi Hj). congruence.
Qed.

Section L.
Variable E : env.
Lemma c72_elements tr w d : run E (init_world E) tr w ->
  (NoDup (traverse_mixins w d) /\ forall m, In m (traverse_mixins w d) <-> mixin_registered tr m = Some d) /\
  (exists cur, features_registered E tr cur /\ NoDup (traverse_features w d) /\ forall f, In f (traverse_features w d) <-> cur f = Some d) /\
  (NoDup (traverse_type_classes w d) /\ forall c, In c (traverse_type_classes w d) <-> tc_registered tr d c = true).
Proof.
  intros H. pose proof (winv_run E _ _ H) as [HE HT]. split; [|split].
  - split.
    + apply visit_nodup. intros i j m A B. apply (ei_m1 _ _ HE) in A, B. destruct A, B. congruence.
    + intros m. unfold traverse_mixins. rewrite visit_in, (run_mixins E _ _ H). split.
      * intros Hin. apply In_nth_error in Hin as [i Hi]. now apply (ei_m1 _ _ HE) in Hi.
      * intros Hm. destruct (ei_m2 _ _ HE _ _ Hm) as (i & _ & Hi). eapply nth_error_In; eauto.
  - destruct (run_features E _ _ H) as (cur & Hc & Hf). exists cur. split; [auto|]. split.
    + apply visit_nodup. intros i j f A B. apply (ei_f1 _ _ HE) in A, B. congruence.
    + intros f. unfold traverse_features. rewrite visit_in, (Hf f d). unfold fdom. split.
      * intros Hin. now apply In_nth_error in Hin.
      * intros [i Hi]. eapply nth_error_In; eauto.
  - destruct (run_tcs E _ _ d H) as (A & B & C). split.
    + apply visit_nodup. intros i j c Hi Hj. eapply B; eauto.
    + intros c. unfold traverse_type_classes. now rewrite visit_in, A.
Qed.
Lemma c72_types tr w d : run E (init_world E) tr w ->
  NoDup (traverse_types w d) /\ num_types w d = length (traverse_types w d) /\
  (forall r, In r (traverse_types w d) <-> exists n t, r = TReg n /\ w_type w r = Some t /\ t_dom t = d) /\
  NoDup (map fst (traverse_type_queries w d)) /\ num_type_queries w d = length (traverse_type_queries w d) /\
  (forall q r a, In (q, r) (traverse_type_queries w d) -> get_type E a w d q = (w, Ok r)).
Proof.
  intros H. pose proof (winv_run E _ _ H) as [HE HT]. split; [apply (ti_nodup _ _ HT)|]. split; [reflexivity|]. split; [|split; [apply (ti_keys _ _ HT)|split; [reflexivity|]]].
  - intros r. unfold traverse_types. split.
    + intros Hin. destruct (ti_types _ _ HT _ _ Hin) as (n & t & -> & _ & Ht & Hok & _). eauto.
    + intros (n & t & -> & Ht & <-). exact (ti_alive _ _ HT _ _ Ht).
  - intros q r a Hin. unfold get_type. now rewrite (find_query_in _ _ _ (ti_keys _ _ HT d) Hin).
Qed.
Lemma c72_rules tr w d : regular_rules E -> run E (init_world E) tr w ->
  NoDup (map fst (traverse_mutation_rules w d)) /\ num_mutation_rules w d = length (traverse_mutation_rules w d) /\
  forall r n, In (r, n) (traverse_mutation_rules w d) <-> n = rule_count E tr d r /\ 0 < n.
Proof.
  intros HR H. destruct (run_rules E HR tr w d H) as [Hs Hc]. split; [apply (sorted_nodup E), rsorted_keys; auto|]. split; [reflexivity|].
  intros r n. unfold traverse_mutation_rules. rewrite (Hc r n). lia.
Qed.

(** ** One domain beside another *)
Definition local (w w' : world) (d : dptr) : Prop := forall d2, d2 <> d -> w_dom w' d2 = w_dom w d2.
Lemma local_refl w d : local w w d.
Proof. intros d2 _. reflexivity. Qed.
Lemma upd_out {A} (f : nat -> A) k v x : x <> k -> upd f k v x = f x.
Proof. intros H. unfold upd. now rewrite (proj2 (Nat.eqb_neq x k)). Qed.
Lemma local_register_feature w d f : local w (fst (register_feature E w d f)) d.
Proof. unfold register_feature. destruct (basic_register _ _ _ _ _) as [[sp id]|e|u]; cbn; intros d2 H; cbn; auto. now rewrite upd_out. Qed.
Lemma local_features d fs : forall w, local w (fst (register_features_of E w d fs)) d.
Proof.
  induction fs as [|f fs IH]; intros w d2 H; cbn [register_features_of]; [reflexivity|]. destruct (w_fid w (ff_info f)) as [i|].
  - destruct (nth_error _ i) as [[p|]|]; auto. destruct (p =? ff_info f); auto. now apply IH.
  - pose proof (local_register_feature w d (ff_info f) d2 H) as L. destruct (register_feature E w d (ff_info f)) as [w1 [x|e|u]]; cbn [fst] in *; auto. rewrite <- L. now apply IH.
Qed.
Lemma local_dstep w o d : on_domain w o = Some d -> local w (fst (dstep E w o)) d.
Proof.
  intros Ho d2 Hd. destruct o; cbn in Ho; try (injection Ho as ->); cbn [dstep forget retty fst].
  - now apply local_register_feature.
  - unfold unregister_feature. destruct (basic_unregister _ _ _) as [sp|e|u]; cbn; auto. now rewrite upd_out.
  - unfold register_mixin. destruct (match w_mdom w m with Some d' => negb (d' =? d) | None => false end); auto.
    pose proof (local_features d (m_features (e_mixin E m)) w d2 Hd) as L. destruct (register_features_of E w d _) as [w1 [x|e|u]]; cbn [fst] in *; auto.
    destruct (basic_register _ _ _ _ _) as [[sp id]|e|u]; cbn; auto. now rewrite upd_out.
  - unfold unregister_mixin, purge_types. destruct (existsb _ (d_queries _)); auto. destruct (existsb _ (filter _ _)); auto. unfold unregister_mixin_elem.
    destruct (basic_unregister _ _ _) as [sp|e|u]; cbn; rewrite ?upd_out; auto.
  - unfold register_type_class. destruct (register_tc _ _ _) as [sp|e|u]; cbn; auto. now rewrite upd_out.
  - cbn. now rewrite upd_out.
  - unfold add_rule. destruct (r_apply _); auto. destruct (rules_incr _ _ _) as [l b]. cbn. now rewrite upd_out.
  - unfold remove_rule. destruct (rules_decr _ _ _) as [[l b]|e|u]; cbn; auto. now rewrite upd_out.
  - rewrite <- get_type_mut_same. unfold get_type_mut. destruct (negb _); auto. destruct (lookup_type E w d q) as [[t|oq ms [t|]]|e|u]; cbn; auto; [now rewrite upd_out|].
    destruct (build_type _ _ _ _ _ _ _) as [t|e|u]; cbn; auto. unfold insert_type. destruct (find_type _ _ _); cbn; now rewrite upd_out.
  - unfold get_type_mut. destruct (negb _); auto. destruct (lookup_type E w d q) as [[t|oq ms [t|]]|e|u]; cbn; auto; [now rewrite upd_out|].
    destruct (build_type _ _ _ _ _ _ _) as [t|e|u]; cbn; auto. unfold insert_type. destruct (find_type _ _ _); cbn; now rewrite upd_out.
  - unfold gc. destruct (existsb _ _); auto. cbn. now rewrite upd_out.
  - unfold incr_nobj. destruct (w_type w r); auto.
  - unfold decr_nobj. destruct (w_type w r) as [t|]; auto. destruct (t_nobj t); auto.
Qed.

(** Types of other domains *)
Definition of_dom (w : world) (d : dptr) (r : tref) : Prop := r = TEmpty d \/ In r (d_types (w_dom w d)).
Lemma of_dom_ne w d d2 r : TInv E w -> d2 <> d -> of_dom w d2 r -> r <> TEmpty d /\ ~ In r (d_types (w_dom w d)).
Proof.
  intros HT Hd [->|Hin]; split; intros K.
  - congruence.
  - destruct (ti_types _ _ HT _ _ K) as (n & t & ? & _). discriminate.
  - subst. destruct (ti_types _ _ HT _ _ Hin) as (n & t & ? & _). discriminate.
  - destruct (ti_types _ _ HT _ _ Hin) as (n & t & -> & _ & A & B & _), (ti_types _ _ HT _ _ K) as (n2 & t2 & [= <-] & _ & A2 & B2 & _). congruence.
Qed.
Lemma freed_other f dead r : ~ In r dead -> free_types f dead r = f r.
Proof. intros H. rewrite free_types_spec. destruct (existsb_tref r dead); tauto. Qed.
Lemma of_dom_old w d r : TInv E w -> of_dom w d r -> r <> TReg (w_next w).
Proof. intros HT [->|Hin]; [discriminate|]. destruct (ti_types _ _ HT _ _ Hin) as (n & t & -> & ? & _). intros [= ->]. lia. Qed.
Lemma insert_types w d oq t r d2 : TInv E w -> of_dom w d2 r -> w_type (fst (insert_type w d oq t)) r = w_type w r.
Proof.
  intros HT K. unfold insert_type. destruct (find_type _ _ _); cbn; auto. unfold tupd. destruct (tref_eqb_spec r (TReg (w_next w))) as [->|]; auto.
  now apply of_dom_old in K.
Qed.
Lemma mut_types a w d dm q r d2 : TInv E w -> of_dom w d2 r -> w_type (fst (get_type_mut E a w d dm q)) r = w_type w r.
Proof.
  intros HT K. unfold get_type_mut. destruct (negb _); auto. destruct (lookup_type E w d q) as [[t|oq ms [t|]]|e|u]; cbn; auto.
  destruct (build_type _ _ _ _ _ _ _) as [t|e|u]; cbn; auto. pose proof (insert_types w d oq t r d2 HT K) as I. destruct (insert_type w d oq t). exact I.
Qed.
Lemma types_dstep w o d d2 r : WInv E w -> on_domain w o = Some d -> d2 <> d -> of_dom w d2 r -> w_type (fst (dstep E w o)) r = w_type w r.
Proof.
  intros [HE HT] Ho Hd K. destruct (of_dom_ne w d d2 r HT Hd K) as [K1 K2]. destruct o; cbn in Ho; try (injection Ho as ->); cbn [dstep forget retty fst].
  - destruct (register_feature_only E w d f) as (_ & _ & A & _). now rewrite A.
  - unfold unregister_feature. destruct (basic_unregister _ _ _) as [sp|e|u]; reflexivity.
  - unfold register_mixin. destruct (match w_mdom w m with Some d' => negb (d' =? d) | None => false end); auto.
    pose proof (register_features_of_only E (m_features (e_mixin E m)) w d) as (_ & _ & A & _). destruct (register_features_of E w d _) as [w1 [x|e|u]]; cbn [fst] in *; try now rewrite A.
    destruct (basic_register _ _ _ _ _) as [[sp id]|e|u]; cbn; now rewrite A.
  - unfold unregister_mixin, purge_types. destruct (existsb _ (d_queries _)); auto. destruct (existsb _ (filter _ _)); auto. unfold unregister_mixin_elem.
    destruct (basic_unregister _ _ _) as [sp|e|u]; cbn; apply freed_other; intros X; apply filter_In in X; tauto.
  - unfold register_type_class. destruct (register_tc _ _ _) as [sp|e|u]; reflexivity.
  - reflexivity.
  - unfold add_rule. destruct (r_apply _); auto. destruct (rules_incr _ _ _) as [l b]. reflexivity.
  - unfold remove_rule. destruct (rules_decr _ _ _) as [[l b]|e|u]; reflexivity.
  - rewrite <- get_type_mut_same. now apply mut_types with d2.
  - now apply mut_types with d2.
  - unfold gc. destruct (existsb _ _); auto. cbn. apply freed_other. intros X. apply filter_In in X. tauto.
  - assert (N : r <> r0).
    { intros <-. destruct r as [x|n]; [cbn in Ho; congruence|]. destruct (w_type w (TReg n)) as [t|] eqn:T; [|discriminate]. cbn in Ho. injection Ho as <-. apply K2. exact (ti_alive _ _ HT _ _ T). }
    unfold incr_nobj. destruct (w_type w r0); auto. cbn. unfold tupd. destruct (tref_eqb_spec r r0); auto. contradiction.
  - assert (N : r <> r0).
    { intros <-. destruct r as [x|n]; [cbn in Ho; congruence|]. destruct (w_type w (TReg n)) as [t|] eqn:T; [|discriminate]. cbn in Ho. injection Ho as <-. apply K2. exact (ti_alive _ _ HT _ _ T). }
    unfold decr_nobj. destruct (w_type w r0) as [t|]; auto. destruct (t_nobj t); auto. cbn. unfold tupd. destruct (tref_eqb_spec r r0); auto. contradiction.
Qed.
Lemma same_domain w w' d2 : WInv E w -> WInv E w' -> w_dom w' d2 = w_dom w d2 -> (forall r, of_dom w d2 r -> w_type w' r = w_type w r) -> domain_same w w' d2.
Proof.
  intros [HE HT] [HE' HT'] L HTy. unfold domain_same. rewrite L. repeat (split; [reflexivity|]). split; [|split; [|split]].
  - intros r t. unfold has_type. rewrite L. split; intros [A B]; (split; [|exact B]); rewrite HTy in * by exact B; auto.
  - intros m. split; intros M.
    + destruct (ei_m2 _ _ HE _ _ M) as (i & _ & Hi). rewrite <- L in Hi. now apply (ei_m1 _ _ HE') in Hi.
    + destruct (ei_m2 _ _ HE' _ _ M) as (i & _ & Hi). rewrite L in Hi. now apply (ei_m1 _ _ HE) in Hi.
  - intros m M. destruct (ei_m2 _ _ HE _ _ M) as (i & K & Hi). rewrite <- L in Hi. apply (ei_m1 _ _ HE') in Hi. destruct Hi. congruence.
  - intros f i G. unfold get_feature_by_id in G. rewrite get_by_id_spec in G. pose proof G as G2. rewrite <- L in G2. apply (ei_f1 _ _ HE) in G. apply (ei_f1 _ _ HE') in G2. congruence.
Qed.
Lemma c73_isolated tr w o w' r d d2 : run E (init_world E) tr w -> on_domain w o = Some d -> d2 <> d -> dstep E w o = (w', r) -> domain_same w w' d2.
Proof.
  intros H Ho Hd Hs. pose proof (winv_run E _ _ H) as HW. pose proof (winv_dstep E _ _ _ _ HW Hs) as HW'.
  apply same_domain; auto.
  - pose proof (local_dstep w o d Ho d2 Hd) as L. now rewrite Hs in L.
  - intros x K. pose proof (types_dstep w o d d2 x HW Ho Hd K) as L. now rewrite Hs in L.
Qed.

(** ** Domains that end clean *)
Lemma clean_end_ok w d w' : WInv E w -> (forall i, get_mixin_by_id w d i = None) -> (forall i, get_feature_by_id w d i = None) -> destroy_domain E w d = Ok w' ->
  WInv E w' /\ (forall d2, d2 <> d -> w_dom w' d2 = w_dom w d2) /\ w_mid w' = w_mid w /\ w_mdom w' = w_mdom w /\ w_fid w' = w_fid w /\ (forall r, w_type w' r = w_type w r).
Proof.
  intros [HE HT] HM HF H. unfold destroy_domain in H. destruct (existsb _ (TEmpty d :: _)); [discriminate|]. injection H as <-.
  assert (M : forall m, w_mdom w m <> Some d).
  { intros m K. destruct (ei_m2 _ _ HE _ _ K) as (i & _ & Hi). specialize (HM (Some i)). unfold get_mixin_by_id, get_by_id in HM. rewrite Hi in HM. discriminate. }
  assert (F : forall i f, nth_error (d_features (w_dom w d)) i <> Some (Some f)).
  { intros i f K. specialize (HF (Some i)). unfold get_feature_by_id, get_by_id in HF. rewrite K in HF. discriminate. }
  assert (T : d_types (w_dom w d) = []).
  { destruct (d_types (w_dom w d)) as [|r l] eqn:D; auto. destruct (ti_types _ _ HT d r) as (n & t & -> & _ & Ht & (A1 & A2 & _ & A3 & _)); [rewrite D; now left|].
    destruct (t_mixins t) as [|m ms] eqn:Q; [congruence|]. destruct (M m). apply A3. now left. }
  rewrite T. assert (FT : forall r, free_types (w_type w) [] r = w_type w r) by reflexivity.
  split; [|cbn; repeat split; auto; intros; now rewrite upd_out]. split.
  - constructor; cbn.
    + intros d2 i m. unfold upd. destruct (Nat.eqb_spec d2 d) as [->|]; [cbn; destruct i; discriminate|apply (ei_m1 _ _ HE)].
    + intros m d2 K. destruct (ei_m2 _ _ HE _ _ K) as (i & A & B). exists i. split; auto. rewrite upd_out; auto. intros ->. now apply M in K.
    + apply (ei_m3 _ _ HE).
    + intros d2 i f. unfold upd. destruct (Nat.eqb_spec d2 d) as [->|]; [cbn; destruct i; discriminate|apply (ei_f1 _ _ HE)].
    + intros f i K. destruct (ei_f2 _ _ HE _ _ K) as [d2 A]. exists d2. rewrite upd_out; auto. intros ->. now apply F in A.
    + intros d2 d3 i i' f. unfold upd. destruct (Nat.eqb_spec d2 d) as [->|]; [cbn; destruct i; discriminate|]. destruct (Nat.eqb_spec d3 d) as [->|]; [cbn; destruct i'; discriminate|apply (ei_f3 _ _ HE)].
    + intros d2. unfold upd. destruct (Nat.eqb_spec d2 d) as [->|]; [|apply (ei_n1 _ _ HE)]. intros _. cbn. split; [intros ? []|intros [|]; discriminate].
    + intros d2. unfold upd. destruct (Nat.eqb_spec d2 d) as [->|]; [|apply (ei_n2 _ _ HE)]. intros _. cbn. split; [intros ? []|intros [|]; discriminate].
  - eapply (tinv_same E w); [..|exact HT]; cbn; auto.
    + intros d2. unfold upd. destruct (Nat.eqb_spec d2 d) as [->|]; auto.
    + intros d2. unfold upd. destruct (Nat.eqb_spec d2 d) as [->|]; auto.
Qed.
Lemma winv_lrun tr l : lrun E clean_end (l_init E) tr l -> WInv E (l_w l).
Proof.
  induction 1 as [|tr l o l' r H IH Hok Hs Hu]; [exact (winv_run E [] _ (run_nil _ _))|]. destruct o as [o|d]; cbn [lstep] in Hs.
  - destruct (on_domain (l_w l) o) as [d|]; [|now injection Hs as <- <-]. destruct (l_dead l d); [now injection Hs as <- <-|].
    destruct (dstep E (l_w l) o) as [w1 x] eqn:D. injection Hs as <- <-. cbn. eapply winv_dstep; eauto.
  - destruct (l_dead l d); [now injection Hs as <- <-|]. destruct Hok as [A B]. destruct (destroy_domain E (l_w l) d) as [w'|e|u] eqn:D; injection Hs as <- <-; auto.
    cbn. now apply (clean_end_ok (l_w l) d).
Qed.
Lemma c73_clean tr l : lrun E clean_end (l_init E) tr l ->
  sound (l_w l) /\
  (forall m d, w_mdom (l_w l) m = Some d -> l_dead l d = false) /\
  (forall f i, w_fid (l_w l) f = Some i -> exists d, l_dead l d = false /\ get_feature_by_id (l_w l) d (Some i) = Some f).
Proof.
  intros H. split; [apply winv_sound with (E := E); eapply winv_lrun; eauto|].
  assert (Q : (forall d i m, l_dead l d = true -> nth_error (d_mixins (w_dom (l_w l) d)) i <> Some (Some m)) /\ (forall d i f, l_dead l d = true -> nth_error (d_features (w_dom (l_w l) d)) i <> Some (Some f))).
  { induction H as [|tr l o l' r H IH Hok Hs Hu]; [split; discriminate|]. destruct o as [o|d]; cbn [lstep] in Hs.
    - destruct (on_domain (l_w l) o) as [d|] eqn:O; [|injection Hs as <- <-; auto]. destruct (l_dead l d) eqn:D; [injection Hs as <- <-; auto|].
      pose proof (local_dstep (l_w l) o d O) as L. destruct (dstep E (l_w l) o) as [w1 x]. injection Hs as <- <-. cbn [fst] in L. cbn. destruct IH as [I1 I2].
      split; intros d2 i y Y; (rewrite L by congruence); auto.
    - destruct (l_dead l d) eqn:D; [injection Hs as <- <-; auto|]. destruct (destroy_domain E (l_w l) d) as [w'|e|u] eqn:X; injection Hs as <- <-; auto.
      destruct Hok as [A B]. destruct (clean_end_ok _ _ _ (winv_lrun _ _ H) A B X) as (W & L & _).
      unfold destroy_domain in X. destruct (existsb _ (TEmpty d :: _)); [discriminate|]. injection X as <-. destruct IH as [I1 I2]. cbn. unfold upd.
      split; intros d2 i y; destruct (Nat.eqb_spec d2 d) as [->|]; cbn; auto; destruct i; discriminate. }
  destruct Q as [Q1 Q2]. destruct (winv_lrun _ _ H) as [HE HT]. split.
  - intros m d K. destruct (l_dead l d) eqn:D; auto. destruct (ei_m2 _ _ HE _ _ K) as (i & _ & Hi). destruct (Q1 _ _ _ D Hi).
  - intros f i K. destruct (ei_f2 _ _ HE _ _ K) as [d Hd]. exists d. split; [destruct (l_dead l d) eqn:D; auto; destruct (Q2 _ _ _ D Hd)|]. unfold get_feature_by_id. now rewrite get_by_id_spec.
Qed.
End L.

(** ** Domains that end with mixins and features registered *)
Section Lost.
Variable E : env.
(** What stays true of the registries then *)
Record LInv (w : world) : Prop := {
  li_m1 : forall d i m, nth_error (d_mixins (w_dom w d)) i = Some (Some m) -> w_mid w m = Some i /\ w_mdom w m = Some d;
  li_f1 : forall d i f, nth_error (d_features (w_dom w d)) i = Some (Some f) -> w_fid w f = Some i;
  li_f3 : forall d d' i i' f, nth_error (d_features (w_dom w d)) i = Some (Some f) -> nth_error (d_features (w_dom w d')) i' = Some (Some f) -> d = d'
}.
Lemma linv_same w w' : w_mid w' = w_mid w -> w_mdom w' = w_mdom w -> w_fid w' = w_fid w ->
  (forall d, d_mixins (w_dom w' d) = d_mixins (w_dom w d)) -> (forall d, d_features (w_dom w' d) = d_features (w_dom w d)) -> LInv w -> LInv w'.
Proof. intros A B C D F [H1 H2 H3]. constructor; rewrite ?A, ?B, ?C; intros *; rewrite ?D, ?F; eauto. Qed.
Lemma linv_register_feature w d f : LInv w -> LInv (fst (register_feature E w d f)).
Proof.
  intros HL. unfold register_feature. destruct (basic_register _ _ _ _ _) as [[sp id]|e|u] eqn:Hb; auto. cbn.
  destruct (basic_register_ok _ _ _ _ _ _ _ (li_f1 _ HL d) Hb) as (B1 & B2 & B3 & B4 & B5 & B6).
  assert (Hnth : forall d2 i f2, nth_error (d_features (upd (w_dom w) d (with_features (w_dom w d) sp) d2)) i = Some (Some f2) ->
    (d2 = d /\ i = id /\ f2 = f) \/ (f2 <> f /\ nth_error (d_features (w_dom w d2)) i = Some (Some f2))).
  { intros d2 i f2. unfold upd. destruct (Nat.eqb_spec d2 d) as [->|Hd]; simpl.
    - destruct (Nat.eq_dec i id) as [->|Hi].
      + rewrite B3. intros [= <-]. auto.
      + rewrite B4 by auto. intros Hx. right. split; auto. intros ->. apply (li_f1 _ HL) in Hx. congruence.
    - intros Hx. right. split; auto. intros ->. apply (li_f1 _ HL) in Hx. congruence. }
  constructor; cbn.
  - intros d2 i m. unfold upd. destruct (Nat.eqb_spec d2 d) as [->|]; simpl; apply (li_m1 _ HL).
  - intros d2 i f2 Hx. destruct (Hnth _ _ _ Hx) as [(-> & -> & ->)|(Hne & Hx')]; [apply upd_same|]. rewrite upd_other by auto. now apply (li_f1 _ HL) in Hx'.
  - intros d2 d3 i i' f2 H2 H3. destruct (Hnth _ _ _ H2) as [(-> & -> & ->)|(Hne & H2')]; destruct (Hnth _ _ _ H3) as [(-> & -> & Hff)|(Hne' & H3')]; auto; try congruence.
    eapply (li_f3 _ HL); eauto.
Qed.
Lemma linv_features d fs : forall w, LInv w -> LInv (fst (register_features_of E w d fs)).
Proof.
  induction fs as [|f fs IH]; intros w HL; cbn [register_features_of]; auto. destruct (w_fid w (ff_info f)) as [i|].
  - destruct (nth_error _ i) as [[p|]|]; auto. destruct (p =? ff_info f); auto.
  - pose proof (linv_register_feature w d (ff_info f) HL) as L. destruct (register_feature E w d (ff_info f)) as [w1 [x|e|u]]; cbn [fst] in *; auto.
Qed.
Lemma set_nth_none {A} (s : list (option A)) i j x : nth_error (set_nth i None s) j = Some (Some x) -> j <> i /\ nth_error s j = Some (Some x).
Proof. revert i j. induction s as [|y s IH]; intros [|i] [|j]; cbn; try discriminate; auto. intros H. apply IH in H. destruct H. split; auto. Qed.
Lemma linv_dstep w o : LInv w -> LInv (fst (dstep E w o)).
Proof.
  intros HL.
  assert (S : forall w', w_mid w' = w_mid w -> w_mdom w' = w_mdom w -> w_fid w' = w_fid w -> (forall d, d_mixins (w_dom w' d) = d_mixins (w_dom w d) /\ d_features (w_dom w' d) = d_features (w_dom w d)) -> LInv w').
  { intros w' A B C D. apply (linv_same w); auto; intros d; apply D. }
  assert (G : forall a d dm q, LInv (fst (get_type_mut E a w d dm q))).
  { intros a d dm q. unfold get_type_mut. destruct (negb _); auto. destruct (lookup_type E w d q) as [[t|oq ms [t|]]|e|u]; cbn; auto.
    - apply S; auto. intros d2. cbn. unfold upd. destruct (Nat.eqb_spec d2 d) as [->|]; auto.
    - destruct (build_type _ _ _ _ _ _ _) as [t|e|u]; cbn; auto. unfold insert_type. destruct (find_type _ _ _); cbn; (apply S; auto); intros d2; cbn; unfold upd; destruct (Nat.eqb_spec d2 d) as [->|]; auto. }
  destruct o; cbn [dstep forget retty fst].
  - now apply linv_register_feature.
  - unfold unregister_feature. destruct (basic_unregister _ _ _) as [sp|e|u] eqn:Hb; auto. cbn. apply basic_unregister_ok in Hb as (i0 & K1 & K2 & ->).
    assert (Hnth : forall d2 i f2, nth_error (d_features (upd (w_dom w) d (with_features (w_dom w d) (set_nth i0 None (d_features (w_dom w d)))) d2)) i = Some (Some f2) -> f2 <> f /\ nth_error (d_features (w_dom w d2)) i = Some (Some f2)).
    { intros d2 i f2. unfold upd. destruct (Nat.eqb_spec d2 d) as [->|Hd]; cbn.
      - intros X. apply set_nth_none in X as [X1 X2]. split; auto. intros ->. apply (li_f1 _ HL) in X2. congruence.
      - intros X. split; auto. intros ->. now pose proof (li_f3 _ HL _ _ _ _ _ X K2). }
    constructor; cbn.
    + intros d2 i m. unfold upd. destruct (Nat.eqb_spec d2 d) as [->|]; simpl; apply (li_m1 _ HL).
    + intros d2 i f2 X. apply Hnth in X as [X1 X2]. rewrite upd_other by auto. now apply (li_f1 _ HL) in X2.
    + intros d2 d3 i i' f2 X Y. apply Hnth in X as [X1 X2]. apply Hnth in Y as [Y1 Y2]. eapply (li_f3 _ HL); eauto.
  - unfold register_mixin. destruct (match w_mdom w m with Some d' => negb (d' =? d) | None => false end); auto.
    pose proof (linv_features d (m_features (e_mixin E m)) w HL) as L. destruct (register_features_of E w d _) as [w1 [x|e|u]]; cbn [fst] in *; auto.
    clear HL S G w. rename w1 into w, L into HL. destruct (basic_register _ _ _ _ _) as [[sp id]|e|u] eqn:Hb; auto. cbn.
    assert (RO : forall i m, nth_error (d_mixins (w_dom w d)) i = Some (Some m) -> w_mid w m = Some i) by (intros i y Y; now apply (li_m1 _ HL) in Y).
    destruct (basic_register_ok _ _ _ _ _ _ _ RO Hb) as (B1 & B2 & B3 & B4 & B5 & B6). constructor; cbn.
    + intros d2 i m2. unfold upd at 1. destruct (Nat.eqb_spec d2 d) as [->|Hd]; cbn.
      * destruct (Nat.eq_dec i id) as [->|Hi].
        -- rewrite B3. intros [= <-]. now rewrite !upd_same.
        -- rewrite B4 by auto. intros Hx. apply (li_m1 _ HL) in Hx as [X1 X2]. rewrite !upd_other by congruence. auto.
      * intros Hx. apply (li_m1 _ HL) in Hx as [X1 X2]. rewrite !upd_other by congruence. auto.
    + intros d2 i f. unfold upd. destruct (Nat.eqb_spec d2 d) as [->|]; simpl; apply (li_f1 _ HL).
    + intros d2 d3 i i' f. unfold upd. destruct (Nat.eqb_spec d2 d) as [->|], (Nat.eqb_spec d3 d) as [->|]; simpl; apply (li_f3 _ HL).
  - unfold unregister_mixin. destruct (purge_types w d m) as [w1|e|u] eqn:P; auto.
    assert (L : LInv w1).
    { unfold purge_types in P. destruct (existsb _ (d_queries _)); [discriminate|]. destruct (existsb _ (filter _ _)); [discriminate|]. injection P as <-. apply S; auto.
      intros d2. cbn. unfold upd. destruct (Nat.eqb_spec d2 d) as [->|]; auto. }
    clear HL S G P w. rename w1 into w, L into HL. unfold unregister_mixin_elem. destruct (basic_unregister _ _ _) as [sp|e|u] eqn:Hb; auto. cbn. apply basic_unregister_ok in Hb as (i0 & K1 & K2 & ->).
    constructor; cbn.
    + intros d2 i m2. unfold upd at 1. destruct (Nat.eqb_spec d2 d) as [->|Hd]; cbn.
      * intros X. apply set_nth_none in X as [X1 X2]. apply (li_m1 _ HL) in X2 as [X2 X3]. rewrite !upd_other by congruence. auto.
      * intros X. apply (li_m1 _ HL) in X as [X2 X3]. apply (li_m1 _ HL) in K2 as [K2 K3]. rewrite !upd_other by congruence. auto.
    + intros d2 i f. unfold upd. destruct (Nat.eqb_spec d2 d) as [->|]; simpl; apply (li_f1 _ HL).
    + intros d2 d3 i i' f. unfold upd. destruct (Nat.eqb_spec d2 d) as [->|], (Nat.eqb_spec d3 d) as [->|]; simpl; apply (li_f3 _ HL).
  - unfold register_type_class. destruct (register_tc _ _ _) as [sp|e|u]; auto. apply S; auto. intros d2. cbn. unfold upd. destruct (Nat.eqb_spec d2 d) as [->|]; auto.
  - apply S; auto. intros d2. cbn. unfold upd. destruct (Nat.eqb_spec d2 d) as [->|]; auto.
  - unfold add_rule. destruct (r_apply _); auto. destruct (rules_incr _ _ _) as [l b]. apply S; auto. intros d2. cbn. unfold upd. destruct (Nat.eqb_spec d2 d) as [->|]; auto.
  - unfold remove_rule. destruct (rules_decr _ _ _) as [[l b]|e|u]; auto. apply S; auto. intros d2. cbn. unfold upd. destruct (Nat.eqb_spec d2 d) as [->|]; auto.
  - rewrite <- get_type_mut_same. apply G.
  - apply G.
  - unfold gc. destruct (existsb _ _); auto. apply S; auto. intros d2. cbn. unfold upd. destruct (Nat.eqb_spec d2 d) as [->|]; auto.
  - unfold incr_nobj. destruct (w_type w r); auto.
  - unfold decr_nobj. destruct (w_type w r) as [t|]; auto. destruct (t_nobj t); auto.
Qed.
Lemma linv_lstep l o l' r : LInv (l_w l) -> lstep E l o = (l', r) -> LInv (l_w l').
Proof.
  intros HL Hs. destruct o as [o|d]; cbn [lstep] in Hs.
  - destruct (on_domain (l_w l) o) as [d|]; [|now injection Hs as <- <-]. destruct (l_dead l d); [now injection Hs as <- <-|].
    pose proof (linv_dstep (l_w l) o HL) as L. destruct (dstep E (l_w l) o) as [w1 x]. injection Hs as <- <-. exact L.
  - destruct (l_dead l d); [now injection Hs as <- <-|]. destruct (destroy_domain E (l_w l) d) as [w'|e|u] eqn:X; injection Hs as <- <-; auto.
    unfold destroy_domain in X. destruct (existsb _ (TEmpty d :: _)); [discriminate|]. injection X as <-. cbn. constructor; cbn.
    + intros d2 i m. unfold upd. destruct (Nat.eqb_spec d2 d) as [->|]; [cbn; destruct i; discriminate|apply (li_m1 _ HL)].
    + intros d2 i f. unfold upd. destruct (Nat.eqb_spec d2 d) as [->|]; [cbn; destruct i; discriminate|apply (li_f1 _ HL)].
    + intros d2 d3 i i' f. unfold upd. destruct (Nat.eqb_spec d2 d) as [->|]; [cbn; destruct i; discriminate|]. destruct (Nat.eqb_spec d3 d) as [->|]; [cbn; destruct i'; discriminate|apply (li_f3 _ HL)].
Qed.
Lemma linv_init : LInv (l_w (l_init E)).
Proof. constructor; cbn; intros; destruct i; discriminate. Qed.
Lemma linv_lrun ok l0 tr l : LInv (l_w l0) -> lrun E ok l0 tr l -> LInv (l_w l).
Proof. intros H0. induction 1; auto. eapply linv_lstep; eauto. Qed.

(** A mixin of a domain that ended *)
Lemma mdom_dstep w o m d d2 : LInv w -> on_domain w o = Some d2 -> d2 <> d -> w_mdom w m = Some d -> w_mdom (fst (dstep E w o)) m = Some d.
Proof.
  intros HL Ho Hd K.
  assert (G : forall a d dm q, w_mdom (fst (get_type_mut E a w d dm q)) m = Some d -> True) by auto. clear G.
  assert (G : forall a d dm q, w_mdom (fst (get_type_mut E a w d dm q)) = w_mdom w).
  { intros a d' dm q. unfold get_type_mut. destruct (negb _); auto. destruct (lookup_type E w d' q) as [[t|oq ms [t|]]|e|u]; cbn; auto.
    destruct (build_type _ _ _ _ _ _ _) as [t|e|u]; cbn; auto. unfold insert_type. destruct (find_type _ _ _); reflexivity. }
  destruct o as [dd f|dd f|dd m0|dd m0|dd c|dd c|dd r|dd r|dd q a|dd dm q a|dd|r|r]; cbn in Ho; try (injection Ho as ->); cbn [dstep forget retty fst].
  - destruct (register_feature_only E w d2 f) as (_ & A & _). now rewrite A.
  - unfold unregister_feature. destruct (basic_unregister _ _ _) as [sp|e|u]; auto.
  - unfold register_mixin. destruct (w_mdom w m0) as [x|] eqn:Q; [destruct (negb (x =? d2)) eqn:N; [exact K|]|];
    pose proof (register_features_of_only E (m_features (e_mixin E m0)) w d2) as (_ & A & _); destruct (register_features_of E w d2 _) as [w1 [y|e|u]]; cbn [fst] in *; try now rewrite A.
    + destruct (basic_register _ _ _ _ _) as [[sp id]|e|u]; cbn; rewrite ?A; auto. rewrite upd_other; auto. intros ->. apply negb_false_iff, Nat.eqb_eq in N. congruence.
    + destruct (basic_register _ _ _ _ _) as [[sp id]|e|u]; cbn; rewrite ?A; auto. rewrite upd_other; auto. congruence.
  - unfold unregister_mixin, purge_types. destruct (existsb _ (d_queries _)); auto. destruct (existsb _ (filter _ _)); auto. unfold unregister_mixin_elem. cbn [w_dom w_mid]. rewrite upd_same. cbn [d_mixins with_types].
    destruct (basic_unregister _ _ _) as [sp|e|u] eqn:Hb; cbn; auto. apply basic_unregister_ok in Hb as (i & A & B & _). apply (li_m1 _ HL) in B as [_ B]. rewrite upd_other; auto. congruence.
  - unfold register_type_class. destruct (register_tc _ _ _) as [sp|e|u]; auto.
  - auto.
  - unfold add_rule. destruct (r_apply _); auto. destruct (rules_incr _ _ _) as [l b]. auto.
  - unfold remove_rule. destruct (rules_decr _ _ _) as [[l b]|e|u]; auto.
  - rewrite <- get_type_mut_same. now rewrite G.
  - now rewrite G.
  - unfold gc. destruct (existsb _ _); auto.
  - unfold incr_nobj. destruct (w_type w r); auto.
  - unfold decr_nobj. destruct (w_type w r) as [t|]; auto. destruct (t_nobj t); auto.
Qed.
Lemma lost_mixin_step l o l' r m d : LInv (l_w l) -> l_dead l d = true -> w_mdom (l_w l) m = Some d -> lstep E l o = (l', r) -> l_dead l' d = true /\ w_mdom (l_w l') m = Some d.
Proof.
  intros HL Hd K Hs. destruct o as [o|d2]; cbn [lstep] in Hs.
  - destruct (on_domain (l_w l) o) as [d2|] eqn:O; [|injection Hs as <- <-; auto]. destruct (l_dead l d2) eqn:D; [injection Hs as <- <-; auto|].
    pose proof (mdom_dstep (l_w l) o m d d2 HL O ltac:(congruence) K) as L. destruct (dstep E (l_w l) o) as [w1 x]. injection Hs as <- <-. auto.
  - destruct (l_dead l d2) eqn:D; [injection Hs as <- <-; auto|]. destruct (destroy_domain E (l_w l) d2) as [w'|e|u] eqn:X; injection Hs as <- <-; auto.
    unfold destroy_domain in X. destruct (existsb _ (TEmpty d2 :: _)); [discriminate|]. injection X as <-. cbn. split; auto. unfold upd. destruct (d =? d2); auto.
Qed.
Lemma c73_lost_mixin tr l m d tr2 l2 : lrun E any_end (l_init E) tr l -> l_dead l d = true -> w_mdom (l_w l) m = Some d -> lrun E any_end l tr2 l2 ->
  forall d2, l_dead l2 d2 = false -> lstep E l2 (LCall (DRegMixin d2 m)) = (l2, Throw EInfoHasDomain).
Proof.
  intros H Hd K H2. pose proof (linv_lrun _ _ _ _ linv_init H) as HL.
  assert (Q : l_dead l2 d = true /\ w_mdom (l_w l2) m = Some d).
  { induction H2 as [|tr2 l1 o l2 r H2 IH Hok Hs Hu]; auto. destruct IH as [A B]. exact (lost_mixin_step l1 o l2 r m d (linv_lrun _ _ _ _ HL H2) A B Hs). }
  destruct Q as [A B]. intros d2 D2. cbn. rewrite D2. unfold register_mixin. rewrite B. destruct (Nat.eqb_spec d d2) as [->|]; [congruence|]. cbn. destruct l2; reflexivity.
Qed.

(** A feature of a domain that ended *)
Definition lost_feature (w : world) (f : fptr) : Prop := w_fid w f <> None /\ forall d i, nth_error (d_features (w_dom w d)) i <> Some (Some f).
Lemma lost_same w w' f : w_fid w' = w_fid w -> (forall d, d_features (w_dom w' d) = d_features (w_dom w d)) -> lost_feature w f -> lost_feature w' f.
Proof. intros A B [C D]. split; [now rewrite A|]. intros d i. rewrite B. auto. Qed.
Lemma lost_register w d f f' : LInv w -> lost_feature w f -> lost_feature (fst (register_feature E w d f')) f.
Proof.
  intros HL [A B]. unfold register_feature. destruct (basic_register _ _ _ _ _) as [[sp id]|e|u] eqn:Hb; [|split; auto..]. cbn.
  destruct (basic_register_ok _ _ _ _ _ _ _ (li_f1 _ HL d) Hb) as (B1 & B2 & B3 & B4 & B5 & B6). split; cbn.
  - rewrite upd_other; auto. congruence.
  - intros d2 i. unfold upd. destruct (Nat.eqb_spec d2 d) as [->|]; cbn; auto. destruct (Nat.eq_dec i id) as [->|]; [rewrite B3; congruence|rewrite B4; auto].
Qed.
Lemma lost_features d f fs : forall w, LInv w -> lost_feature w f -> lost_feature (fst (register_features_of E w d fs)) f.
Proof.
  induction fs as [|x fs IH]; intros w HL H; cbn [register_features_of]; auto. destruct (w_fid w (ff_info x)) as [i|].
  - destruct (nth_error _ i) as [[p|]|]; auto. destruct (p =? ff_info x); auto.
  - pose proof (lost_register w d f (ff_info x) HL H) as L. pose proof (linv_register_feature w d (ff_info x) HL) as L2. destruct (register_feature E w d (ff_info x)) as [w1 [y|e|u]]; cbn [fst] in *; auto.
Qed.
Lemma lost_dstep w o f : LInv w -> lost_feature w f -> lost_feature (fst (dstep E w o)) f.
Proof.
  intros HL H.
  assert (S : forall w', w_fid w' = w_fid w -> (forall d, d_features (w_dom w' d) = d_features (w_dom w d)) -> lost_feature w' f) by (intros w' A B; eapply lost_same; eauto).
  assert (G : forall a d dm q, lost_feature (fst (get_type_mut E a w d dm q)) f).
  { intros a d dm q. unfold get_type_mut. destruct (negb _); auto. destruct (lookup_type E w d q) as [[t|oq ms [t|]]|e|u]; cbn; auto.
    - apply S; auto. intros d2. cbn. unfold upd. destruct (Nat.eqb_spec d2 d) as [->|]; auto.
    - destruct (build_type _ _ _ _ _ _ _) as [t|e|u]; cbn; auto. unfold insert_type. destruct (find_type _ _ _); cbn; (apply S; auto); intros d2; cbn; unfold upd; destruct (Nat.eqb_spec d2 d) as [->|]; auto. }
  destruct o as [dd f0|dd f0|dd m0|dd m0|dd c|dd c|dd r|dd r|dd q a|dd dm q a|dd|r|r]; cbn [dstep forget retty fst].
  - now apply lost_register.
  - destruct H as [A B]. unfold unregister_feature. destruct (basic_unregister _ _ _) as [sp|e|u] eqn:Hb; [|split; auto..]. cbn. apply basic_unregister_ok in Hb as (i0 & K1 & K2 & ->). split; cbn.
    + rewrite upd_other; auto. intros ->. now apply B in K2.
    + intros d2 i. unfold upd. destruct (Nat.eqb_spec d2 dd) as [->|]; cbn; auto. intros X. apply set_nth_none in X as [_ X]. now apply B in X.
  - unfold register_mixin. destruct (match w_mdom w m0 with Some d' => negb (d' =? dd) | None => false end); auto.
    pose proof (lost_features dd f (m_features (e_mixin E m0)) w HL H) as L. destruct (register_features_of E w dd _) as [w1 [x|e|u]]; cbn [fst] in *; auto.
    destruct (basic_register _ _ _ _ _) as [[sp id]|e|u]; auto. eapply lost_same; [..|exact L]; auto. intros d2. cbn. unfold upd. destruct (Nat.eqb_spec d2 dd) as [->|]; auto.
  - unfold unregister_mixin, purge_types. destruct (existsb _ (d_queries _)); auto. destruct (existsb _ (filter _ _)); auto. unfold unregister_mixin_elem.
    destruct (basic_unregister _ _ _) as [sp|e|u]; (apply S; auto); intros d2; cbn; unfold upd; destruct (Nat.eqb_spec d2 dd) as [->|]; rewrite ?Nat.eqb_refl; auto.
  - unfold register_type_class. destruct (register_tc _ _ _) as [sp|e|u]; auto. apply S; auto. intros d2. cbn. unfold upd. destruct (Nat.eqb_spec d2 dd) as [->|]; auto.
  - apply S; auto. intros d2. cbn. unfold upd. destruct (Nat.eqb_spec d2 dd) as [->|]; auto.
  - unfold add_rule. destruct (r_apply _); auto. destruct (rules_incr _ _ _) as [l b]. apply S; auto. intros d2. cbn. unfold upd. destruct (Nat.eqb_spec d2 dd) as [->|]; auto.
  - unfold remove_rule. destruct (rules_decr _ _ _) as [[l b]|e|u]; auto. apply S; auto. intros d2. cbn. unfold upd. destruct (Nat.eqb_spec d2 dd) as [->|]; auto.
  - rewrite <- get_type_mut_same. apply G.
  - apply G.
  - unfold gc. destruct (existsb _ _); auto. apply S; auto. intros d2. cbn. unfold upd. destruct (Nat.eqb_spec d2 dd) as [->|]; auto.
  - unfold incr_nobj. destruct (w_type w r); auto.
  - unfold decr_nobj. destruct (w_type w r) as [t|]; auto. destruct (t_nobj t); auto.
Qed.
Lemma lost_lstep l o l' r f : LInv (l_w l) -> lost_feature (l_w l) f -> lstep E l o = (l', r) -> lost_feature (l_w l') f.
Proof.
  intros HL H Hs. destruct o as [o|d2]; cbn [lstep] in Hs.
  - destruct (on_domain (l_w l) o) as [d2|]; [|injection Hs as <- <-; auto]. destruct (l_dead l d2); [injection Hs as <- <-; auto|].
    pose proof (lost_dstep (l_w l) o f HL H) as L. destruct (dstep E (l_w l) o) as [w1 x]. injection Hs as <- <-. auto.
  - destruct (l_dead l d2); [injection Hs as <- <-; auto|]. destruct (destroy_domain E (l_w l) d2) as [w'|e|u] eqn:X; injection Hs as <- <-; auto.
    unfold destroy_domain in X. destruct (existsb _ (TEmpty d2 :: _)); [discriminate|]. injection X as <-. destruct H as [A B]. split; auto. cbn. intros d i. unfold upd. destruct (Nat.eqb_spec d d2) as [->|]; auto. cbn. destruct i; discriminate.
Qed.
Lemma lost_ub d f : forall fs w, LInv w -> lost_feature w f -> In f (map ff_info fs) -> ~ is_ok (snd (register_features_of E w d fs)).
Proof.
  induction fs as [|x fs IH]; intros w HL H; cbn [map register_features_of]; [intros []|]. intros Hin. destruct (w_fid w (ff_info x)) as [i|] eqn:Q.
  - destruct (nth_error _ i) as [[p|]|] eqn:N; try (intros []; fail). destruct (Nat.eqb_spec p (ff_info x)) as [->|]; [|intros []].
    apply IH; auto. destruct Hin as [<-|]; auto. now apply (proj2 H) in N.
  - pose proof (lost_register w d f (ff_info x) HL H) as L. pose proof (linv_register_feature w d (ff_info x) HL) as L2. destruct (register_feature E w d (ff_info x)) as [w1 [y|e|u]]; cbn [fst snd] in *; try (intros []; fail).
    apply IH; auto. destruct Hin as [<-|]; auto. now destruct H.
Qed.
Lemma c73_lost_feature tr l f d i l1 tr2 l2 : lrun E any_end (l_init E) tr l -> get_feature_by_id (l_w l) d i = Some f -> lstep E l (LDestroy d) = (l1, Ok None) -> lrun E any_end l1 tr2 l2 ->
  forall d2 m, l_dead l2 d2 = false -> In f (map ff_info (m_features (e_mixin E m))) -> ~ is_ok (snd (lstep E l2 (LCall (DRegMixin d2 m)))).
Proof.
  intros H G Hs H2. pose proof (linv_lrun _ _ _ _ linv_init H) as HL. pose proof (linv_lstep _ _ _ _ HL Hs) as HL1.
  assert (K : lost_feature (l_w l1) f).
  { unfold get_feature_by_id, get_by_id in G. destruct i as [i|]; [|discriminate]. destruct (nth_error (d_features (w_dom (l_w l) d)) i) as [[y|]|] eqn:N; try discriminate. injection G as ->.
    cbn in Hs. destruct (l_dead l d); [discriminate|]. unfold destroy_domain in Hs. destruct (existsb _ (TEmpty d :: _)); [discriminate|]. injection Hs as <-. split; cbn.
    - now rewrite (li_f1 _ HL _ _ _ N).
    - intros d2 j. unfold upd. destruct (Nat.eqb_spec d2 d) as [->|Hd]; [cbn; destruct j; discriminate|]. intros X. apply Hd. eapply (li_f3 _ HL); eauto. }
  assert (Q : LInv (l_w l2) /\ lost_feature (l_w l2) f).
  { split; [eapply linv_lrun; eauto|]. induction H2 as [|tr2 l1' o l2 r H2 IH Hok Hx Hu]; auto. exact (lost_lstep l1' o l2 r f (linv_lrun _ _ _ _ HL1 H2) IH Hx). }
  destruct Q as [Q1 Q2]. intros d2 m D2 Hin. cbn. rewrite D2. unfold register_mixin.
  destruct (match w_mdom (l_w l2) m with Some d' => negb (d' =? d2) | None => false end); [intros []|].
  pose proof (lost_ub d2 f _ _ Q1 Q2 Hin) as U. destruct (register_features_of E (l_w l2) d2 _) as [w1 [x|e|u]]; cbn in *; try (intros []; fail). now destruct U.
Qed.
End Lost.
