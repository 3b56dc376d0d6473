(** Facts about the types of a domain which are used for objects *)
From Coq Require Import List Arith ZArith NArith Lia Bool.
From Verif Require Import Base Sv BaseLemmas Info Registry TypeMut Rules TypeBuild TypeQuery Domain RegistryProofs ElemProofs TypesProofs SpecReg SpecDom HistProofs RegTheorems DomTheorems
  SpecLayout TypeTheorems LayoutProofs Heap PartProofs SpecObj.
Import ListNotations.

Section World.
Variable E : env.
Hypothesis AM : aligned_mixins E.

Lemma type_empty w d : reachable E w -> exists k, w_type w (TEmpty d) = Some (set_nobj (empty_type d) k).
Proof. intros H. destruct (winv_reachable _ _ H) as [_ HT]. apply (ti_empty _ _ HT). Qed.

Lemma type_cases w r t : reachable E w -> w_type w r = Some t -> (exists k, r = TEmpty (t_dom t) /\ t = set_nobj (empty_type (t_dom t)) k) \/ (type_ok E w (t_dom t) t /\ In r (d_types (w_dom w (t_dom t)))).
Proof.
  intros H Ht. destruct (winv_reachable _ _ H) as [_ HT]. destruct r as [d|n].
  - destruct (ti_empty _ _ HT d) as (k & Hk). left. rewrite Hk in Ht. injection Ht as <-. exists k. auto.
  - right. pose proof (ti_alive _ _ HT n t Ht) as Hin. destruct (ti_types _ _ HT _ _ Hin) as (n' & t' & [= <-] & _ & Ht' & Hok). assert (t' = t) as -> by congruence. auto.
Qed.

Lemma type_nonempty w n t : reachable E w -> w_type w (TReg n) = Some t -> t_mixins t <> [].
Proof. intros H Ht. destruct (type_cases w _ t H Ht) as [(k & Hr & _)|[(_ & Hn & _) _]]; [discriminate|auto]. Qed.

Lemma type_good w r t : reachable E w -> w_type w r = Some t -> (space E (t_mixins t) < 4294967296)%N -> tgood E (w_mid w) t.
Proof.
  intros H Ht Hs. destruct (type_cases w r t H Ht) as [(k & _ & Hk0)|[(A1 & A2 & A3 & A4 & A5 & A6) _]].
  - rewrite Hk0. constructor; cbn.
    + reflexivity.
    + constructor.
    + intros i m off [Hm _]. destruct i; discriminate.
    + intros i j off Hi. destruct i; discriminate.
    + intros m i Hm. destruct i; discriminate.
  - destruct (layout_sound E _ _ _ _ AM Hs A6) as (L1 & L2 & L3 & L4). constructor; auto.
    + intros i m off [Hm Ho]. apply (L3 i m off Hm Ho).
    + intros i j off Hi Hj Hz. destruct (Nat.eq_dec i j) as [|Hne]; auto. exfalso.
      destruct (nth_error (t_mixins t) i) as [mi|] eqn:Hmi; [|apply nth_error_None in Hmi; apply nth_error_lt in Hi; lia].
      destruct (nth_error (t_mixins t) j) as [mj|] eqn:Hmj; [|apply nth_error_None in Hmj; apply nth_error_lt in Hj; lia].
      destruct (L3 i mi off Hmi Hi) as (Ei & Fi). destruct (L3 j mj off Hmj Hj) as (Ej & Fj).
      assert (Hei : external (e_mixin E mi) = false) by (destruct (external (e_mixin E mi)) eqn:Hx; auto; exfalso; apply Hz; tauto).
      assert (Hej : external (e_mixin E mj) = false) by (destruct (external (e_mixin E mj)) eqn:Hx; auto; exfalso; apply Hz; tauto).
      destruct (L4 i j mi mj off off Hne Hmi Hmj Hi Hj Hei Hej); lia.
    + intros m i Hm. assert (Hd : w_mdom w m = Some (t_dom t)) by (apply A4; eapply nth_error_In; eauto).
      destruct (winv_reachable _ _ H) as [HE _]. destruct (ei_m2 _ _ HE _ _ Hd) as (k & Hk & _). unfold index_of. rewrite Hk. destruct A5 as [A5 _]. now rewrite (A5 i m k Hm Hk).
Qed.

(** Ids tell the mixins of two types of a domain apart *)
Lemma type_idx w r t r0 t0 m i : reachable E w -> w_type w r = Some t -> w_type w r0 = Some t0 -> t_dom t = t_dom t0 ->
  In m (t_mixins t) -> index_of t0 (w_mid w m) = Some i -> nth_error (t_mixins t0) i = Some m.
Proof.
  intros H Ht Ht0 Hd Hm Hi. destruct (winv_reachable _ _ H) as [HE _].
  destruct (type_cases w r t H Ht) as [(k & _ & Hk0)|[(A1 & A2 & A3 & A4 & A5 & A6) _]]; [rewrite Hk0 in Hm; destruct Hm|].
  destruct (type_cases w r0 t0 H Ht0) as [(k & _ & Hk0)|[(C1 & C2 & C3 & C4 & C5 & C6) _]].
  { rewrite Hk0 in Hi. unfold index_of in Hi. cbn in Hi. destruct (w_mid w m) as [[|k']|]; discriminate. }
  destruct (ei_m2 _ _ HE _ _ (A4 m Hm)) as (k & Hk & Hn). unfold index_of in Hi. rewrite Hk in Hi.
  pose proof (sparse_ok_index _ _ _ k C5) as Hsp. destruct (nth_error (t_sparse t0) k) as [[j|]|]; try discriminate. injection Hi as ->.
  destruct Hsp as (m' & Hm' & Hk'). assert (Hd' : w_mdom w m' = Some (t_dom t0)) by (apply C4; eapply nth_error_In; eauto).
  destruct (ei_m2 _ _ HE _ _ Hd') as (k2 & Hk2 & Hn2). rewrite <- Hd in *. assert (k2 = k) as -> by congruence. congruence.
Qed.

(** the same for a mixin of the domain or of none *)
Lemma type_idx2 w r t m i : reachable E w -> w_type w r = Some t -> w_mdom w m = None \/ w_mdom w m = Some (t_dom t) ->
  index_of t (w_mid w m) = Some i -> nth_error (t_mixins t) i = Some m.
Proof.
  intros H Ht Hd Hi. destruct (winv_reachable _ _ H) as [HE _].
  assert (Hk : exists k, w_mid w m = Some k) by (unfold index_of in Hi; destruct (w_mid w m); [eauto|discriminate]). destruct Hk as (k & Hk).
  destruct Hd as [Hd|Hd]; [destruct (ei_m3 _ _ HE _ _ Hk); congruence|].
  destruct (type_cases w r t H Ht) as [(k' & _ & Hk0)|[(C1 & C2 & C3 & C4 & C5 & C6) _]].
  { rewrite Hk0 in Hi. unfold index_of in Hi. cbn in Hi. destruct (w_mid w m) as [[|k2]|]; discriminate. }
  destruct (ei_m2 _ _ HE _ _ Hd) as (k' & Hk' & Hn). assert (k' = k) as -> by congruence. unfold index_of in Hi. rewrite Hk in Hi.
  pose proof (sparse_ok_index _ _ _ k C5) as Hsp. destruct (nth_error (t_sparse t) k) as [[j|]|]; try discriminate. injection Hi as ->.
  destruct Hsp as (m' & Hm' & Hmk). assert (Hd' : w_mdom w m' = Some (t_dom t)) by (apply C4; eapply nth_error_In; eauto).
  destruct (ei_m2 _ _ HE _ _ Hd') as (k2 & Hk2 & Hn2). assert (k2 = k) as -> by congruence. congruence.
Qed.

Lemma reach_incr w r w' x : reachable E w -> incr_nobj w r = (w', x) -> ~ is_ub x -> reachable E w'.
Proof. intros H Hi Hx. apply (reach_step E w (DNewObj r) w' (match x with Ok _ => Ok None | Throw e => Throw e | Ub u => Ub u end)); auto. - cbn. unfold forget. rewrite Hi. reflexivity. - destruct x; auto. Qed.
Lemma reach_decr w r w' x : reachable E w -> decr_nobj w r = (w', x) -> ~ is_ub x -> reachable E w'.
Proof. intros H Hi Hx. apply (reach_step E w (DDelObj r) w' (match x with Ok _ => Ok None | Throw e => Throw e | Ub u => Ub u end)); auto. - cbn. unfold forget. rewrite Hi. reflexivity. - destruct x; auto. Qed.

Definition plain (op : dop) : Prop := match op with DNewObj _ | DDelObj _ => False | _ => True end.

(** What a call on a domain does to the types *)
Definition busy_same (w w' : world) : Prop :=
  (forall r t, w_type w r = Some t -> (t_nobj t <> 0 \/ exists d, r = TEmpty d) -> w_type w' r = Some t) /\
  (forall r t, w_type w' r = Some t -> w_type w r = Some t \/ t_nobj t = 0).
Lemma busy_eq w w' : w_type w' = w_type w -> busy_same w w'.
Proof. intros H. split; intros r t; rewrite H; auto. Qed.
Lemma busy_trans a b c : busy_same a b -> busy_same b c -> busy_same a c.
Proof. intros [A1 A2] [B1 B2]. split; intros r t; [intros H1 H2; auto|]. intros H. destruct (B2 r t H); auto. Qed.

Lemma free_types_busy w w' d (f : tref -> bool) : reachable E w -> w_type w' = free_types (w_type w) (filter f (d_types (w_dom w d))) ->
  existsb (fun r => negb (ref_nobj w r =? 0)) (filter f (d_types (w_dom w d))) = false -> busy_same w w'.
Proof.
  intros H Hw Hx. destruct (winv_reachable _ _ H) as [_ HT]. split; intros r t; rewrite Hw; unfold free_types.
  - intros Ht Hn. destruct (existsb (tref_eqb r) (filter f (d_types (w_dom w d)))) eqn:Hin; auto. exfalso.
    apply existsb_exists in Hin. destruct Hin as (r' & Hin & He). destruct (tref_eqb_spec r r') as [<-|]; [|discriminate].
    destruct Hn as [Hn|(d' & ->)].
    + assert (existsb (fun r => negb (ref_nobj w r =? 0)) (filter f (d_types (w_dom w d))) = true); [|congruence].
      apply existsb_exists. exists r. split; auto. unfold ref_nobj. rewrite Ht. destruct (Nat.eqb_spec (t_nobj t) 0); auto.
    + apply filter_In in Hin. destruct Hin as [Hin _]. destruct (ti_types _ _ HT _ _ Hin) as (n & t' & He' & _). discriminate.
  - destruct (existsb (tref_eqb r) (filter f (d_types (w_dom w d)))); [discriminate|auto].
Qed.

Lemma register_mixin_type w d m : w_type (fst (register_mixin E w d m)) = w_type w.
Proof.
  unfold register_mixin. destruct (match w_mdom w m with Some d' => negb (d' =? d) | None => false end); [reflexivity|].
  pose proof (register_features_of_only E (m_features (e_mixin E m)) w d) as (_ & _ & Ho & _).
  destruct (register_features_of E w d (m_features (e_mixin E m))) as [w1 [[]|e|u]]; simpl in *; auto.
  destruct (basic_register _ _ _ _ _) as [[sp id]|e|u]; simpl; auto.
Qed.

Lemma get_type_busy a w d q : reachable E w -> busy_same w (fst (get_type E a w d q)).
Proof.
  intros H. destruct (winv_reachable _ _ H) as [_ HT]. rewrite <- get_type_mut_same. unfold get_type_mut. rewrite Nat.eqb_refl. cbn [negb].
  destruct (lookup_type E w d q) as [[r|oq ms [r|]]|e|u]; simpl; try (apply busy_eq; reflexivity).
  destruct (build_type E (w_fid w) (w_mid w) (w_mdom w) a d ms) as [t|e|u] eqn:Hb; simpl; try (apply busy_eq; reflexivity).
  unfold insert_type. destruct (find_type w (t_mixins t) (d_types (w_dom w d))); simpl; [apply busy_eq; reflexivity|].
  assert (Hn : t_nobj t = 0).
  { unfold build_type in Hb. repeat (match type of Hb with bind ?X _ = _ => destruct X; simpl in Hb; try discriminate | (if ?X then _ else _) = _ => destruct X; simpl in Hb; try discriminate end). injection Hb as <-. reflexivity. }
  split; intros r t'; simpl; unfold tupd.
  - intros Ht _. destruct (tref_eqb_spec r (TReg (w_next w))) as [->|]; auto. rewrite (tinv_fresh E w (w_next w) HT) in Ht; [discriminate|lia].
  - destruct (tref_eqb_spec r (TReg (w_next w))) as [->|]; auto. intros [= <-]. auto.
Qed.

Lemma dstep_busy w op w' x : reachable E w -> plain op -> dstep E w op = (w', x) -> ~ is_ub x -> busy_same w w'.
Proof.
  intros H Hp Hd Hx. assert (Hw' : w' = fst (dstep E w op)) by now rewrite Hd. destruct op; cbn [dstep] in *; unfold forget, retty in *; try destruct Hp.
  - apply busy_eq. rewrite Hw'. simpl. apply (register_feature_only E w d f).
  - apply busy_eq. rewrite Hw'. simpl. unfold unregister_feature. destruct (basic_unregister _ _ _) as [sp|e|u]; reflexivity.
  - apply busy_eq. rewrite Hw'. apply register_mixin_type.
  - injection Hd as <- <-. unfold unregister_mixin in *. destruct (purge_types w d m) as [w1|e|u] eqn:Hpu; simpl; try (apply busy_eq; reflexivity).
    apply busy_trans with w1.
    + unfold purge_types in Hpu. destruct (existsb (fun q => dangling w (snd q)) (d_queries (w_dom w d))); [discriminate|].
      destruct (existsb (fun r => negb (ref_nobj w r =? 0)) (filter (ref_has_id w (w_mid w m)) (d_types (w_dom w d)))) eqn:Hex; [discriminate|].
      injection Hpu as <-. eapply free_types_busy; eauto. reflexivity.
    + apply busy_eq. unfold unregister_mixin_elem. destruct (basic_unregister _ _ _) as [sp|e|u]; reflexivity.
  - apply busy_eq. rewrite Hw'. simpl. unfold register_type_class. destruct (register_tc _ _ _) as [sp|e|u]; reflexivity.
  - apply busy_eq. rewrite Hw'. reflexivity.
  - apply busy_eq. rewrite Hw'. simpl. unfold add_rule. destruct (r_apply (e_rule E r)); [|reflexivity]. destruct (rules_incr E r (d_rules (w_dom w d))); reflexivity.
  - apply busy_eq. rewrite Hw'. simpl. unfold remove_rule. destruct (rules_decr E r (d_rules (w_dom w d))) as [[l b]|e|u]; reflexivity.
  - rewrite Hw'. simpl. apply get_type_busy. auto.
  - rewrite Hw'. simpl. destruct (Nat.eqb_spec dm d) as [->|Hne].
    + rewrite get_type_mut_same. now apply get_type_busy.
    + unfold get_type_mut. destruct (Nat.eqb_spec dm d); [congruence|]. apply busy_eq. reflexivity.
  - injection Hd as <- <-. unfold gc in *. destruct (existsb (dangling w) (d_types (w_dom w d))); simpl; [apply busy_eq; reflexivity|].
    eapply free_types_busy; eauto; [reflexivity|]. destruct (existsb _ _) eqn:Hex; auto. apply existsb_exists in Hex. destruct Hex as (q & Hin & Hq). apply filter_In in Hin. destruct Hin as [_ Hin]. rewrite Hin in Hq. discriminate.
Qed.
End World.
