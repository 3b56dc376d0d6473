(** Proofs about domains that run out of memory *)
From Coq Require Import List Arith ZArith NArith Lia Bool.
From Verif Require Import Base Sv Info Registry TypeMut Rules TypeBuild TypeQuery Domain BaseLemmas RegistryProofs ElemProofs TypesProofs SpecDom DomTheorems
  SpecRule RuleTheorems RuleTheorems2 Conc SpecConc CongProofs Oom SpecOom.
Import ListNotations.

Section Oom.
Variable E : env.

Lemma reg_feature_no_bad w d f w' : register_feature E w d f = (w', Throw EBadAlloc) -> False.
Proof.
  unfold register_feature. destruct (basic_register _ _ _ _ _) as [[sp id]|e|u] eqn:B; intros [= _ X]. revert B. unfold basic_register.
  destruct (w_fid w f); [congruence|]. destruct (_ && _); [congruence|].
  destruct (negb _); [|cbn; destruct (scan_fwd _ _); congruence].
  assert (K : forall rs fr, scan_rev (fname E) (w_fid w) (fname E f) rs fr <> Throw EBadAlloc).
  { induction rs as [|[x|] rs IH]; intros fr; cbn; try congruence; auto. destruct (negb _); [congruence|]. destruct (sv_eqb _ _); [congruence|auto]. }
  cbn. destruct (scan_rev _ _ _ _ _) as [o|e'|u'] eqn:S; cbn; [destruct o; congruence| |congruence]. intros [= ->]. subst e. now apply K in S.
Qed.

(** *** Features *)
Lemma feature_m w d f al w' r al' : register_feature_m E w d f al = (w', r, al') ->
  (r <> Throw EBadAlloc /\ register_feature E w d f = (w', r)) \/ (r = Throw EBadAlloc /\ w' = w).
Proof.
  unfold register_feature_m. destruct (register_feature E w d f) as [w1 [x|e|u]] eqn:H.
  - destruct (grow _ _ _) as [[] a]; intros [= <- <- <-]; [left|right]; split; auto; congruence.
  - intros [= <- <- <-]. left. split; auto. intros [= ->]. now apply reg_feature_no_bad in H.
  - intros [= <- <- <-]. left. split; auto. congruence.
Qed.
Lemma features_m d fs : forall w al w' r al', register_features_m E w d fs al = (w', r, al') ->
  (r <> Throw EBadAlloc /\ register_features_of E w d fs = (w', r)) \/
  (r = Throw EBadAlloc /\ exists n, register_features_of E w d (firstn n fs) = (w', Ok tt)).
Proof.
  induction fs as [|f fs IH]; intros w al w' r al'; cbn [register_features_m register_features_of].
  { intros [= <- <- <-]. left. split; congruence. }
  destruct (w_fid w (ff_info f)) as [i|] eqn:F.
  - destruct (nth_error (d_features (w_dom w d)) i) as [[p|]|] eqn:N; try (intros [= <- <- <-]; left; split; congruence).
    destruct (p =? ff_info f) eqn:P; [|intros [= <- <- <-]; left; split; congruence].
    intros H. apply IH in H as [[A B]|[A [n B]]]; [left; auto|right]. split; auto. exists (S n). cbn [firstn register_features_of]. now rewrite F, N, P.
  - destruct (register_feature_m E w d (ff_info f) al) as [[w1 r1] al1] eqn:R. apply feature_m in R as [[A B]|[-> ->]].
    + rewrite B. destruct r1 as [x|e|u]; [|intros [= <- <- <-]; left; split; congruence..].
      intros H. apply IH in H as [[A' B']|[A' [n B']]]; [left; auto|right]. split; auto. exists (S n). cbn [firstn register_features_of]. now rewrite F, B.
    + intros [= <- <- <-]. right. split; auto. exists 0. reflexivity.
Qed.
(** Doing the first ones before changes nothing. *)
Lemma features_again d n : forall fs w w', EInv E w -> register_features_of E w d (firstn n fs) = (w', Ok tt) ->
  register_features_of E w' d fs = register_features_of E w d fs.
Proof.
  induction n as [|n IH]; intros fs w w' HI; [intros [= <-]; reflexivity|]. destruct fs as [|f fs]; [intros [= <-]; reflexivity|].
  cbn [firstn]. intros H. pose proof (register_features_of_ok E (f :: firstn n fs) w d w' HI H f (or_introl eq_refl)) as (i & F' & N').
  cbn [register_features_of] in *. rewrite F', N', Nat.eqb_refl. destruct (w_fid w (ff_info f)) as [j|] eqn:F.
  - destruct (nth_error (d_features (w_dom w d)) j) as [[p|]|]; try discriminate H. destruct (p =? ff_info f); [|discriminate H]. now apply IH.
  - destruct (register_feature E w d (ff_info f)) as [w1 [[]|e|u]] eqn:R; try discriminate H. apply IH; auto. eapply einv_register_feature; eauto.
Qed.
(** New features are of the list. *)
Lemma features_new d fs : forall w w' r, EInv E w -> register_features_of E w d fs = (w', r) -> forall d2 i f,
  get_feature_by_id w' d2 (Some i) = Some f -> get_feature_by_id w d2 (Some i) = Some f \/
  (get_feature_by_id w d2 (Some i) = None /\ d2 = d /\ In f (map ff_info fs)).
Proof.
  induction fs as [|f fs IH]; intros w w' r HI; cbn [register_features_of]; [intros [= <- <-]; auto|].
  destruct (w_fid w (ff_info f)) as [j|] eqn:F.
  - destruct (nth_error (d_features (w_dom w d)) j) as [[p|]|]; try (intros [= <- <-]; auto; fail). destruct (p =? ff_info f); [|intros [= <- <-]; auto].
    intros H d2 i g G. destruct (IH _ _ _ HI H _ _ _ G) as [X|(X & Y & Z)]; [auto|]. right. split; auto. split; auto. right. auto.
  - destruct (register_feature_cases E w d (ff_info f) HI) as [(sp & id & R & B)|(e & R)]; rewrite R; [|intros [= <- <-]; auto].
    assert (HI1 := einv_register_feature E _ _ _ _ _ HI R). destruct (basic_register_ok _ _ _ _ _ _ _ (ei_f1 _ _ HI d) B) as (B1 & B2 & B3 & B4 & B5 & B6).
    intros H d2 i g G. destruct (IH _ _ _ HI1 H _ _ _ G) as [X|(X & Y & Z)].
    + unfold get_feature_by_id, get_by_id in *. cbn in X. unfold upd in X. destruct (Nat.eqb_spec d2 d) as [->|]; [|auto]. cbn in X.
      destruct (Nat.eq_dec i id) as [->|N]; [|rewrite B4 in X; auto]. rewrite B3 in X. injection X as <-. right. split; [|split; [auto|left; auto]].
      destruct B5 as [-> | ->]; auto.
    + right. split; [|split; [auto|right; auto]]. unfold get_feature_by_id, get_by_id in *. cbn in X. unfold upd in X.
      destruct (Nat.eqb_spec d2 d) as [->|]; [|auto]. cbn in X. destruct (Nat.eq_dec i id) as [->|N]; [rewrite B3 in X; discriminate|]. now rewrite B4 in X by auto.
Qed.

(** *** Calls *)
Lemma basic_no_bad name idf s u i : basic_register name idf s u i <> Throw EBadAlloc.
Proof.
  unfold basic_register. destruct (idf i); [congruence|]. destruct (_ && _); [congruence|]. destruct u; [|cbn; destruct (scan_fwd _ _); congruence].
  assert (K : forall rs fr, scan_rev name idf (name i) rs fr <> Throw EBadAlloc).
  { induction rs as [|[x|] rs IH]; intros fr; cbn; try congruence; auto. destruct (negb _); [congruence|]. destruct (sv_eqb _ _); [congruence|auto]. }
  cbn. destruct (scan_rev _ _ _ _ _) as [o|e'|u'] eqn:S; cbn; [destruct o; congruence| |congruence]. intros [= ->]. now apply K in S.
Qed.
Definition other_dom (w : world) (d : dptr) (m : mptr) : bool := match w_mdom w m with Some d' => negb (d' =? d) | None => false end.
Lemma mixin_m w d m al w' r : register_mixin_m E w d m al = (w', r) ->
  (r <> Throw EBadAlloc /\ register_mixin E w d m = (w', r)) \/
  (r = Throw EBadAlloc /\ other_dom w d m = false /\ exists n, register_features_of E w d (firstn n (m_features (e_mixin E m))) = (w', Ok tt)).
Proof.
  unfold register_mixin_m, register_mixin, other_dom. destruct (match w_mdom w m with Some d' => negb (d' =? d) | None => false end); [intros [= <- <-]; left; split; congruence|].
  destruct (register_features_m E w d (m_features (e_mixin E m)) al) as [[w1 r1] al1] eqn:R. apply features_m in R as [[A B]|[-> [n B]]].
  - rewrite B. destruct r1 as [[]|e|u]; [|intros [= <- <-]; left; split; congruence..].
    destruct (basic_register _ _ _ _ _) as [[sp id]|e|u] eqn:BR.
    + destruct (fst (grow _ _ _)); intros [= <- <-]; [left; split; congruence|]. right. split; auto. split; auto. exists (length (m_features (e_mixin E m))). now rewrite firstn_all.
    + intros [= <- <-]. left. split; auto. intros [= ->]. now apply basic_no_bad in BR.
    + intros [= <- <-]. left. split; auto. congruence.
  - intros [= <- <-]. right. split; eauto.
Qed.
Lemma tc_m w d c al w' r : register_tc_m E w d c al = (w', r) ->
  (r <> Throw EBadAlloc /\ register_type_class E w d c = (w', r)) \/ (r = Throw EBadAlloc /\ w' = w).
Proof.
  unfold register_tc_m. destruct (register_type_class E w d c) as [w1 [x|e|u]] eqn:H.
  - destruct (fst _); intros [= <- <-]; [left|right]; split; auto; congruence.
  - intros [= <- <-]. destruct e; try (left; split; [congruence|reflexivity]). right. split; auto.
    unfold register_type_class in H. destruct (register_tc _ _ _) as [sp|e'|u']; congruence.
  - intros [= <- <-]. left. split; congruence.
Qed.
Lemma rule_m w d x al w' r : add_rule_m E w d x al = (w', r) ->
  (r <> Throw EBadAlloc /\ add_rule E w d x = (w', r)) \/ (r = Throw EBadAlloc /\ w' = w).
Proof.
  unfold add_rule_m, add_rule. destruct (r_apply (e_rule E x)); [|intros [= <- <-]; left; split; congruence].
  destruct (_ && _); [intros [= <- <-]; right; auto|]. destruct (rules_incr E x _). intros [= <- <-]. left. split; congruence.
Qed.

Lemma add_store w d q t : same_world (store_found (add_type w d t) d q (TReg (w_next w)))
  {| w_mid := w_mid w; w_mdom := w_mdom w; w_fid := w_fid w;
     w_dom := upd (w_dom w) d (with_types (w_dom w d) (d_types (w_dom w d) ++ [TReg (w_next w)]) (store_query q (TReg (w_next w)) (d_queries (w_dom w d))));
     w_type := tupd (w_type w) (TReg (w_next w)) (Some t); w_next := S (w_next w) |}.
Proof.
  unfold store_found, add_type, set_dom, same_world. cbn. repeat split. intros x. unfold upd. rewrite Nat.eqb_refl. destruct (x =? d); reflexivity.
Qed.
Lemma span_equiv_refl a : span_equiv a a = true.
Proof.
  unfold span_equiv, span_less. rewrite Nat.eqb_refl. cbn. assert (lex_less a a = false) as ->; [|reflexivity].
  induction a as [|x a IH]; [reflexivity|]. cbn [lex_less]. now rewrite Nat.ltb_irrefl.
Qed.
Lemma find_type_app w ms l r : find_type w ms (l ++ [r]) = match find_type w ms l with Some x => Some x | None => find_type w ms [r] end.
Proof. induction l as [|x l IH]; [reflexivity|]. cbn [find_type app]. destruct (w_type w x) as [t|]; [destruct (span_equiv _ _); auto|auto]. Qed.
Lemma find_type_old w w' ms l : (forall r, In r l -> w_type w' r = w_type w r) -> find_type w' ms l = find_type w ms l.
Proof.
  induction l as [|x l IH]; intros H; [reflexivity|]. cbn [find_type]. rewrite H by (left; auto). rewrite IH by (intros; apply H; right; auto). reflexivity.
Qed.

(** The type that stays *)
Lemma add_type_old w d t r d2 : TInv E w -> In r (d_types (w_dom w d2)) -> w_type (add_type w d t) r = w_type w r.
Proof.
  intros HT Hin. cbn. unfold tupd. destruct (tref_eqb_spec r (TReg (w_next w))) as [->|]; [|auto].
  destruct (ti_types _ _ HT _ _ Hin) as (n & t' & [= <-] & L & _). lia.
Qed.
Lemma tinv_add_type w d t : TInv E w -> type_ok E w d t -> find_type w (t_mixins t) (d_types (w_dom w d)) = None -> TInv E (add_type w d t).
Proof.
  intros HT Ok Hf. destruct (tinv_insert E w d [] t HT Ok) as [HT' _]. revert HT'. unfold insert_type. rewrite Hf. cbn [fst].
  set (w1 := Build_world _ _ _ _ _ _). intros HT'.
  assert (D : forall d2, d_types (w_dom (add_type w d t) d2) = d_types (w_dom w1 d2)) by (intros; cbn; unfold upd; destruct (d2 =? d); reflexivity).
  assert (Q : forall d2, d_queries (w_dom (add_type w d t) d2) = d_queries (w_dom w d2)) by (intros; cbn; unfold upd; destruct (Nat.eqb_spec d2 d) as [->|]; reflexivity).
  constructor.
  - intros d2 r. rewrite D. apply (ti_types _ _ HT').
  - intros n t' H. rewrite D. exact (ti_alive _ _ HT' n t' H).
  - exact (ti_empty _ _ HT').
  - intros d2. rewrite D. apply (ti_nodup _ _ HT').
  - intros d2 r r' t1 t2. rewrite D. apply (ti_uniq _ _ HT').
  - intros d2 q r. rewrite Q. intros H. destruct (ti_queries _ _ HT _ _ _ H) as [X|X]; [auto|right]. rewrite D. cbn. unfold upd. destruct (Nat.eqb_spec d2 d) as [->|]; auto.
    cbn. apply in_or_app. auto.
  - intros d2. rewrite Q. apply (ti_keys _ _ HT).
Qed.

Lemma lookup_stored w d q t : lookup_type E w d q = Ok (LStored t) -> find_query q (d_queries (w_dom w d)) = Some t.
Proof.
  unfold lookup_type. destruct (find_query q _) as [x|]; [congruence|]. destruct (apply_rules _ _ _ _); cbn; congruence.
Qed.
Lemma lookup_no_bad w d q : lookup_type E w d q <> Throw EBadAlloc.
Proof.
  unfold lookup_type. destruct (find_query q _) as [x|]; [congruence|]. destruct (apply_rules E (view E w d) (d_rules (w_dom w d)) q) as [y|e|u] eqn:A; cbn; try congruence.
  intros [= ->]. pose proof (apply_rules_spec E (view E w d) (d_rules (w_dom w d)) q) as S. rewrite A in S. destruct S as [(? & ? & ? & X & _)|(X & _)]; congruence.
Qed.

Inductive type_left (w w' : world) (d : dptr) (a : bool) (q : list mptr) : Prop :=
| tl_same : w' = w -> type_left w w' d a q
| tl_type oq ms t : find_query q (d_queries (w_dom w d)) = None -> lookup_type E w d q = Ok (LNew oq ms None) ->
    build_type E (w_fid w) (w_mid w) (w_mdom w) a d ms = Ok t -> find_type w (t_mixins t) (d_types (w_dom w d)) = None ->
    w' = add_type w d t -> type_left w w' d a q.
Lemma type_mut_m a w d dm q al w' r : get_type_mut_m E a w d dm q al = (w', r) ->
  (r <> Throw EBadAlloc /\ same_res (w', r) (get_type_mut E a w d dm q)) \/ (r = Throw EBadAlloc /\ dm = d /\ type_left w w' d a q).
Proof.
  unfold get_type_mut_m, get_type_mut. destruct (Nat.eqb_spec dm d) as [->|]; cbn [negb];
    [|intros [= <- <-]; left; split; [congruence|split; [apply same_refl|reflexivity]]].
  destruct (find_query q (d_queries (w_dom w d))) as [t|] eqn:F.
  { intros [= <- <-]. left. split; [congruence|]. assert (lookup_type E w d q = Ok (LStored t)) as -> by (unfold lookup_type; now rewrite F). split; [apply same_refl|reflexivity]. }
  destruct (take al) as [[] al1]; cbn [negb]; [|intros [= <- <-]; right; auto using tl_same].
  destruct (lookup_type E w d q) as [[t|oq ms [t|]]|e|u] eqn:L.
  - apply lookup_stored in L. congruence.
  - destruct (fst (take al1)); intros [= <- <-]; [left|right; auto using tl_same]. split; [congruence|split; [apply same_refl|reflexivity]].
  - destruct (build_type E (w_fid w) (w_mid w) (w_mdom w) a d ms) as [t|e|u] eqn:B.
    + destruct (take al1) as [[] al2]; cbn [negb]; [|intros [= <- <-]; right; auto using tl_same]. unfold insert_type.
      destruct (find_type w (t_mixins t) (d_types (w_dom w d))) as [r0|] eqn:FT.
      * destruct (fst (take al2)); intros [= <- <-]; [left|right; auto using tl_same]. split; [congruence|split; [apply same_refl|reflexivity]].
      * destruct (fst (take al2)); intros [= <- <-]; [left|right].
        -- split; [congruence|]. split; [apply add_store|reflexivity].
        -- split; auto. split; auto. eapply tl_type; eauto.
    + intros [= <- <-]. destruct e; try (left; split; [congruence|split; [apply same_refl|reflexivity]]; fail). right. auto using tl_same.
    + intros [= <- <-]. left. split; [congruence|split; [apply same_refl|reflexivity]].
  - intros [= <- <-]. left. split; [intros [= ->]; now apply lookup_no_bad in L|split; [apply same_refl|reflexivity]].
  - intros [= <- <-]. left. split; [congruence|split; [apply same_refl|reflexivity]].
Qed.
Lemma type_m a w d q al w' r : get_type_m E a w d q al = (w', r) ->
  (r <> Throw EBadAlloc /\ same_res (w', r) (get_type E a w d q)) \/ (r = Throw EBadAlloc /\ type_left w w' d a q).
Proof.
  unfold get_type_m, get_type. destruct (find_query q (d_queries (w_dom w d))) as [t|] eqn:F.
  { intros [= <- <-]. left. split; [congruence|split; [apply same_refl|reflexivity]]. }
  destruct (take al) as [[] al1]; [|intros [= <- <-]; right; auto using tl_same]. intros H. apply type_mut_m in H as [H|(A & _ & B)]; auto.
Qed.

(** Asking again *)
Lemma add_type_again w d t a q oq ms : WInv E w -> find_query q (d_queries (w_dom w d)) = None -> lookup_type E w d q = Ok (LNew oq ms None) ->
  build_type E (w_fid w) (w_mid w) (w_mdom w) a d ms = Ok t -> find_type w (t_mixins t) (d_types (w_dom w d)) = None ->
  same_res (get_type_mut E a (add_type w d t) d d q) (get_type_mut E a w d d q).
Proof.
  intros [HE HT] F L B FT. unfold get_type_mut. rewrite Nat.eqb_refl. cbn [negb]. rewrite L, B. unfold insert_type. rewrite FT.
  assert (Hm : t_mixins t = ms) by (apply build_type_ok in B; tauto).
  assert (L' : lookup_type E (add_type w d t) d q = Ok (LNew oq ms (Some (TReg (w_next w))))).
  { revert L. unfold lookup_type. cbn [add_type w_dom]. rewrite upd_same. cbn [d_queries with_types]. rewrite F. cbn [d_rules].
    assert (view E (add_type w d t) d = view E w d) as Vw.
    { unfold view, get_mixin_by_name. cbn [add_type w_dom w_mid]. rewrite upd_same. reflexivity. }
    fold (add_type w d t). change {| w_mid := w_mid w; w_mdom := w_mdom w; w_fid := w_fid w;
     w_dom := upd (w_dom w) d (with_types (w_dom w d) (d_types (w_dom w d) ++ [TReg (w_next w)]) (d_queries (w_dom w d)));
     w_type := tupd (w_type w) (TReg (w_next w)) (Some t); w_next := S (w_next w) |} with (add_type w d t). rewrite Vw.
    unfold with_types. cbn [d_rules d_types].
    destruct (apply_rules E (view E w d) (d_rules (w_dom w d)) q) as [[oq' ms']|e|u]; cbn [bind fst snd]; try congruence.
    intros [= <- <- X]. destruct ms' as [|m ms']; [discriminate X|]. do 2 f_equal.  unfold with_types. cbn [d_types]. rewrite find_type_app.
    rewrite (find_type_old w (add_type w d t)) by (intros; eapply add_type_old; eauto). rewrite X. cbn [find_type]. cbn [add_type w_type]. unfold tupd.
    destruct (tref_eqb_spec (TReg (w_next w)) (TReg (w_next w))); [|congruence]. rewrite Hm, span_equiv_refl. reflexivity. }
  rewrite L'. split; [|reflexivity]. cbn [fst]. apply add_store.
Qed.

Lemma forget_same {A} (x y : world * res A) : same_res x y -> same_res (forget x) (forget y).
Proof. apply same_forget. Qed.

Ltac srefl := split; [apply same_refl|reflexivity].
(** With enough memory, or if the memory that ran out was not needed *)
Lemma dstep_m_other w o al w' r : dstep_m E w o al = (w', r) -> r <> Throw EBadAlloc -> same_res (w', r) (dstep E w o).
Proof.
  intros H Hr. destruct o; cbn [dstep_m] in H; try (rewrite H; srefl); unfold forget, retty in H; cbn [dstep]; unfold forget, retty.
  - destruct (register_feature_m E w d f al) as [[w1 r1] al1] eqn:R. cbn [fst snd] in H. injection H as -> <-. apply feature_m in R as [[A B]|[-> ->]]; [rewrite B; srefl|congruence].
  - destruct (register_mixin_m E w d m al) as [w1 r1] eqn:R. cbn [fst snd] in H. injection H as -> <-. apply mixin_m in R as [[A B]|[-> _]]; [rewrite B; srefl|congruence].
  - destruct (register_tc_m E w d c al) as [w1 r1] eqn:R. cbn [fst snd] in H. injection H as -> <-. apply tc_m in R as [[A B]|[-> _]]; [rewrite B; srefl|congruence].
  - destruct (add_rule_m E w d r0 al) as [w1 r1] eqn:R. cbn [fst snd] in H. injection H as -> <-. apply rule_m in R as [[A B]|[-> _]]; [rewrite B; srefl|congruence].
  - destruct (get_type_m E alloc_ok w d q al) as [w1 r1] eqn:R. cbn [fst snd] in H. injection H as -> <-. apply type_m in R as [[A [B C]]|[-> _]]; [|congruence].
    destruct (get_type E alloc_ok w d q) as [w2 r2]. cbn [fst snd] in *. subst r2. split; [exact B|reflexivity].
  - destruct (get_type_mut_m E alloc_ok w d dm q al) as [w1 r1] eqn:R. cbn [fst snd] in H. injection H as -> <-. apply type_mut_m in R as [[A [B C]]|[-> _]]; [|congruence].
    destruct (get_type_mut E alloc_ok w d dm q) as [w2 r2]. cbn [fst snd] in *. subst r2. split; [exact B|reflexivity].
Qed.

(** What is left *)
Inductive rest (w w' : world) : dop -> Prop :=
| rest_same o : w' = w -> rest w w' o
| rest_features d m n : other_dom w d m = false -> register_features_of E w d (firstn n (m_features (e_mixin E m))) = (w', Ok tt) -> rest w w' (DRegMixin d m)
| rest_type d q a : type_left w w' d a q -> rest w w' (DGetType d q a)
| rest_mut d q a : type_left w w' d a q -> rest w w' (DGetTypeMut d d q a).
Lemma dstep_no_bad w o w' : dstep E w o = (w', Throw EBadAlloc) -> (exists d q a, o = DGetType d q a) \/ (exists d dm q a, o = DGetTypeMut d dm q a) \/ w' = w.
Proof.
  destruct o; try (intros _; left; do 3 eexists; reflexivity); try (intros _; right; left; do 4 eexists; reflexivity); cbn [dstep]; unfold forget, retty; intros H; right; right.
  - unfold register_feature in H. destruct (basic_register _ _ _ _ _) as [[? ?]|e|u]; cbn in H; congruence.
  - unfold unregister_feature in H. destruct (basic_unregister _ _ _); cbn in H; congruence.
  - destruct (register_mixin E w d m) as [w1 r1] eqn:R. cbn in H. destruct r1 as [x|e|u]; try congruence. injection H as -> ->. exfalso. revert R. unfold register_mixin.
    destruct (match w_mdom w m with Some d' => negb (d' =? d) | None => false end); [congruence|].
    assert (K : forall fs w0 w1, register_features_of E w0 d fs <> (w1, Throw EBadAlloc)).
    { induction fs as [|f fs IH]; intros w0 w1; cbn; [congruence|]. destruct (w_fid w0 (ff_info f)).
      - destruct (nth_error _ _) as [[p|]|]; try congruence. destruct (p =? _); [apply IH|congruence].
      - destruct (register_feature E w0 d (ff_info f)) as [w2 [x|e|u]] eqn:R; [apply IH| |congruence]. intros [= -> ->]. now apply reg_feature_no_bad in R. }
    destruct (register_features_of E w d _) as [w1 [x|e|u]] eqn:R; [| |congruence].
    + destruct (basic_register _ _ _ _ _) as [[sp id]|e|u] eqn:B; try congruence. intros [= -> ->]. now apply basic_no_bad in B.
    + intros [= -> ->]. now apply K in R.
  - unfold unregister_mixin in H. unfold purge_types in H. destruct (existsb _ _); [cbn in H; congruence|]. destruct (existsb _ _); [cbn in H; congruence|].
    unfold unregister_mixin_elem, basic_unregister in H. cbn in H. destruct (w_mid w m); [|cbn in H; congruence].
    destruct (nth_error _ _) as [[p|]|]; [destruct (p =? m)|..]; cbn in H; congruence.
  - unfold register_type_class in H. destruct (register_tc _ _ _); cbn in H; congruence.
  - unfold unregister_type_class in H. cbn in H; congruence.
  - unfold add_rule in H. destruct (r_apply _); [destruct (rules_incr _ _ _)|]; cbn in H; congruence.
  - unfold remove_rule in H. destruct (rules_decr _ _ _) as [[? ?]|e|u]; cbn in H; congruence.
  - unfold gc in H. destruct (existsb _ _); cbn in H; congruence.
  - unfold incr_nobj in H. destruct (w_type w r); cbn in H; congruence.
  - unfold decr_nobj in H. destruct (w_type w r) as [t|]; [destruct (t_nobj t)|]; cbn in H; congruence.
Qed.
Lemma dstep_m_bad w o al w' : dstep_m E w o al = (w', Throw EBadAlloc) -> rest w w' o.
Proof.
  intros H. destruct o; cbn [dstep_m] in H;
    try (apply dstep_no_bad in H as [(?&?&?&X)|[(?&?&?&?&X)|X]]; [discriminate X..|now apply rest_same]); unfold forget, retty in H.
  - destruct (register_feature_m E w d f al) as [[w1 r1] al1] eqn:R. cbn [fst snd] in H. injection H as -> Hr. apply feature_m in R as [[A B]|[-> ->]]; [|now apply rest_same].
    destruct r1; congruence.
  - destruct (register_mixin_m E w d m al) as [w1 r1] eqn:R. cbn [fst snd] in H. injection H as -> Hr. apply mixin_m in R as [[A B]|[-> (OD & n & B)]]; [destruct r1; congruence|].
    eapply rest_features; eauto.
  - destruct (register_tc_m E w d c al) as [w1 r1] eqn:R. cbn [fst snd] in H. injection H as -> Hr. apply tc_m in R as [[A B]|[-> ->]]; [destruct r1; congruence|now apply rest_same].
  - destruct (add_rule_m E w d r al) as [w1 r1] eqn:R. cbn [fst snd] in H. injection H as -> Hr. apply rule_m in R as [[A B]|[-> ->]]; [destruct r1; congruence|now apply rest_same].
  - destruct (get_type_m E alloc_ok w d q al) as [w1 r1] eqn:R. cbn [fst snd] in H. injection H as -> Hr. apply type_m in R as [[A B]|[-> B]]; [destruct r1; congruence|now apply rest_type].
  - destruct (get_type_mut_m E alloc_ok w d dm q al) as [w1 r1] eqn:R. cbn [fst snd] in H. injection H as -> Hr. apply type_mut_m in R as [[A B]|(-> & -> & B)]; [destruct r1; congruence|now apply rest_mut].
Qed.

Lemma only_features_tinv w w' : only_features w w' -> TInv E w -> TInv E w'.
Proof. apply tinv_only_features. Qed.
Lemma rest_winv w w' o : WInv E w -> rest w w' o -> WInv E w'.
Proof.
  intros [HE HT] R.
  assert (T : forall d a q, type_left w w' d a q -> WInv E w').
  { intros d a q [->|oq ms t F L B FT ->]; [split; auto|]. pose proof (built_type_ok E _ _ _ _ _ HE B) as Ok. split; [|now apply tinv_add_type].
    apply (einv_same E w); auto. repeat split; cbn; unfold upd; destruct (Nat.eqb_spec d0 d) as [->|]; reflexivity. }
  destruct R as [o ->|d m n OD R|d q a R|d q a R]; [split; auto| |eauto..].
  split.
  - pose proof (einv_register_features_of E (firstn n (m_features (e_mixin E m))) w d HE) as X. now rewrite R in X.
  - pose proof (register_features_of_only E (firstn n (m_features (e_mixin E m))) w d) as X. rewrite R in X. eapply tinv_only_features; eauto.
Qed.
Lemma winv_same w w' : same_world w w' -> WInv E w -> WInv E w'.
Proof.
  intros (A & B & C & D & F & G) [HE HT]. split.
  - apply (einv_same E w); auto. repeat split; auto; now rewrite <- D.
  - constructor; intros *; rewrite <- ?F, <- ?G, <- ?D.
    + intros H. destruct (ti_types _ _ HT _ _ H) as (n & t & X1 & X2 & X3 & X4). exists n, t. split; auto. split; auto. split; auto.
      eapply type_ok_mono; [|exact X4]. intros m Hm _. now rewrite <- A, <- B.
    + apply (ti_alive _ _ HT).
    + apply (ti_empty _ _ HT).
    + apply (ti_nodup _ _ HT).
    + apply (ti_uniq _ _ HT).
    + apply (ti_queries _ _ HT).
    + apply (ti_keys _ _ HT).
Qed.
Lemma res_dec (r : res (option tref)) : r = Throw EBadAlloc \/ r <> Throw EBadAlloc.
Proof. destruct r as [x|e|u]; [right; congruence| |right; congruence]. destruct e; auto; right; congruence. Qed.
Lemma winv_dstep_m w o al w' r : WInv E w -> dstep_m E w o al = (w', r) -> WInv E w'.
Proof.
  intros HW H. destruct (res_dec r) as [->|N].
  - eapply rest_winv; eauto. eapply dstep_m_bad; eauto.
  - apply dstep_m_other in H as [S _]; auto. destruct (dstep E w o) as [w1 r1] eqn:D. cbn [fst] in S.
    eapply winv_same; [apply same_sym; exact S|]. eapply winv_dstep; eauto.
Qed.
Lemma winv_run_m tr w : run_m E tr w -> WInv E w.
Proof.
  induction 1; [split; [apply einv_init|apply tinv_init]|]. eapply winv_dstep_m; eauto.
Qed.

(** Retrying *)
Lemma dstep_same w w' o : same_world w w' -> same_res (dstep E w o) (dstep E w' o).
Proof. apply same_dstep. Qed.
Lemma register_mixin_again w d m n w' : EInv E w -> other_dom w d m = false -> register_features_of E w d (firstn n (m_features (e_mixin E m))) = (w', Ok tt) ->
  register_mixin E w' d m = register_mixin E w d m.
Proof.
  intros HE OD R. pose proof (features_again d n _ _ _ HE R) as A. pose proof (register_features_of_only E (firstn n (m_features (e_mixin E m))) w d) as X. rewrite R in X.
  destruct X as (X1 & X2 & _). cbn [fst] in *. unfold register_mixin, other_dom in *. rewrite X2, A, OD. reflexivity.
Qed.
Lemma retry w o al w' : WInv E w -> dstep_m E w o al = (w', Throw EBadAlloc) -> same_res (dstep E w' o) (dstep E w o).
Proof.
  intros HW H. pose proof (dstep_m_bad _ _ _ _ H) as R. pose proof HW as [HE HT].
  destruct R as [o ->|d m n OD R|d q a R|d q a R]; [srefl| |..].
  - cbn [dstep]. rewrite (register_mixin_again w d m n w' HE OD R). srefl.
  - destruct R as [->|oq ms t F L B FT ->]; [srefl|]. cbn [dstep]. apply same_retty. unfold get_type. cbn [add_type w_dom]. rewrite upd_same. cbn [d_queries with_types]. rewrite F.
    eapply add_type_again; eauto.
  - destruct R as [->|oq ms t F L B FT ->]; [srefl|]. cbn [dstep]. apply same_retty. eapply add_type_again; eauto.
Qed.
End Oom.

Section Oom2.
Variable E : env.
Lemma built_nobj mid fid mdom a d ms t : build_type E fid mid mdom a d ms = Ok t -> t_nobj t = 0.
Proof.
  intros H. apply build_type_ok in H. tauto.
Qed.
Lemma feature_same w w' d : d_features (w_dom w' d) = d_features (w_dom w d) -> forall i, get_feature_by_id w' d i = get_feature_by_id w d i.
Proof. intros H i. unfold get_feature_by_id. now rewrite H. Qed.
Lemma left_refl w o : left_behind E w w o.
Proof. unfold left_behind. split; [reflexivity|]. split; [reflexivity|]. split; [intros; auto|]. repeat (split; [auto|]). auto. Qed.
Lemma c71_left tr w o al w' : run_m E tr w -> dstep_m E w o al = (w', Throw EBadAlloc) -> left_behind E w w' o.
Proof.
  intros Hr H. pose proof (winv_run_m E _ _ Hr) as [HE HT]. apply dstep_m_bad in H.
  assert (T : forall d q a, type_left E w w' d a q -> o = DGetType d q a \/ o = DGetTypeMut d d q a -> left_behind E w w' o).
  { intros d q a [->|oq ms t F L B FT ->] Ho; [apply left_refl|].
    assert (Q : forall x, d_mixins (w_dom (add_type w d t) x) = d_mixins (w_dom w x) /\ d_tcs (w_dom (add_type w d t) x) = d_tcs (w_dom w x) /\
     d_rules (w_dom (add_type w d t) x) = d_rules (w_dom w x) /\ d_queries (w_dom (add_type w d t) x) = d_queries (w_dom w x)) by
      (intros x; cbn; unfold upd; destruct (Nat.eqb_spec x d) as [->|]; repeat split).
    assert (QF : forall x i, get_feature_by_id (add_type w d t) x i = get_feature_by_id w x i) by
      (intros x; apply feature_same; cbn; unfold upd; destruct (Nat.eqb_spec x d) as [->|]; reflexivity).
    assert (QT : forall x r, In r (d_types (w_dom (add_type w d t) x)) <-> In r (d_types (w_dom w x)) \/ (x = d /\ r = TReg (w_next w))).
    { intros x r. cbn. unfold upd. destruct (Nat.eqb_spec x d) as [->|]; [|tauto]. cbn. rewrite in_app_iff. cbn. intuition. }
    split; [reflexivity|]. split; [reflexivity|]. split; [exact Q|]. split; [intros; now rewrite QF|]. split; [intros; left; now rewrite <- QF|]. split.
    - intros x r t' [H1 H2]. split.
      + cbn. unfold tupd. destruct (tref_eqb_spec r (TReg (w_next w))) as [->|]; auto. rewrite (tinv_fresh E w (w_next w) HT (le_n _)) in H1. discriminate.
      + rewrite QT. tauto.
    - intros x r t' [H1 H2]. rewrite QT in H2. cbn in H1. unfold tupd in H1. destruct (tref_eqb_spec r (TReg (w_next w))) as [->|N].
      + right. injection H1 as <-. split; [now apply (tinv_fresh E w (w_next w) HT)|]. split; [eapply built_nobj; eauto|].
        destruct H2 as [H2|[H2|[-> _]]]; [discriminate| |eauto]. destruct (ti_types _ _ HT _ _ H2) as (n & t2 & [= <-] & L2 & _). lia.
      + left. split; auto. destruct H2 as [?|[?|[_ ?]]]; auto. contradiction. }
  destruct H as [o ->|d m n OD R|d q a R|d q a R]; [apply left_refl| |eapply T; eauto..].
  pose proof (register_features_of_only E (firstn n (m_features (e_mixin E m))) w d) as X. rewrite R in X. cbn [fst] in X. destruct X as (X1 & X2 & X3 & X4 & X5).
  pose proof (register_features_of_mono E (firstn n (m_features (e_mixin E m))) w d HE) as M. rewrite R in M. destruct M as [M1 M2]. cbn [fst] in *.
  split; [auto|]. split; [auto|]. split; [intros x; destruct (X5 x) as (Y1 & Y2 & Y3 & Y4 & Y5); auto|]. split; [|split; [|split]].
  - intros x i f G. unfold get_feature_by_id, get_by_id in *. destruct (nth_error (d_features (w_dom w x)) i) as [[y|]|] eqn:N; try discriminate G. injection G as ->.
    now rewrite (M2 _ _ _ N).
  - intros x i f G. destruct (features_new E d _ _ _ _ HE R _ _ _ G) as [K|(K & -> & K')]; [auto|]. right. split; auto. exists m. split; auto.
    rewrite firstn_map in K' || rewrite <- firstn_map in K'. revert K'. generalize (map ff_info (m_features (e_mixin E m))). clear. intros l. revert n. induction l as [|a l IH]; intros [|n]; cbn; try tauto. intros [->|H]; eauto.
  - intros x r t [H1 H2]. split; [now rewrite X3|]. destruct (X5 x) as (Y1 & Y2 & Y3 & Y4 & Y5). now rewrite Y4.
  - intros x r t [H1 H2]. left. split; [now rewrite <- X3|]. destruct (X5 x) as (Y1 & Y2 & Y3 & Y4 & Y5). now rewrite <- Y4.
Qed.

Lemma winv_sound w : WInv E w -> sound w.
Proof.
  intros [HE HT]. unfold sound. split; [|split; [|split; [|split; [|split]]]].
  - intros d i m. unfold get_mixin_by_id. rewrite get_by_id_spec. split.
    + intros H. apply (ei_m1 _ _ HE) in H. tauto.
    + intros [A B]. destruct (ei_m2 _ _ HE _ _ A) as (j & C & D). congruence.
  - intros d i f. unfold get_feature_by_id. rewrite get_by_id_spec. apply (ei_f1 _ _ HE).
  - intros f i H. destruct (ei_f2 _ _ HE _ _ H) as [d Hd]. exists d. unfold get_feature_by_id. now rewrite get_by_id_spec.
  - intros d r r' t t' [Ht Hin] [Ht' Hin']. split; [intros ->; rewrite Ht in Ht'; now injection Ht' as ->|].
    intros Heq. destruct Hin as [->|Hin], Hin' as [->|Hin']; auto.
    + destruct (ti_empty _ _ HT d) as [k Hk]. rewrite Hk in Ht. injection Ht as <-. simpl in Heq.
      destruct (ti_types _ _ HT _ _ Hin') as (n & t2 & -> & _ & Ht2 & _ & Hne & _). rewrite Ht2 in Ht'. injection Ht' as <-. congruence.
    + destruct (ti_empty _ _ HT d) as [k Hk]. rewrite Hk in Ht'. injection Ht' as <-. simpl in Heq.
      destruct (ti_types _ _ HT _ _ Hin) as (n & t2 & -> & _ & Ht2 & _ & Hne & _). rewrite Ht2 in Ht. injection Ht as <-. congruence.
    + exact (ti_uniq _ _ HT _ _ _ _ _ Hin Hin' Ht Ht' Heq).
  - intros d r t [Ht [->|Hin]].
    + destruct (ti_empty _ _ HT d) as [k Hk]. rewrite Hk in Ht. injection Ht as <-. cbn. split; [constructor|tauto].
    + destruct (ti_types _ _ HT _ _ Hin) as (n & t2 & -> & _ & Ht2 & A1 & A2 & A3 & A4 & _). rewrite Ht2 in Ht. injection Ht as <-. auto.
  - intros d q r H. destruct (ti_queries _ _ HT _ _ _ H) as [->|Hin].
    + destruct (ti_empty _ _ HT d) as [k Hk]. eexists. split; [exact Hk|auto].
    + destruct (ti_types _ _ HT _ _ Hin) as (n & t2 & -> & _ & Ht2 & _). exists t2. split; auto.
Qed.
Lemma c71_sound tr w : run_m E tr w -> sound w /\ forall d, applies E w d (map fst (d_rules (w_dom w d))).
Proof. intros H. apply winv_run_m in H. split; [now apply winv_sound|]. intros d. now apply asked_applies. Qed.
Lemma c71_enough w o al w' r : dstep_m E w o al = (w', r) -> r <> Throw EBadAlloc -> same_world w' (fst (dstep E w o)) /\ r = snd (dstep E w o).
Proof. intros H N. apply (dstep_m_other E _ _ _ _ _ H N). Qed.

(** Any number of attempts that ran out of memory *)
Lemma c71_retry tr w o w' : run_m E tr w -> failed_attempts E w o w' ->
  same_world (fst (dstep E w' o)) (fst (dstep E w o)) /\ snd (dstep E w' o) = snd (dstep E w o).
Proof.
  intros Hr. apply winv_run_m in Hr. induction 1 as [w o|w o al w1 w2 H _ IH]; [split; [apply same_refl|reflexivity]|].
  destruct (IH (winv_dstep_m E _ _ _ _ _ Hr H)) as [A B]. destruct (retry E _ _ _ _ Hr H) as [C D]. split; [eapply same_trans; eauto|congruence].
Qed.
End Oom2.
