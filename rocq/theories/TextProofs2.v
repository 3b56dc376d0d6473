(** Proofs about the texts of exceptions: what each says, what is read for it *)
From Coq Require Import List Arith ZArith NArith Lia Bool String Ascii.
From Verif Require Import Base Sv Info Registry TypeMut Rules TypeBuild TypeQuery Domain Life SpecLife LifeProofs RuleTheorems2 Define Texts SpecText TextProofs TextClash TypesProofs.
Import ListNotations.
Open Scope list_scope.

Section TP.
Variable E : env.
Variable dname : dptr -> list N.
Notation render := (render E dname).
Notation chars := (chars E dname).

Lemma r_cons p l : render (p :: l) = chars p ++ render l. Proof. reflexivity. Qed.
Lemma r_nil : render [] = []. Proof. reflexivity. Qed.
Lemma k_text s : chars (PText s) = s. Proof. reflexivity. Qed.
Lemma k_dom d : chars (PDomain d) = shown dname d. Proof. apply shown_chars. Qed.
Lemma k_name n : chars (PName n) = quoted n. Proof. reflexivity. Qed.
Lemma r_start d l : render (start d l) = shown dname d ++ text ": " ++ render l.
Proof. unfold start. now rewrite !r_cons, k_dom. Qed.

(** What all texts have *)
Definition good (w : world) (o : dop) (d : dptr) (ps : list piece) : Prop :=
  begins (render ps) (shown dname d ++ text ": ") /\
  forall d', In d' (domains_read ps) -> d' = d \/ (exists m, w_mdom w m = Some d') \/ exists q a, o = DGetTypeMut d d' q a.
Lemma good_start w o d l : (forall d', In d' (domains_read l) -> (exists m, w_mdom w m = Some d') \/ exists q a, o = DGetTypeMut d d' q a) -> good w o d (start d l).
Proof.
  intros H. split.
  - exists (render l). rewrite r_start, <- app_assoc. reflexivity.
  - cbn. intros d' [<-|X]; auto.
Qed.
Ltac gs := apply good_start; cbn; intros ? X; repeat (destruct X as [<-|X]; eauto); try destruct X.
Ltac expand := rewrite ?r_start, ?r_cons, ?r_nil, ?k_text, ?k_dom, ?k_name, ?list_chars.
Ltac men a := exists a; eexists; expand; rewrite <- ?app_assoc; reflexivity.

Lemma said_feature w d f e o : e = EIdRegistered \/ e = EEmptyName \/ e = EDuplicateName \/ e = EUnregForeign ->
  exists ps, feature_text E w d f e = Some ps /\ good w o d ps /\
    (e = EIdRegistered \/ e = EUnregForeign -> mentions (render ps) (text "feature " ++ shown_feature E f)) /\
    (e = EDuplicateName -> mentions (render ps) (text "feature with duplicate name " ++ shown_feature E f)).
Proof.
  intros [->|[->|[->| ->]]]; (eexists; split; [reflexivity|]; split; [gs|]; split; [intros Q; try (destruct Q as [Q|Q]; discriminate Q)|intros Q; try discriminate Q]; unfold shown_feature).
  - men (shown dname d ++ text ": register ").
  - men (shown dname d ++ text ": register ").
  - men (shown dname d ++ text ": unregister foreign ").
Qed.
Lemma said_mixin w d m e o : e = EIdRegistered \/ e = EEmptyName \/ e = EDuplicateName ->
  exists ps, mixin_text E w d m e = Some ps /\ good w o d ps /\
    (e = EIdRegistered -> mentions (render ps) (text "mixin " ++ shown_mixin E m)) /\
    (e = EDuplicateName -> mentions (render ps) (text "mixin with duplicate name " ++ shown_mixin E m)).
Proof.
  intros [->|[->| ->]]; (eexists; split; [reflexivity|]; split; [gs|]; split; intros Q; try discriminate Q; unfold shown_mixin).
  - men (shown dname d ++ text ": register ").
  - men (shown dname d ++ text ": register ").
Qed.
Lemma said_unreg w d m o : exists ps, mixin_text E w d m EUnregForeign = Some ps /\ good w o d ps /\
  mentions (render ps) (shown_mixin E m) /\ mentions (render ps) (text "domain = " ++ shown_owner dname w m).
Proof.
  eexists. split; [reflexivity|]. split; [destruct (w_mdom w m) eqn:Q; gs|]. unfold shown_mixin, shown_owner. cbn [app]. split.
  - men (shown dname d ++ text ": unregister foreign feature ").
  - exists (shown dname d ++ text ": unregister foreign feature " ++ quoted (m_name (e_mixin E m)) ++ text ", id = " ++ chars (PId (w_mid w m)) ++ text ", "), [].
    expand. rewrite <- ?app_assoc. destruct (w_mdom w m); [rewrite k_dom|]; reflexivity.
Qed.
Lemma type_said w d dm q e o : forall w' a, get_type_mut E a w d d q = (w', Throw e) -> e <> EBadAlloc ->
  (o = DGetType d q a \/ o = DGetTypeMut d dm q a) ->
  exists ps, type_text E w d q e = Some ps /\ good w o d ps /\ type_blamed E dname w d q e (render ps).
Proof.
  intros w' a H NB O. unfold get_type_mut in H. rewrite Nat.eqb_refl in H. cbn [negb] in H. unfold lookup_type in H.
  destruct (find_query q (d_queries (w_dom w d))); [discriminate|]. unfold apply_rules in H.
  destruct (rules_loop E _ _ _ _ _ _ _) as [x|e'|u] eqn:L; cbn [bind] in H; try discriminate.
  - apply loop_ok in L. unfold type_text, rules_stop. rewrite L.
    pose proof (stop_no_rules E w d q) as NR. unfold rules_stop in NR. rewrite L in NR. cbn [snd] in NR. set (l := snd x) in *.
    assert (B' : build_type E (w_fid w) (w_mid w) (w_mdom w) a d l = Throw e).
    { clearbody l. destruct l as [|m0 l]; [discriminate|]. destruct (find_type w (m0 :: l) _); [discriminate|]. destruct (build_type E _ _ _ a d _) as [t|y|y]; [destruct (insert_type w d (fst x) t); discriminate|injection H as <- <-; auto|discriminate]. }
    pose proof (build_type_throw _ _ _ _ _ _ _ _ B') as C. unfold build_type in B'.
    destruct (check_mixins (w_mid w) (w_mdom w) d l) as [y|e'|u] eqn:K; cbn [bind] in B'; try discriminate.
    + destruct (ftable_counts E (w_fid w) l) as [c|y'|u] eqn:Z; cbn [bind] in B'; try discriminate; [|injection B' as <-; exfalso; exact (count_pls_throw _ _ _ _ Z)].
      destruct (List.length l =? 0); [discriminate|]. destruct a; cbn [negb] in B'; [|congruence].
      assert (e = EFeatureClash /\ build_ftable E (w_fid w) l c = Throw EFeatureClash) as [-> BT].
      { clear C. destruct (build_ftable E (w_fid w) l c) as [ft|y'|u] eqn:BF; cbn [bind] in B'; try discriminate.
        - unfold layout in B'. destruct (layout_loop E l _ _) eqn:F3; cbn [bind] in B'; try discriminate; [|exfalso; exact (layout_throw _ _ _ _ _ F3)].
          unfold build_sparse in B'. destruct (fill_sparse _ _ _) eqn:F4; cbn [bind] in B'; try discriminate. exfalso; exact (fill_sparse_throw _ _ _ _ F4).
        - injection B' as ->. unfold build_ftable in BF. destruct (fill_pls _ _ _ _ _) as [t|y'|u] eqn:F; cbn [bind] in BF; try discriminate; [|exfalso; exact (fill_pls_throw _ _ _ _ _ _ F)].
          apply finish_entries_throw in BF as ->. auto. }
      assert (ND : NoDup l) by (destruct y; apply check_mixins_ok in K; apply K).
      destruct (clash_said E (w_fid w) (w_mid w) l c ND Z BT) as (pa & pb & ma & mb & f & CO & N1 & N2 & I1 & I2 & X1 & X2 & X3 & X4 & X5 & X6 & X7).
      rewrite CO, N1, N2. eexists. split; [reflexivity|]. split; [gs|]. exists l, f, (fp_data pa), (fp_data pb), ma, mb. split; [eapply nth_error_In; eauto|]. split; auto. split; [eapply nth_error_In; eauto|].
      do 8 (split; auto). unfold shown_mixin, shown_feature. exists (shown dname d ++ text ": "), []. expand. rewrite ?app_nil_r, <- ?app_assoc, ?app_nil_r. reflexivity.
    + injection B' as ->. destruct (check_throw _ _ _ _ K) as (m & Bm & Im & [[-> Q]|[(-> & Q1 & Q2)|[-> Q]]]); rewrite Bm.
      * eexists. split; [reflexivity|]. split; [gs|]. exists m, l. split; auto. split; auto. split; [auto|]. unfold shown_mixin. men (shown dname d ++ text ": ").
      * eexists. split; [reflexivity|]. split; [destruct (w_mdom w m) eqn:Q; gs|]. exists m, l. split; auto. split; auto. split; auto. split; [auto|]. unfold shown_mixin, shown_owner. split.
        -- men (shown dname d ++ text ": ").
        -- exists (shown dname d ++ text ": foreign mixin " ++ quoted (m_name (e_mixin E m)) ++ text " from " ++ match w_mdom w m with Some _ => text "'" | None => [] end), [].
           destruct (w_mdom w m); cbn [app]; expand; rewrite <- ?app_assoc; reflexivity.
      * eexists. split; [reflexivity|]. split; [gs|]. exists m, l. split; auto. split; [auto|]. unfold shown_mixin. men (shown dname d ++ text ": ").
  - injection H as <- <-. apply loop_throw in L as [(r & n & f & z & l & -> & L & A & B & C)| ->]; unfold type_text, rules_stop.
    + rewrite L. eexists. split; [reflexivity|]. split; [gs|]. exists r, n, f, l. split; auto. split; auto. split; auto. men (shown dname d ++ text ": applying ").
    + destruct (loop_stop _ _ _ _ _ _ _) as [r l]. eexists. split; [reflexivity|]. split; [gs|exact Logic.I].
Qed.

Lemma said w o w' e : dstep E w o = (w', Throw e) -> e <> EBadAlloc ->
  exists ps d, text_of E w o e = Some ps /\ on_domain w o = Some d /\ good w o d ps /\ blamed E dname w o e (render ps).
Proof.
  assert (FG : forall (A : Type) (x : world * res A), forget x = (w', Throw e) -> x = (w', Throw e)).
  { intros A [x y]. unfold forget. cbn. destruct y; intros [=]; subst; auto. }
  assert (RT : forall x, retty x = (w', Throw e) -> x = (w', Throw e)).
  { intros [x y]. unfold retty. cbn. destruct y; intros [=]; subst; auto. }
  destruct o as [d f|d f|d m|d m|d c|d c|d r|d r|d q a|d dm q a|d|r|r]; cbn [dstep text_of on_domain]; intros H NB; (apply FG in H || apply RT in H).
  - unfold register_feature in H. destruct (basic_register _ _ _ _ _) as [[sp id]|y|y] eqn:B; try discriminate. injection H as <- ->.
    apply reg_throw in B. destruct (said_feature w d f e (DRegFeature d f)) as (ps & A & G & M1 & M2); [tauto|]. exists ps, d. repeat split; auto; try apply G.
    cbn. intros NE. destruct B as [[-> _]|[_ [->| ->]]]; [left; auto|congruence|right]. eapply men_trans; [apply M2; auto|]. exists (text "feature with duplicate "), []. rewrite app_nil_r. reflexivity.
  - unfold unregister_feature in H. destruct (basic_unregister _ _ _) eqn:B; try discriminate. injection H as <- ->. apply unreg_throw in B as ->.
    destruct (said_feature w d f EUnregForeign (DUnregFeature d f)) as (ps & A & G & M1 & M2); [tauto|]. exists ps, d. repeat split; auto; try apply G. cbn. auto.
  - unfold register_mixin in H. destruct (match w_mdom w m with Some d' => negb (d' =? d) | None => false end) eqn:F.
    + injection H as <- <-. destruct (w_mdom w m) as [dm|] eqn:Q; [|discriminate]. unfold register_mixin_text, mixin_text. rewrite Q. eexists _, d. split; [reflexivity|]. split; [reflexivity|].
      split; [gs|]. cbn [blamed]. exists dm. split; auto. unfold shown_mixin. men (shown dname d ++ text ": register ").
    + destruct (register_features_of E w d _) as [w1 [x|y|y]] eqn:R; try discriminate.
      * destruct (basic_register _ _ _ _ _) as [[sp id]|y|y] eqn:B; try discriminate. injection H as <- ->. apply reg_throw in B. pose proof (features_ok E _ _ _ _ _ R) as BF.
        destruct (said_mixin w d m e (DRegMixin d m)) as (ps & A & G & M1 & M2); [tauto|]. exists ps, d. split.
        { unfold register_mixin_text. rewrite BF. destruct e; auto. } split; auto. split; auto. cbn [blamed]. destruct B as [[-> _]|[_ [->| ->]]]; auto.
      * injection H as <- ->. destruct (features_throw E _ _ _ _ _ R) as (f & BF & I & EE & NF).
        destruct (said_feature w d f e (DRegMixin d m)) as (ps & A & G & M1 & M2); [tauto|]. exists ps, d. split.
        { unfold register_mixin_text. rewrite BF. destruct EE as [->| ->]; auto. } split; auto. split; auto. cbn [blamed]. destruct EE as [->| ->]; auto. right. exists f. auto.
  - unfold unregister_mixin in H. destruct (purge_types w d m) as [w1|y|y] eqn:P; [|exfalso|discriminate].
    + unfold unregister_mixin_elem in H. destruct (basic_unregister _ _ _) eqn:B; try discriminate. injection H as <- ->. apply unreg_throw in B as ->.
      destruct (said_unreg w d m (DUnregMixin d m)) as (ps & A & G & M). exists ps, d. auto.
    + unfold purge_types in P. destruct (existsb _ _); [discriminate|]. destruct (existsb _ _); discriminate.
  - unfold register_type_class in H. destruct (register_tc _ _ _) as [x|y|y] eqn:R; try discriminate. injection H as <- ->. unfold register_tc in R.
    destruct (sv_empty _); [injection R as <-; eexists _, d; split; [reflexivity|]; split; auto; split; [gs|]; cbn; congruence|].
    destruct (c_matches _); [|injection R as <-; eexists _, d; split; [reflexivity|]; split; auto; split; [gs|]; cbn [blamed]; intros _; men (shown dname d ++ text ": register type class ")].
    assert (Q : forall rs f x, scan_tc (fun p => c_name (e_tc E p)) (c_name (e_tc E c)) rs f = Throw x -> x = EDuplicateName).
    { induction rs as [|[y|] rs IH]; cbn; intros f x; [discriminate| |apply IH]. destruct (sv_eqb _ _); [congruence|apply IH]. }
    destruct (scan_tc _ _ _ _) as [[]|y|y] eqn:S; cbn [bind] in R; try discriminate. injection R as <-. apply Q in S as ->.
    eexists _, d; split; [reflexivity|]; split; auto; split; [gs|]; cbn [blamed]; intros _; men (shown dname d ++ text ": register type class with duplicate name ").
  - discriminate.
  - unfold add_rule in H. destruct (r_apply _); [destruct (rules_incr _ _ _); discriminate|]. injection H as <- <-. eexists _, d. split; [reflexivity|]. split; auto. split; [gs|]. cbn [blamed]. men (shown dname d ++ text ": register mutation rule ").
  - exfalso. unfold remove_rule in H. destruct (rules_decr E r _) as [[x y]|y|y] eqn:R; try discriminate.
    assert (Q : forall l y, rules_decr E r l <> Throw y).
    { induction l as [|[k c] l IH]; cbn; intros z; [discriminate|]. destruct (rule_less E k r); [specialize (IH z); destruct (rules_decr E r l); cbn; congruence|]. destruct (rule_less E r k); [discriminate|]. destruct c as [|[|c]]; discriminate. }
    exact (Q _ _ R).
  - unfold get_type in H. destruct (find_query q _); [discriminate|]. destruct (type_said w d d q e (DGetType d q a) _ _ H NB) as (ps & A & B & C); [auto|]. exists ps, d. auto.
  - destruct (Nat.eqb_spec dm d) as [->|N].
    + destruct (type_said w d d q e (DGetTypeMut d d q a) _ _ H NB) as (ps & A & B & C); [auto|]. exists ps, d. assert (X : e <> EForeignMutation) by (intros ->; unfold type_text in A; destruct (rules_stop E w d q); discriminate).
      split; [destruct e; auto; congruence|]. split; auto. split; auto. cbn [blamed]. destruct e; auto. congruence.
    + unfold get_type_mut in H. apply Nat.eqb_neq in N. rewrite N in H. cbn [negb] in H. injection H as <- <-. eexists _, d. split; [reflexivity|]. split; auto. split.
      * unfold mutation_text. apply good_start. cbn. intros d' [<-|[]]. right. eauto.
      * cbn [blamed]. unfold mutation_text. split.
        -- intros m Hm. expand. do 3 apply men_later. eapply men_trans; [apply men_here|apply list_in; auto].
        -- expand. men (shown dname d ++ text ": requested type with foreign mutation " ++ shown_list E q ++ text " ").
  - exfalso. unfold gc in H. destruct (existsb _ _); discriminate.
  - exfalso. unfold incr_nobj in H. destruct (w_type w r); discriminate.
  - exfalso. unfold decr_nobj in H. destruct (w_type w r) as [t|]; [|discriminate]. destruct (t_nobj t); discriminate.
Qed.
End TP.

Section TP2.
Variable E : env.
Variable dname : dptr -> list N.
Lemma c88_text l c l' e t : tell E dname l (LCall c) = (l', Told e t) ->
  exists d, on_domain (l_w l) c = Some d /\ lstep E l (LCall c) = (l', Throw e) /\ begins t (shown dname d ++ text ": ") /\ blamed E dname (l_w l) c e t.
Proof.
  unfold tell. destruct (lstep E l (LCall c)) as [l1 r] eqn:S. destruct r as [x|e1|u]; try discriminate. destruct (text_of E (l_w l) c e1) as [ps|] eqn:T; [|discriminate].
  destruct (existsb _ _); [discriminate|]. intros [= -> -> <-]. cbn [lstep] in S. destruct (on_domain (l_w l) c) as [d|] eqn:O; [|discriminate]. destruct (l_dead l d); [discriminate|].
  destruct (dstep E (l_w l) c) as [w' r] eqn:D. injection S as <- ->. destruct (said E dname _ _ _ _ D) as (ps' & d' & A & B & G & M).
  { intros ->. destruct c; cbn in T; try discriminate.
    - unfold register_mixin_text in T. destruct (bad_feature _ _ _ _); discriminate.
    - unfold type_text in T. destruct (rules_stop _ _ _ _). discriminate.
    - unfold type_text in T. destruct (rules_stop _ _ _ _). discriminate. }
  rewrite O in B. injection B as <-. rewrite T in A. injection A as <-. exists d. split; auto. split; [reflexivity|]. split; auto. apply G.
Qed.
Lemma c88_same l o l' r : lstep E l o = (l', r) -> (forall e, r <> Throw e) -> tell E dname l o = (l', Done r).
Proof. unfold tell. intros -> H. destruct o; auto. destruct r; auto. congruence. Qed.
Lemma c88_told tr l c l' e : lrun E clean_end (l_init E) tr l -> alive_mutation l (LCall c) -> lstep E l (LCall c) = (l', Throw e) -> e <> EBadAlloc ->
  exists t, tell E dname l (LCall c) = (l', Told e t).
Proof.
  intros H AM S NB. unfold tell. rewrite S. cbn [lstep] in S. destruct (on_domain (l_w l) c) as [d|] eqn:O; [|discriminate]. destruct (l_dead l d) eqn:DD; [discriminate|].
  destruct (dstep E (l_w l) c) as [w' r] eqn:D. injection S as <- ->. destruct (said E dname _ _ _ _ D NB) as (ps & d' & A & B & [_ G] & M). rewrite O in B. injection B as <-.
  rewrite A. destruct (existsb (l_dead l) (domains_read ps)) eqn:X; eauto. exfalso. apply existsb_exists in X as (d2 & I & Dd). destruct (c73_clean E tr l H) as (_ & CM & _).
  destruct (G _ I) as [->|[[m Hm]|(q & a & ->)]]; [congruence|rewrite (CM _ _ Hm) in Dd; discriminate|cbn in AM; congruence].
Qed.
Lemma lost_later tr l m d tr2 l2 : lrun E any_end (l_init E) tr l -> l_dead l d = true -> w_mdom (l_w l) m = Some d -> lrun E any_end l tr2 l2 ->
  LInv (l_w l2) /\ l_dead l2 d = true /\ w_mdom (l_w l2) m = Some d.
Proof.
  intros H Hd K H2. pose proof (linv_lrun E _ _ _ _ (linv_init E) H) as HL. split; [eapply linv_lrun; eauto|].
  induction H2 as [|tr2 l1 o l2 r H2 IH Hok Hs Hu]; auto. destruct IH as [A B]. exact (lost_mixin_step E l1 o l2 r m d (linv_lrun E _ _ _ _ HL H2) A B Hs).
Qed.
Lemma c88_lost tr l m d tr2 l2 : lrun E any_end (l_init E) tr l -> l_dead l d = true -> w_mdom (l_w l) m = Some d -> lrun E any_end l tr2 l2 -> forall d2,
  snd (tell E dname l2 (LCall (DRegMixin d2 m))) = Done (Ub UbDangling) /\ exists u, snd (tell E dname l2 (LCall (DUnregMixin d2 m))) = Done (Ub u).
Proof.
  intros H Hd K H2 d2. destruct (lost_later _ _ _ _ _ _ H Hd K H2) as (HL & A & B). unfold tell. cbn [lstep on_domain]. destruct (l_dead l2 d2) eqn:D2; [cbn; eauto|].
  assert (N : d <> d2) by congruence. split.
  - cbn [dstep]. unfold register_mixin. rewrite B. apply Nat.eqb_neq in N. rewrite N. cbn [negb forget fst snd text_of register_mixin_text mixin_text]. rewrite B. cbn. rewrite D2, A. reflexivity.
  - cbn [dstep]. unfold unregister_mixin. destruct (purge_types (l_w l2) d2 m) as [w1|e|u] eqn:P; [|exfalso|cbn; eauto].
    + unfold unregister_mixin_elem. destruct (basic_unregister (w_mid w1) (d_mixins (w_dom w1 d2)) m) as [sp|e|u] eqn:R.
      * exfalso. unfold purge_types in P. destruct (existsb _ _); [discriminate|]. destruct (existsb _ _); [discriminate|]. injection P as <-. cbn in R. unfold upd in R at 1; rewrite Nat.eqb_refl in R. cbn in R.
        unfold basic_unregister in R. destruct (w_mid (l_w l2) m) as [i|]; [|discriminate]. destruct (nth_error _ i) as [[p|]|] eqn:Q; try discriminate. destruct (Nat.eqb_spec p m) as [->|]; [|discriminate].
        destruct (li_m1 _ HL _ _ _ Q). congruence.
      * cbn [forget fst snd]. apply unreg_throw in R as ->. cbn. rewrite B. cbn. rewrite D2, A. cbn. eauto.
      * exfalso. unfold basic_unregister in R. destruct (w_mid w1 m); [|discriminate]. destruct (nth_error _ _) as [[p|]|]; try discriminate. destruct (p =? m); discriminate.
    + unfold purge_types in P. destruct (existsb _ _); [discriminate|]. destruct (existsb _ _); discriminate.
Qed.
End TP2.
