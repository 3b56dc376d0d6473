(** Proofs about the texts of exceptions *)
From Coq Require Import List Arith ZArith NArith Lia Bool String Ascii.
From Verif Require Import Base Sv Info Registry TypeMut Rules TypeBuild TypeQuery Domain Life SpecLife LifeProofs RuleTheorems2 Define Texts SpecText.
Import ListNotations.
Open Scope list_scope.

Section TP.
Variable E : env.
Variable dname : dptr -> list N.

Lemma shown_chars d : domain_chars dname d = shown dname d.
Proof. unfold domain_chars, shown. cbn. destruct (dname d); reflexivity. Qed.
Lemma mixins_rest l : mixins_chars E false l = flat_map (fun m => text ", " ++ shown_mixin E m) l.
Proof. induction l as [|m l IH]; auto. cbn [mixins_chars flat_map]. rewrite IH, <- app_assoc. reflexivity. Qed.
Lemma mixins_joined l : mixins_chars E true l = joined (map (shown_mixin E) l).
Proof.
  destruct l as [|m l]; auto. cbn [mixins_chars]. rewrite mixins_rest. change (@nil N ++ ?x) with x. revert m.
  induction l as [|x l IH]; intros m; [cbn [flat_map map joined]; apply app_nil_r|]. cbn [flat_map map joined]. specialize (IH x). cbn [map] in IH.
  change (quote (sv_bytes (m_name (e_mixin E m)))) with (shown_mixin E m). change (quote (sv_bytes (m_name (e_mixin E x)))) with (shown_mixin E x) in IH.
  now rewrite <- app_assoc, IH.
Qed.
Lemma list_chars l : chars E dname (PMixins l) = shown_list E l.
Proof. cbn [chars]. now rewrite mixins_joined. Qed.

(** Parts of a text *)
Lemma men_here p r : mentions (p ++ r) p.
Proof. exists [], r. reflexivity. Qed.
Lemma men_all p : mentions p p.
Proof. exists [], []. now rewrite app_nil_r. Qed.
Lemma men_later a t p : mentions t p -> mentions (a ++ t) p.
Proof. intros (x & y & ->). exists (a ++ x), y. now rewrite <- app_assoc. Qed.
Lemma men_render a l b p : render E dname l = p -> mentions (render E dname (a ++ l ++ b)) p.
Proof. intros <-. unfold render. rewrite !flat_map_app. exists (flat_map (chars E dname) a), (flat_map (chars E dname) b). reflexivity. Qed.
Lemma joined_in l (x : list N) : In x l -> mentions (joined l) x.
Proof.
  induction l as [|y l IH]; intros []; subst.
  - destruct l; [apply men_all|]. cbn [joined]. apply men_here.
  - destruct l as [|z l]; [destruct H|]. change (joined (y :: z :: l)) with (y ++ text ", " ++ joined (z :: l)). do 2 apply men_later. auto.
Qed.
Lemma list_in l m : In m l -> mentions (shown_list E l) (shown_mixin E m).
Proof.
  intros H. unfold shown_list. apply men_later. destruct (joined_in (map (shown_mixin E) l) (shown_mixin E m)) as (a & b & Q); [apply in_map_iff; eauto|].
  exists a, (b ++ text "}"). rewrite Q, <- !app_assoc. reflexivity.
Qed.
Lemma men_trans t p r : mentions t p -> mentions p r -> mentions t r.
Proof. intros (a & b & ->) (c & d & ->). exists (a ++ c), (d ++ b). now rewrite <- !app_assoc. Qed.

(** ** Which exceptions there are *)
Lemma scan_rev_throw name idf nm rs : forall f e, scan_rev name idf nm rs f = Throw e -> e = EDuplicateName.
Proof. induction rs as [|[x|] rs IH]; cbn; intros f e; [discriminate| |apply IH]. destruct (negb _); [discriminate|]. destruct (sv_eqb _ _); [congruence|apply IH]. Qed.
Lemma reg_throw name idf sp u i e : basic_register name idf sp u i = Throw e ->
  (e = EIdRegistered /\ idf i <> None) \/ (idf i = None /\ (e = EEmptyName \/ e = EDuplicateName)).
Proof.
  unfold basic_register. destruct (idf i); [intros [= <-]; left; split; congruence|]. destruct (u && _); [intros [= <-]; auto|].
  destruct u; cbn; [|destruct (scan_fwd sp 0); discriminate]. destruct (scan_rev _ _ _ _ _) as [[x|]|x|x] eqn:Q; cbn; try discriminate. intros [= <-]. apply scan_rev_throw in Q. auto.
Qed.
Lemma unreg_throw idf sp i e : basic_unregister idf sp i = Throw e -> e = EUnregForeign.
Proof. unfold basic_unregister. destruct (idf i); [|congruence]. destruct (nth_error sp n) as [[p|]|]; try congruence. destruct (p =? i); congruence. Qed.
Lemma features_throw d fs : forall w w' e, register_features_of E w d fs = (w', Throw e) ->
  exists f, bad_feature E w d fs = Some f /\ In f (map ff_info fs) /\ (e = EEmptyName \/ e = EDuplicateName) /\ w_fid w f = None.
Proof.
  induction fs as [|x fs IH]; intros w w' e; cbn [register_features_of bad_feature map]; [discriminate|]. destruct (w_fid w (ff_info x)) as [i|] eqn:F.
  - destruct (nth_error _ i) as [[p|]|]; try discriminate. destruct (p =? ff_info x); [|discriminate]. intros H. destruct (IH _ _ _ H) as (f & A & B & C). exists f. cbn. auto.
  - destruct (register_feature E w d (ff_info x)) as [w1 [[]|e'|u]] eqn:R; try discriminate.
    + intros H. destruct (IH _ _ _ H) as (f & A & B & C & D). exists f. cbn. repeat split; auto.
      unfold register_feature in R. destruct (basic_register _ _ _ _ _) as [[sp id]|y|y]; try discriminate. injection R as <-. cbn in D. unfold upd in D.
      destruct (f =? ff_info x); congruence.
    + intros [= <- <-]. exists (ff_info x). cbn. unfold register_feature in R. destruct (basic_register _ _ _ _ _) as [[sp id]|y|y] eqn:B; try discriminate.
      injection R as _ ->. apply reg_throw in B as [[-> B]|[_ B]]; [congruence|auto].
Qed.
Lemma features_ok d fs : forall w w' x, register_features_of E w d fs = (w', Ok x) -> bad_feature E w d fs = None.
Proof.
  induction fs as [|y fs IH]; intros w w' x; cbn [register_features_of bad_feature]; auto. destruct (w_fid w (ff_info y)) as [i|].
  - destruct (nth_error _ i) as [[p|]|]; try discriminate. destruct (p =? ff_info y); [|discriminate]. apply IH.
  - destruct (register_feature E w d (ff_info y)) as [w1 [[]|e'|u]]; try discriminate. apply IH.
Qed.
Lemma check_throw w d l e : check_mixins (w_mid w) (w_mdom w) d l = Throw e ->
  exists m, bad_mixin w d l = Some m /\ In m l /\
    ((e = EUnregisteredMixin /\ w_mid w m = None) \/ (e = EForeignMixin /\ w_mid w m <> None /\ w_mdom w m <> Some d) \/ (e = EDuplicateMixin /\ 2 <= count_occ Nat.eq_dec l m)).
Proof.
  induction l as [|m l IH]; cbn [check_mixins bad_mixin]; [discriminate|].
  destruct (w_mid w m) as [i|] eqn:Q; [|intros [= <-]; exists m; cbn; auto]. cbn [is_some negb orb].
  destruct (opt_eqb (w_mdom w m) (Some d)) eqn:O; cbn [negb orb].
  2:{ intros [= <-]. exists m. cbn. split; auto. split; auto. right. left. split; auto. split; [congruence|]. intros X. rewrite X in O. cbn in O. rewrite Nat.eqb_refl in O. discriminate. }
  destruct (memb m l) eqn:M.
  - intros [= <-]. exists m. cbn [count_occ In]. split; auto. split; auto. right. right. split; auto. destruct (Nat.eq_dec m m); [|congruence].
    apply existsb_exists in M as (x & Mx & X). apply Nat.eqb_eq in X as <-. apply (count_occ_In Nat.eq_dec) in Mx. lia.
  - intros H. destruct (IH H) as (x & A & B & C). exists x. cbn [In count_occ]. split; auto. split; auto. destruct C as [C|[C|[C D]]]; auto. right. right. split; auto. destruct (Nat.eq_dec m x); lia.
Qed.
(** The rules *)
Lemma pass_ok lk rules : forall l l', apply_pass E lk rules l = Ok l' -> pass_stop E lk rules l = (None, l').
Proof.
  induction rules as [|[r n] rules IH]; cbn; intros l l'; [congruence|]. destruct (r_apply (e_rule E r)) as [f|]; [|discriminate]. destruct (f lk l); [apply IH|discriminate].
Qed.
Lemma pass_throw lk rules : forall l e, apply_pass E lk rules l = Throw e ->
  exists r n f z l', e = ERuleUser z /\ pass_stop E lk rules l = (Some r, l') /\ In (r, n) rules /\ r_apply (e_rule E r) = Some f /\ f lk l' = RuleErr z.
Proof.
  induction rules as [|[r n] rules IH]; cbn; intros l e; [discriminate|]. destruct (r_apply (e_rule E r)) as [f|] eqn:R; [|discriminate]. destruct (f lk l) as [l'|z] eqn:F.
  - intros H. destruct (IH _ _ H) as (r' & n' & f' & z & l2 & A & B & C & D & G). exists r', n', f', z, l2. auto 8.
  - intros [= <-]. exists r, n, f, z, l. auto 8.
Qed.
Lemma loop_ok lk rules fuel : forall i orig last cur x, rules_loop E fuel i lk rules orig last cur = Ok x -> loop_stop E fuel i lk rules last cur = (None, snd x).
Proof.
  induction fuel as [|fuel IH]; cbn [rules_loop loop_stop]; intros i orig last cur x; [discriminate|].
  destruct (apply_pass E lk rules cur) as [l|e|u] eqn:P; cbn [bind]; try discriminate. rewrite (pass_ok _ _ _ _ P). destruct (list_eqb last l); [intros [= <-]; reflexivity|].
  destruct ((i =? _) || _); [discriminate|]. apply IH.
Qed.
Lemma loop_throw lk rules fuel : forall i orig last cur e, rules_loop E fuel i lk rules orig last cur = Throw e ->
  (exists r n f z l', e = ERuleUser z /\ loop_stop E fuel i lk rules last cur = (Some r, l') /\ In (r, n) rules /\ r_apply (e_rule E r) = Some f /\ f lk l' = RuleErr z) \/
  e = ECyclicRules.
Proof.
  induction fuel as [|fuel IH]; cbn [rules_loop loop_stop]; intros i orig last cur e; [discriminate|].
  destruct (apply_pass E lk rules cur) as [l|e'|u] eqn:P; cbn [bind]; try discriminate.
  - rewrite (pass_ok _ _ _ _ P). destruct (list_eqb last l); [discriminate|]. destruct ((i =? _) || _); [intros [= <-]; auto|]. apply IH.
  - intros [= <-]. left. destruct (pass_throw _ _ _ _ P) as (r & n & f & z & l' & A & B & C). exists r, n, f, z, l'. rewrite B. auto.
Qed.
Lemma stop_no_rules w d q : d_rules (w_dom w d) = [] -> forall m, In m (snd (rules_stop E w d q)) -> In m q.
Proof using E.
  clear dname.
  unfold rules_stop. intros ->. cbn [loop_stop pass_stop List.length]. destruct (list_eqb _ _); cbn [snd]; [|rewrite orb_comm; cbn [Nat.eqb orb snd]]; intros m H; apply filter_In in H; tauto.
Qed.
End TP.
