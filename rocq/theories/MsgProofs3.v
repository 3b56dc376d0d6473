(** Features by name, clashes through get_type, combinators. *)
From Coq Require Import List Arith ZArith NArith Lia Bool Permutation Sorted.
From Verif Require Import Base Sv BaseLemmas SvProofs Info Registry RegistryProofs TypeMut Rules TypeBuild TypeBuildProofs LayoutProofs
  TypeQuery Msg Domain ElemProofs TypesProofs SpecReg SpecDom SpecOrd SpecRule SpecMsg HistProofs RegTheorems DomTheorems RuleTheorems RuleTheorems2 FtableProofs MsgProofs MsgProofs2.
Import ListNotations.
Local Open Scope res_scope.

Section M.
Variable E : env.

(** ** C23, by name *)
Definition fname_is (nm : list N) (f : fptr) : Prop := sv_bytes (f_name (e_feature E f)) = nm.
Lemma implements_name_spec t nm es :
  (forall e, In (Some e) es -> exists p, nth_error (ft_pls (t_ftable t)) (fe_begin e) = Some (Some p)) ->
  exists b, implements_name_from E t nm es = Ok b /\
    (b = true <-> exists e p, In (Some e) es /\ nth_error (ft_pls (t_ftable t)) (fe_begin e) = Some (Some p) /\ fname_is nm (ff_info (fp_data p))).
Proof.
  induction es as [|[e|] es IH]; intros H; simpl.
  - exists false. split; auto. split; [discriminate|]. intros (e & p & [] & _).
  - destruct (H e (or_introl eq_refl)) as [p Hp]. rewrite Hp. destruct (bytes_eqb_spec (sv_bytes (f_name (e_feature E (ff_info (fp_data p))))) nm) as [He|Hne].
    + exists true. split; auto. split; auto. intros _. exists e, p. auto.
    + destruct IH as (b & Hb & Hi); [intros; apply H; now right|]. exists b. split; auto. rewrite Hi. split.
      * intros (e' & p' & H1 & H2). eauto.
      * intros (e' & p' & [[= <-]|H1] & H2 & H3); [|eauto]. rewrite Hp in H2. injection H2 as <-. exfalso. auto.
  - destruct IH as (b & Hb & Hi); [intros; apply H; now right|]. exists b. split; auto. rewrite Hi. split.
    + intros (e' & p' & H1 & H2). eauto.
    + intros (e' & p' & [|H1] & H2); [discriminate|eauto].
Qed.
Lemma c23_name tr w d r t nm : run_where E (features_kept E) tr w -> has_type w d r t ->
  exists b, implements_strong_name E t nm = Ok b /\
    (b = true <-> exists m x, In m (t_mixins t) /\ In x (m_features (e_mixin E m)) /\ sv_bytes (f_name (e_feature E (ff_info x))) = nm).
Proof.
  intros H Ht. apply finv_run in H. destruct H as [Hrun HF]. assert (HW := winv_run _ _ _ Hrun).
  assert (Hok := fi_t _ _ HF _ _ (proj1 Ht)). assert (Hmd := type_mixins E _ _ _ _ HW Ht).
  assert (Hent : forall e, In (Some e) (ft_entries (t_ftable t)) -> exists k p, nth_error (ft_entries (t_ftable t)) k = Some (Some e) /\
     nth_error (ft_pls (t_ftable t)) (fe_begin e) = Some (Some p) /\ w_fid w (ff_info (fp_data p)) = Some k /\
     exists m, In m (t_mixins t) /\ In (fp_data p) (m_features (e_mixin E m))).
  { intros e He. apply In_nth_error in He. destruct He as [k Hk]. specialize (Hok k). unfold ft_at in Hok. rewrite Hk in Hok.
    destruct Hok as (H1 & H2 & H3 & H4 & H5). unfold sorted_pls in H5. rewrite sorted_impls_mk in H5.
    assert (Hp := sorted_impls_perm (L (w_fid w) k (all_features E (t_mixins t)))).
    destruct (sorted_impls (L (w_fid w) k (all_features E (t_mixins t)))) as [|x S]; [apply Permutation_nil in Hp; congruence|].
    assert (Hs : nth_error (map Some (map mkpl (x :: S))) 0 = Some (Some (mkpl x))) by reflexivity.
    rewrite <- H5, nth_error_slice, Nat.add_0_r in Hs. destruct (0 <? fe_end e - fe_begin e); [|discriminate].
    exists k, (mkpl x). split; auto. split; auto. simpl.
    assert (Hx : In x (L (w_fid w) k (all_features E (t_mixins t)))) by (eapply Permutation_in; [exact Hp|now left]).
    apply filter_In in Hx. destruct Hx as [Hx Hk']. unfold is_k in Hk'. destruct x as [i x]. simpl in *.
    destruct (opt_eqb_spec (w_fid w (ff_info x)) (Some k)) as [Hf|]; [|discriminate]. split; auto.
    apply all_features_in in Hx. destruct Hx as (m & Hn & Hx). exists m. split; auto. eapply nth_error_In; eauto. }
  destruct (implements_name_spec t nm (ft_entries (t_ftable t))) as (b & Hb & Hi).
  { intros e He. destruct (Hent e He) as (k & p & _ & Hp & _). eauto. }
  exists b. split; auto. rewrite Hi. split.
  - intros (e & p & He & Hp & Hn). destruct (Hent e He) as (k & p' & _ & Hp' & _ & m & H1 & H2). assert (p' = p) by congruence. subst. eauto.
  - intros (m & x & H1 & H2 & H3). assert (Hfx := fi_m _ _ HF m d (Hmd _ H1) x H2). destruct (proj1 (conj Hfx I)) as (k & Hk & _).
    specialize (Hok k). destruct (ft_at (t_ftable t) k) as [e|] eqn:Hft.
    + assert (He : nth_error (ft_entries (t_ftable t)) k = Some (Some e)).
      { unfold ft_at in Hft. destruct (nth_error (ft_entries (t_ftable t)) k) as [[e'|]|]; congruence. }
      assert (HIn := nth_error_In _ _ He).
      (* the entry of this id *)
      assert (Hent' : exists p, nth_error (ft_pls (t_ftable t)) (fe_begin e) = Some (Some p) /\ w_fid w (ff_info (fp_data p)) = Some k /\
          exists m, In m (t_mixins t) /\ In (fp_data p) (m_features (e_mixin E m))).
      { destruct Hok as (G1 & G2 & G3 & G4 & G5). unfold sorted_pls in G5. rewrite sorted_impls_mk in G5.
        assert (Hp := sorted_impls_perm (L (w_fid w) k (all_features E (t_mixins t)))).
        destruct (sorted_impls (L (w_fid w) k (all_features E (t_mixins t)))) as [|y S]; [apply Permutation_nil in Hp; congruence|].
        assert (Hs : nth_error (map Some (map mkpl (y :: S))) 0 = Some (Some (mkpl y))) by reflexivity.
        rewrite <- G5, nth_error_slice, Nat.add_0_r in Hs. destruct (0 <? fe_end e - fe_begin e); [|discriminate].
        exists (mkpl y). split; auto. simpl.
        assert (Hx : In y (L (w_fid w) k (all_features E (t_mixins t)))) by (eapply Permutation_in; [exact Hp|now left]).
        apply filter_In in Hx. destruct Hx as [Hx Hk']. unfold is_k in Hk'. destruct y as [i y]. simpl in *.
        destruct (opt_eqb_spec (w_fid w (ff_info y)) (Some k)) as [Hf|]; [|discriminate]. split; auto.
        apply all_features_in in Hx. destruct Hx as (m' & Hn & Hx). exists m'. split; auto. eapply nth_error_In; eauto. }
      destruct Hent' as (p & Hp & Hpk & m' & Hm' & Hx'). exists e, p. split; auto. split; auto. unfold fname_is.
      assert (ff_info (fp_data p) = ff_info x); [|congruence].
      eapply freg_inj; [exact (proj1 HW)|eapply (fi_m _ _ HF); [apply (Hmd _ Hm')|exact Hx']|exact Hfx|exact Hpk|exact Hk].
    + exfalso. apply In_nth_error in H1. destruct H1 as [i Hi'].
      assert (Hin : In (i, x) (L (w_fid w) k (all_features E (t_mixins t)))); [|rewrite Hok in Hin; destruct Hin].
      apply filter_In. split; [apply all_features_in; eauto|]. unfold is_k. simpl. rewrite Hk. simpl. apply Nat.eqb_refl.
Qed.

(** ** C26 *)
Definition unclashed (ms : list mptr) : Prop := forall f, f_allow_clashes (e_feature E f) = false -> ~ clash_in (impls E ms f).
Definition UInv (w : world) : Prop := forall r t, w_type w r = Some t -> unclashed (t_mixins t).
Lemma build_unclashed w a d ms t : EInv E w -> FInv E w -> build_type E (w_fid w) (w_mid w) (w_mdom w) a d ms = Ok t -> unclashed ms.
Proof.
  intros HE HF Hb f Hf Hc. assert (Hb' := Hb). apply build_type_ok in Hb'. destruct Hb' as (_ & H1 & H2 & H3 & -> & Hnd & Hd & _).
  assert (build_type E (w_fid w) (w_mid w) (w_mdom w) true d ms = Throw EFeatureClash); [|congruence].
  apply (build_clash E w d true ms HE HF); auto; [intros m Hm; now apply Hd|]. split; auto. split; eauto.
Qed.
Lemma impls_nil f : impls E [] f = [].
Proof. reflexivity. Qed.
Lemma uinv_run tr w : run_where E (features_kept E) tr w -> UInv w.
Proof.
  induction 1 as [|tr w o r w' H IH Hk Hs Hu].
  - intros [d|n] t; [|discriminate]. intros [= <-] f _ (l1 & x & l2 & y & l3 & Heq & _). simpl in Heq. destruct l1; discriminate.
  - apply finv_run in H. destruct H as [Hrun HF]. destruct (winv_run _ _ _ Hrun) as [HE HT].
    intros rr t Ht. destruct (dstep_types _ _ _ _ _ _ _ HE Hs Ht) as [(t0 & H0 & <- & _)|(a & d & _ & Hb)].
    + eauto.
    + eapply build_unclashed; eauto.
Qed.

Lemma in_turn_passes v rs n l l1 l2 : in_turn E v rs l (RuleOk l1) -> passes E v rs n l1 l2 -> passes E v rs (S n) l l2.
Proof. intros H. induction 1; [econstructor; [constructor|auto]|]. econstructor; eauto. Qed.
Lemma passes_stable v rs ms n : in_turn E v rs ms (RuleOk ms) -> forall l, passes E v rs n ms l -> l = ms.
Proof.
  intros Hs. induction n as [|n IH]; intros l H; inversion H; subst; auto. assert (l1 = ms) by auto. subst.
  assert (He := in_turn_fun _ _ _ _ _ _ H2 Hs). congruence.
Qed.
Lemma passes_add v rs j k l l1 : passes E v rs k l l1 -> forall l2, passes E v rs j l1 l2 -> passes E v rs (j + k) l l2.
Proof. intros H. induction j as [|j IH]; intros l2 H2; inversion H2; subst; auto. simpl. econstructor; eauto. Qed.
Lemma passes_split v rs j : forall k l l2, passes E v rs (j + k) l l2 -> exists l1, passes E v rs k l l1 /\ passes E v rs j l1 l2.
Proof.
  induction j as [|j IH]; intros k l l2 H; simpl in H.
  - exists l2. split; auto. constructor.
  - inversion H; subst. destruct (IH _ _ _ H1) as (l1' & A & B). exists l1'. split; auto. econstructor; eauto.
Qed.
Lemma in_turn_funcs v rs : forall l l', in_turn E v rs l (RuleOk l') -> forall r, In r rs -> r_apply (e_rule E r) <> None.
Proof.
  induction rs as [|x rs IH]; intros l l' H r Hin; [destruct Hin|]. simpl in H. destruct H as (g & Hg & H). destruct Hin as [<-|Hin]; [congruence|].
  destruct (g v l) as [l1|z]; [eauto|discriminate].
Qed.
Lemma asked_passes w d q k ms : no_deps E q -> k <= Nat.min 5 (length (d_rules (w_dom w d))) ->
  passes E (view E w d) (map fst (d_rules (w_dom w d))) k q ms -> in_turn E (view E w d) (map fst (d_rules (w_dom w d))) ms (RuleOk ms) ->
  exists oq, asked E w d q = Ok (oq, ms).
Proof.
  intros Hd Hk Hp Hst. assert (H := apply_rules_spec E (view E w d) (d_rules (w_dom w d)) q). fold (asked E w d q) in H. rewrite strip_no_deps in H by auto.
  destruct (asked E w d q) as [[oq ms']|e|u] eqn:Ha; simpl in H.
  - exists oq. f_equal. f_equal. destruct H as (k' & _ & _ & Hp' & Hst').
    assert (Hs' : in_turn E (view E w d) (map fst (d_rules (w_dom w d))) ms' (RuleOk ms')).
    { destruct Hst' as [|[-> ->]]; auto. inversion Hp'; subst. inversion H0; subst. auto. }
    destruct (Nat.le_ge_cases k k') as [Hle|Hle].
    + replace k' with ((k' - k) + k) in Hp' by lia. apply passes_split in Hp'. destruct Hp' as (l1 & A & B).
      assert (l1 = ms) by (eapply passes_fun; eauto). subst. eapply passes_stable; eauto.
    + replace k with ((k - k') + k') in Hp by lia. apply passes_split in Hp. destruct Hp as (l1 & A & B).
      assert (l1 = ms') by (eapply passes_fun; eauto). subst. symmetry. eapply passes_stable; eauto.
  - exfalso. destruct H as [(k' & z & l & -> & Hk' & Hp' & Herr)|[-> Hcy]].
    + destruct (Nat.le_gt_cases k k') as [Hle|Hlt].
      * replace k' with ((k' - k) + k) in Hp' by lia. apply passes_split in Hp'. destruct Hp' as (l1 & A & B).
        assert (l1 = ms) by (eapply passes_fun; eauto). subst. apply passes_stable in B; auto. subst.
        assert (He := in_turn_fun _ _ _ _ _ _ Herr Hst). congruence.
      * replace k with ((k - S k') + S k') in Hp by lia. apply passes_split in Hp. destruct Hp as (l1 & A & B). inversion A as [|? ? la ? A1 A2]; subst.
        assert (la = l) by (eapply passes_fun; eauto). subst. assert (He := in_turn_fun _ _ _ _ _ _ Herr A2). congruence.
    + destruct (Hcy k) as (l & l' & A & B & C); [lia|exact Hk|]. assert (l = ms) by (eapply passes_fun; eauto). subst.
      assert (He := in_turn_fun _ _ _ _ _ _ B Hst). injection He as ->. destruct (Nat.eqb_spec k 0) as [->|]; [|congruence].
      inversion A; subst. congruence.
  - exfalso. destruct H as (l & Hl). eapply apply_pass_no_ub; [|exact Hl].
    intros r Hin. eapply in_turn_funcs; eauto.
Qed.
Lemma c26_rules tr w d : regular_rules E -> run_where E (features_kept E) tr w ->
  exists rs, active_rules E tr d rs /\ forall q k ms, no_deps E q -> not_stored w d q ->
    k <= Nat.min 5 (length rs) -> passes E (view E w d) rs k q ms -> in_turn E (view E w d) rs ms (RuleOk ms) ->
    NoDup ms -> (forall m, In m ms -> mixin_registered tr m = Some d) ->
    (get_type E true w d q = (w, Throw EFeatureClash) <-> exists f, f_allow_clashes (e_feature E f) = false /\ clash_in (impls E ms f)).
Proof.
  intros Hreg H. assert (HU := uinv_run _ _ H). apply finv_run in H. destruct H as [Hrun HF]. destruct (winv_run _ _ _ Hrun) as [HE HT].
  exists (map fst (d_rules (w_dom w d))). split; [now apply active_list|]. rewrite map_length.
  intros q k ms Hd Hq Hk Hp Hst Hnd Hm. destruct (asked_passes w d q k ms Hd Hk Hp Hst) as (oq & Ha).
  assert (Hm' : forall m, In m ms -> w_mdom w m = Some d). { intros m Hin. rewrite <- (run_mixins _ _ _ Hrun). auto. }
  assert (Hb := build_clash E w d true ms HE HF Hnd Hm').
  assert (C := get_type_case E true w d q). apply not_stored_find in Hq.
  destruct C as [t Hfq|e Hfq Hask|u Hfq Hask|Hfq Hask|ms0 r Hfq Hask Hne Hft|ms0 t Hfq Hask Hne Hft Hbt|ms0 e Hfq Hask Hne Hft Hbt|ms0 u Hfq Hask Hne Hft Hbt];
    try congruence; try (assert (ms0 = ms) by congruence; subst ms0).
  - split; [discriminate|]. intros (f & _ & l1 & x & l2 & y & l3 & Heq & _). assert (ms = []) by congruence. subst. rewrite impls_nil in Heq. destruct l1; discriminate.
  - split; [discriminate|]. intros (f & Hf & Hc). exfalso.
    apply find_type_some in Hft. destruct Hft as (_ & t & Ht & Hms). apply (HU r t Ht f Hf). now rewrite Hms.
  - split; [discriminate|]. intros (f & Hf & Hc). exfalso.
    assert (Hx : build_type E (w_fid w) (w_mid w) (w_mdom w) true d ms = Throw EFeatureClash) by (apply Hb; eauto). congruence.
  - split.
    + intros [= He]. subst. apply Hb in Hbt. destruct Hbt as (_ & _ & H). auto.
    + intros H. assert (Hx : build_type E (w_fid w) (w_mid w) (w_mdom w) true d ms = Throw EFeatureClash) by (apply Hb; eauto). congruence.
  - split; [discriminate|]. intros H.
    assert (Hx : build_type E (w_fid w) (w_mid w) (w_mdom w) true d ms = Throw EFeatureClash) by (apply Hb; eauto). congruence.
Qed.
Lemma c26 tr w d q : regular_rules E -> run_where E (features_kept E) tr w -> (forall r, rule_count E tr d r = 0) ->
  no_deps E q -> not_stored w d q -> NoDup q -> (forall m, In m q -> mixin_registered tr m = Some d) ->
  (get_type E true w d q = (w, Throw EFeatureClash) <-> exists f, f_allow_clashes (e_feature E f) = false /\ clash_in (impls E q f)).
Proof.
  intros Hreg H Hr Hd Hq Hnd Hm. destruct (c26_rules tr w d Hreg H) as (rs & (_ & Hrs & _) & Hx).
  assert (rs = []). { destruct rs as [|r rs]; auto. assert (H0 := proj1 (Hrs r) (or_introl eq_refl)). rewrite Hr in H0. lia. }
  subst rs. apply (Hx q 0 q); auto; [constructor|reflexivity].
Qed.
Lemma c26_types tr w d r t : run_where E (features_kept E) tr w -> has_type w d r t ->
  forall f, f_allow_clashes (e_feature E f) = false -> ~ clash_in (impls E (t_mixins t) f).
Proof. intros H [Ht _]. exact (uinv_run _ _ H _ _ Ht). Qed.

(** ** C52 *)
Section Comb.
Context {R St : Type}.
Variable c : combinator R St.
Variable ret : exec -> R.
(** what a combinator does with the executions in turn; the last result does not stop anything *)
Fixpoint comb_run (l : list exec) (s : St) : list exec * St :=
  match l with
  | [] => ([], s)
  | x :: r => let (s1, go) := cb_add c (ret x) s in if go then let (e, s2) := comb_run r s1 in (x :: e, s2) else ([x], s1)
  end.
Lemma comb_down_spec t b S : (forall i x, nth_error S i = Some x -> call_at t (b + i) = Ok (exec_of x)) -> forall x0, nth_error S 0 = Some x0 ->
  forall n s, n < length S ->
  exists l s1 go, comb_down c ret t b n s = Ok (l, s1, go) /\
    comb_run (map exec_of (rev (firstn n (tl S)) ++ [x0])) s = (if go then (l ++ [exec_of x0], fst (cb_add c (ret (exec_of x0)) s1)) else (l, s1)).
Proof.
  intros H x0 H0. induction n as [|n IH]; intros s Hn.
  - exists [], s, true. split; auto. simpl. destruct (cb_add c (ret (exec_of x0)) s) as [s1 [|]]; auto.
  - destruct (nth_error S (Datatypes.S n)) as [x|] eqn:Hx; [|apply nth_error_None in Hx; lia].
    simpl comb_down. rewrite (H _ _ Hx). simpl bind.
    assert (Hf : firstn (Datatypes.S n) (tl S) = firstn n (tl S) ++ [x]).
    { destruct S as [|y S]; [simpl in Hn; lia|]. simpl in *. clear -Hx. revert n Hx. induction S as [|z S IHS]; intros [|n] Hx; simpl in *; try discriminate; [now injection Hx as ->|]. f_equal. auto. }
    rewrite Hf, rev_app_distr. simpl rev. simpl app. cbn [map comb_run].
    destruct (cb_add c (ret (exec_of x)) s) as [s1 go]. destruct go.
    + destruct (IH s1) as (l & s2 & go & -> & Hr); [lia|]. simpl bind. simpl. exists (exec_of x :: l), s2, go. split; auto. rewrite Hr. destruct go; auto.
    + exists [exec_of x], s1, false. auto.
Qed.
Lemma call_comb_spec tr w d r t f s : run_where E (features_kept E) tr w -> has_type w d r t -> feature_in w d f ->
  impls E (t_mixins t) f <> [] ->
  exists xs last, Permutation xs (top_bidders (impls E (t_mixins t) f)) /\ StronglySorted executed_before xs /\ (exists ys, xs = ys ++ [last]) /\
    call_multicast E (w_fid w) t f = Ok (map exec_of xs, exec_of last) /\
    call_with_combinator E (w_fid w) c ret t f s = Ok (comb_run (map exec_of xs) (cb_set_num c (length xs) s)).
Proof.
  intros Hw Ht Hf Hne. assert (H := Hw). apply finv_run in H. destruct H as [Hrun HF]. assert (HW := winv_run _ _ _ Hrun).
  destruct (c25 E tr w d r t f Hw Ht Hf Hne) as (xs & last & H1 & H2 & H3 & _ & _).
  destruct (table_spec E w d r t f HW HF Ht Hf) as [[H4 _]|[_ (e & He & _ & Hb & H5)]]; [congruence|].
  set (l := impls E (t_mixins t) f) in *. destruct (sorted_head _ Hne) as (x & rest & Hs & Hin & Hx).
  assert (Htops := tops_sorted l x rest Hs). rewrite Hs in *. simpl back_of in Hb. change (ff_bid (snd x)) with (bid_of x) in Hb.
  set (n := top_bid_run (bid_of x) (map mkpl rest)) in *.
  assert (Hn : n <= length rest) by (unfold n; etransitivity; [apply top_run_le|rewrite map_length; auto]).
  assert (H0 : call_at t (fe_begin e) = Ok (exec_of x)) by (rewrite <- (Nat.add_0_r (fe_begin e)); apply H5; reflexivity).
  (* the same list as in c25 *)
  assert (Hm : call_multicast E (w_fid w) t f = Ok (map exec_of (rev (firstn n rest) ++ [x]), exec_of x)).
  { unfold call_multicast. rewrite He, Hb. replace (fe_begin e + n - fe_begin e) with n by lia.
    rewrite (call_down_spec t (fe_begin e) (x :: rest) H5) by (simpl; lia). simpl bind. rewrite H0. simpl bind. now rewrite map_app. }
  exists (rev (firstn n rest) ++ [x]), x. split; [|split; [|split; [|split]]]; eauto.
  - change (rev (firstn n rest) ++ [x]) with (rev (x :: firstn n rest)). rewrite <- Permutation_rev, Htops. apply Permutation_filter. rewrite <- Hs. apply sorted_impls_perm.
  - change (rev (firstn n rest) ++ [x]) with (rev (x :: firstn n rest)). rewrite Htops. apply StronglySorted_weak with (R := fun a b => ~ preferred a b).
    + intros a b Ha Hb'. rewrite <- in_rev in Ha, Hb'. apply filter_In in Ha, Hb'. destruct Ha as [Ha1 Ha], Hb' as [Hb1 Hb'].
      rewrite <- Hs in Ha1, Hb1. apply (Permutation_in _ (sorted_impls_perm l)) in Ha1, Hb1.
      rewrite (is_top_eq l x Hin Hx) in Ha, Hb' by auto. apply Z.eqb_eq in Ha, Hb'. unfold preferred, executed_before. lia.
    + apply (StronglySorted_rev (fun a b => ~ preferred b a)). apply StronglySorted_filter. rewrite <- Hs. apply sorted_impls_ordered.
  - unfold call_with_combinator. rewrite He, Hb. replace (fe_begin e + n - fe_begin e) with n by lia.
    destruct (comb_down_spec t (fe_begin e) (x :: rest) H5 x eq_refl n (cb_set_num c (n + 1) s)) as (l' & s1 & go & -> & Hr); [simpl; lia|].
    simpl bind. simpl tl in Hr.
    assert (Hlen : length (rev (firstn n rest) ++ [x]) = n + 1) by (rewrite app_length, rev_length, firstn_length; simpl; lia).
    rewrite Hlen, Hr. destruct go; auto. rewrite H0. auto.
Qed.
End Comb.

Lemma comb_run_and ret l : comb_run comb_and ret l true = (upto (fun x => negb (ret x)) l, forallb ret l).
Proof.
  induction l as [|x l IH]; simpl; auto. destruct (ret x); simpl; auto. now rewrite IH.
Qed.
Lemma comb_run_or ret l : comb_run comb_or ret l false = (upto ret l, existsb ret l).
Proof.
  induction l as [|x l IH]; simpl; auto. destruct (ret x); simpl; auto. now rewrite IH.
Qed.
Lemma comb_run_sum ret l : forall s, comb_run comb_sum ret l s = (l, (s + total (map ret l))%Z).
Proof.
  induction l as [|x l IH]; intros s; simpl; [now rewrite Z.add_0_r|]. rewrite IH. f_equal. unfold total. simpl. lia.
Qed.
Lemma comb_run_mean ret l n : forall s, comb_run comb_mean ret l (s, n) = (l, ((s + total (map ret l))%Z, n)).
Proof.
  induction l as [|x l IH]; intros s; simpl; [now rewrite Z.add_0_r|]. rewrite IH. f_equal. f_equal. unfold total. simpl. lia.
Qed.

(** the executed functions in a multicast call, whoever they are *)
Definition results (w : world) (t : type_rec) (f : fptr) (l : list exec) : Prop := exists last, call_multicast E (w_fid w) t f = Ok (l, last).
Lemma c52 tr w d r t f : run_where E (features_kept E) tr w -> has_type w d r t -> feature_in w d f ->
  forall l last, call_multicast E (w_fid w) t f = Ok (l, last) ->
  (forall ret, call_with_combinator E (w_fid w) comb_and ret t f true = Ok (upto (fun x => negb (ret x)) l, forallb ret l)) /\
  (forall ret, call_with_combinator E (w_fid w) comb_or ret t f false = Ok (upto ret l, existsb ret l)) /\
  (forall ret, call_with_combinator E (w_fid w) comb_sum ret t f 0%Z = Ok (l, total (map ret l))) /\
  (forall ret, exists s, call_with_combinator E (w_fid w) comb_mean ret t f (0%Z, 0) = Ok (l, s) /\
     mean_result s = Z.quot (total (map ret l)) (Z.of_nat (length l))).
Proof.
  intros Hw Ht Hf l last Hl. destruct (impls E (t_mixins t) f) as [|y ys] eqn:Hi.
  - destruct (c29 E tr w d r t f Hw Ht (or_introl Hf)) as (_ & H & _). specialize (H Hi).
    destruct (f_default (e_feature E f)) as [p|] eqn:Hp; destruct H as [_ Hm]; rewrite Hm in Hl; [|discriminate]. injection Hl as <- <-.
    assert (Hn : ftable_at t (w_fid w f) = None).
    { apply finv_run in Hw. destruct Hw as [Hrun HF]. assert (HW := winv_run _ _ _ Hrun).
      destruct (table_spec E w d r t f HW HF Ht Hf) as [[_ H4]|[H4 _]]; congruence. }
    unfold call_with_combinator, try_default. rewrite Hn, Hp. cbn [bind cb_set_num cb_add comb_and comb_or comb_sum comb_mean fst snd length map]. split; [|split; [|split]]; intros ret.
    + simpl. destruct (ret (ExecDefault p)); reflexivity.
    + simpl. destruct (ret (ExecDefault p)); reflexivity.
    + unfold total. simpl fold_right. do 2 f_equal. lia.
    + eexists. split; [reflexivity|]. unfold mean_result, total. cbn [fst snd map fold_right length]. f_equal; lia.
  - assert (Hne : impls E (t_mixins t) f <> []) by congruence. split; [|split; [|split]]; intros ret.
    + destruct (call_comb_spec comb_and ret tr w d r t f true Hw Ht Hf Hne) as (xs & x & _ & _ & _ & Hm & ->). rewrite Hm in Hl. injection Hl as <- _. f_equal. apply comb_run_and.
    + destruct (call_comb_spec comb_or ret tr w d r t f false Hw Ht Hf Hne) as (xs & x & _ & _ & _ & Hm & ->). rewrite Hm in Hl. injection Hl as <- _. f_equal. apply comb_run_or.
    + destruct (call_comb_spec comb_sum ret tr w d r t f 0%Z Hw Ht Hf Hne) as (xs & x & _ & _ & _ & Hm & ->). rewrite Hm in Hl. injection Hl as <- _. f_equal. apply (comb_run_sum ret _ 0%Z).
    + destruct (call_comb_spec comb_mean ret tr w d r t f (0%Z, 0) Hw Ht Hf Hne) as (xs & x & _ & _ & _ & Hm & ->). rewrite Hm in Hl. injection Hl as <- _.
      change (cb_set_num comb_mean (length xs) (0%Z, 0)) with (0%Z, length xs). rewrite comb_run_mean. eexists. split; [reflexivity|].
      unfold mean_result. simpl fst. simpl snd. now rewrite map_length.
Qed.
End M.
