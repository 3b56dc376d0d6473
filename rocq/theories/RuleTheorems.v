(** Lemmas behind the theorems about mutation rules *)
From Coq Require Import List Arith ZArith NArith Lia Bool Permutation Sorted.
From Verif Require Import Base Sv Info Registry TypeMut Rules TypeBuild TypeQuery Domain SpecReg SpecDom SpecOrd
  BaseLemmas SvProofs RegistryProofs CmpProofs TypeBuildProofs LayoutProofs ElemProofs TypesProofs HistProofs RegTheorems DomTheorems.
Import ListNotations.

(** *** the map of rules *)
Section Map.
Variable E : env.
Hypothesis Hreg : regular_rules E.

Definition rlt (a b : rptr) : Prop := rcmp E a b = Lt.
Definition rsorted (l : list (rptr * nat)) : Prop := StronglySorted (fun a b => rlt (fst a) (fst b)) l.

Lemma rule_less_lt a b : rule_less E a b = true <-> rlt a b.
Proof. rewrite rule_less_cmp by auto. unfold rlt. destruct (rcmp E a b); intuition discriminate. Qed.
Lemma rule_less_not a b : rule_less E a b = false -> rule_less E b a = false -> a = b.
Proof.
  rewrite !rule_less_cmp by auto. rewrite (tc_opp _ (tcmp_rcmp E) a b). destruct (rcmp E a b) eqn:Hc; simpl; try discriminate.
  intros _ _. now apply rcmp_eq in Hc.
Qed.
Lemma rlt_irrefl a : ~ rlt a a.
Proof. unfold rlt. rewrite (tc_refl _ a (tcmp_rcmp E)). discriminate. Qed.
Lemma rlt_trans a b c : rlt a b -> rlt b c -> rlt a c.
Proof. apply (tc_trans _ (tcmp_rcmp E)). Qed.
Lemma rlt_neq a b : rlt a b -> a <> b.
Proof. intros H ->. now apply rlt_irrefl in H. Qed.

Definition counts (l : list (rptr * nat)) (cnt : rptr -> nat) : Prop :=
  forall r c, In (r, c) l <-> c = cnt r /\ c <> 0.

Lemma rsorted_not_in k (l : list (rptr * nat)) r : (forall x, In x l -> rlt k (fst x)) -> rlt r k \/ r = k -> forall c, ~ In (r, c) l.
Proof.
  intros H Hr c Hin. specialize (H _ Hin). simpl in H. destruct Hr as [Hr| ->]; [|now apply rlt_irrefl in H].
  apply (rlt_irrefl r). eapply rlt_trans; eauto.
Qed.

Lemma rules_incr_spec r : forall l, rsorted l -> 
  rsorted (fst (rules_incr E r l)) /\
  (forall x, In x (fst (rules_incr E r l)) -> fst x = r \/ In x l) /\
  (forall k c, k <> r -> In (k, c) (fst (rules_incr E r l)) <-> In (k, c) l) /\
  (forall c, In (r, c) (fst (rules_incr E r l)) <-> (exists c0, c = S c0 /\ In (r, c0) l) \/ (c = 1 /\ forall c0, ~ In (r, c0) l)).
Proof.
  induction l as [|[k c] l IH]; intros Hs.
  - simpl. split; [repeat constructor|]. split; [intros x [<-|[]]; auto|]. split.
    + intros k c Hk. split; [intros [[= <- <-]|[]]; congruence|intros []].
    + intros c. split; [intros [[= <-]|[]]; auto|]. intros [(c0 & _ & [])|[-> _]]. auto.
  - inversion Hs as [|? ? Hs' Hall]; subst. rewrite Forall_forall in Hall. simpl.
    destruct (rule_less E k r) eqn:H1.
    + specialize (IH Hs'). destruct (rules_incr E r l) as [t b]. simpl in *. destruct IH as (I1 & I2 & I3 & I4).
      apply rule_less_lt in H1. assert (k <> r) by now apply rlt_neq. split; [|split; [|split]].
      * constructor; auto. apply Forall_forall. intros x Hx. destruct (I2 _ Hx) as [->|Hx']; auto.
      * intros x [<-|Hx]; auto. destruct (I2 _ Hx); auto.
      * intros k' c' Hk. rewrite (I3 k' c' Hk). tauto.
      * intros c'. split.
        -- intros [[= -> ?]|Hin]; [congruence|]. apply I4 in Hin. destruct Hin as [(c0 & -> & Hin)|[-> Hn]]; eauto.
           right. split; auto. intros c0 [[= -> ?]|Hin]; [congruence|]. now apply Hn in Hin.
        -- intros [(c0 & -> & [[= -> ?]|Hin])|[-> Hn]]; [congruence| |].
           ++ right. apply I4. eauto.
           ++ right. apply I4. right. split; auto. intros c0 Hin. apply (Hn c0). auto.
    + destruct (rule_less E r k) eqn:H2.
      * apply rule_less_lt in H2. simpl. assert (Hni : forall c0, ~ In (r, c0) ((k, c) :: l)).
        { intros c0 [[= -> ?]|Hin]; [now apply rlt_irrefl in H2|]. apply (rsorted_not_in k l r Hall (or_introl H2) _ Hin). }
        split; [|split; [|split]].
        -- constructor; auto. apply Forall_forall. intros x [<-|Hx]; simpl; auto. eapply rlt_trans; eauto.
        -- intros x [<-|Hx]; auto.
        -- intros k' c' Hk. split; [intros [[= <- <-]|Hx]; [congruence|auto]|auto].
        -- intros c'. split; [intros [[= <-]|Hx]; [auto|now apply Hni in Hx]|]. intros [(c0 & -> & Hin)|[-> _]]; [now apply Hni in Hin|auto].
      * assert (k = r) by now apply rule_less_not. subst k. simpl.
        assert (Hni : forall c0, ~ In (r, c0) l). { intros c0. apply (rsorted_not_in r l r Hall). auto. }
        split; [|split; [|split]].
        -- constructor; auto. apply Forall_forall. exact Hall.
        -- intros x [<-|Hx]; auto.
        -- intros k' c' Hk. split; intros [[= <- <-]|Hx]; auto; congruence.
        -- intros c'. split.
           ++ intros [[= <-]|Hx]; [eauto|now apply Hni in Hx].
           ++ intros [(c0 & -> & [[= ->]|Hin])|[-> Hn]]; auto; [now apply Hni in Hin|]. exfalso. apply (Hn c). auto.
Qed.

Lemma counts_incr r l cnt : rsorted l -> counts l cnt -> counts (fst (rules_incr E r l)) (fun y => if y =? r then S (cnt y) else cnt y).
Proof.
  intros Hs Hc. destruct (rules_incr_spec r l Hs) as (_ & _ & I3 & I4). intros k c. destruct (Nat.eqb_spec k r) as [->|Hk].
  - rewrite I4. split.
    + intros [(c0 & -> & Hin)|[-> Hn]].
      * apply Hc in Hin. destruct Hin as [-> _]. auto.
      * split; auto. destruct (Nat.eq_dec (cnt r) 0) as [->|Hne]; auto. exfalso. apply (Hn (cnt r)). apply Hc. auto.
    + intros [-> _]. destruct (Nat.eq_dec (cnt r) 0) as [Hz|Hne].
      * right. rewrite Hz. split; auto. intros c0 Hin. apply Hc in Hin. lia.
      * left. exists (cnt r). split; auto. apply Hc. auto.
  - rewrite (I3 k c Hk). apply Hc.
Qed.

Lemma rules_decr_spec r : forall l, rsorted l -> (forall k c, In (k, c) l -> c <> 0) -> exists l' b, rules_decr E r l = Ok (l', b) /\
  rsorted l' /\ (forall x, In x l' -> exists y, In y l /\ fst y = fst x) /\
  (forall k c, k <> r -> In (k, c) l' <-> In (k, c) l) /\
  (forall c, In (r, c) l' <-> In (r, S c) l /\ c <> 0).
Proof.
  induction l as [|[k c] l IH]; intros Hs Hpos.
  - exists [], false. simpl. split; auto. split; [constructor|]. split; [intros x []|]. split; [tauto|]. tauto.
  - inversion Hs as [|? ? Hs' Hall]; subst. rewrite Forall_forall in Hall. simpl.
    destruct (rule_less E k r) eqn:H1.
    + destruct IH as (l' & b & Hd & I1 & I2 & I3 & I4); auto. { intros. eapply Hpos. right. eauto. }
      rewrite Hd. simpl. apply rule_less_lt in H1. assert (Hkr : k <> r) by now apply rlt_neq.
      exists ((k, c) :: l'), b. split; auto. split; [|split; [|split]].
      * constructor; auto. apply Forall_forall. intros x Hx. destruct (I2 _ Hx) as (y & Hy & <-). now apply Hall.
      * intros x [<-|Hx]; [eexists; split; [left; eauto|auto]|]. destruct (I2 _ Hx) as (y & Hy & Hf). eauto.
      * intros k' c' Hk. simpl. rewrite (I3 k' c' Hk). tauto.
      * intros c'. simpl. rewrite I4. split; [intros [[= -> ?]|[H3 H4]]; [congruence|auto]|]. intros [[[= -> ?]|H3] H4]; [congruence|auto].
    + destruct (rule_less E r k) eqn:H2.
      * apply rule_less_lt in H2. assert (Hni : forall c0, ~ In (r, c0) ((k, c) :: l)).
        { intros c0 [[= -> ?]|Hin]; [now apply rlt_irrefl in H2|]. apply (rsorted_not_in k l r Hall (or_introl H2) _ Hin). }
        exists ((k, c) :: l), false. split; auto. split; auto. split; [eauto|]. split; [intros; reflexivity|]. intros c'. split; [intros H; now apply Hni in H|intros [H _]; now apply Hni in H].
      * assert (k = r) by now apply rule_less_not. subst k.
        assert (Hni : forall c0, ~ In (r, c0) l). { intros c0. apply (rsorted_not_in r l r Hall). auto. }
        assert (Hc : c <> 0) by (eapply Hpos; left; eauto).
        destruct c as [|[|c]]; [congruence| |].
        -- exists l, true. split; auto. split; auto. split; [intros x Hx; exists x; split; [now right|auto]|]. split.
           ++ intros k' c' Hk. simpl. split; auto. intros [[= <- <-]|H]; [congruence|auto].
           ++ intros c'. simpl. split; [intros H; now apply Hni in H|]. intros [[[= <-]|H] Hz]; [congruence|now apply Hni in H].
        -- exists ((r, S c) :: l), false. split; auto. split; [constructor; auto; now apply Forall_forall|].
           split; [|split].
           ++ intros x [<-|Hx]; [eexists; split; [left; eauto|auto]|]. exists x. split; [now right|auto].
           ++ intros k' c' Hk. simpl. split; intros [[= <- <-]|H]; auto; congruence.
           ++ intros c'. simpl. split.
              ** intros [[= <-]|H]; [auto|now apply Hni in H].
              ** intros [[[= <-]|H] Hz]; [auto|now apply Hni in H].
Qed.
Lemma counts_decr r l cnt : rsorted l -> counts l cnt -> exists l' b, rules_decr E r l = Ok (l', b) /\ rsorted l' /\
  counts l' (fun y => if y =? r then pred (cnt y) else cnt y).
Proof.
  intros Hs Hc. destruct (rules_decr_spec r l Hs) as (l' & b & Hd & I1 & _ & I3 & I4). { intros k c Hin. now apply Hc in Hin. }
  exists l', b. split; auto. split; auto. intros k c. destruct (Nat.eqb_spec k r) as [->|Hk].
  - rewrite I4, (Hc r (S c)). lia.
  - rewrite (I3 k c Hk). apply Hc.
Qed.

(** *** the rules of a domain after a history *)
Lemma counts_ext l cnt cnt' : (forall r, cnt r = cnt' r) -> counts l cnt -> counts l cnt'.
Proof. intros H Hc r c. rewrite <- H. apply Hc. Qed.

Lemma run_rules tr w d : run E (init_world E) tr w -> rsorted (d_rules (w_dom w d)) /\ counts (d_rules (w_dom w d)) (rule_count E tr d).
Proof.
  intros H. remember (init_world E) as w0 eqn:Hw0. induction H as [|w0 tr w1 o r w2 Hrun IH Hs Hub]; subst.
  - simpl. unfold rule_count. simpl. destruct (s_canonicalize (e_settings E d)); simpl.
    + split; [repeat constructor|]. intros r c. split.
      * intros [[= <- <-]|[]]. rewrite Nat.eqb_refl; auto.
      * destruct (Nat.eqb_spec r (e_canon E d)) as [->|]; intros [-> ?]; [simpl; auto|congruence].
    + split; [constructor|]. intros r c. simpl. lia.
  - destruct (IH eq_refl) as [Hso Hco]. clear IH. unfold rule_count. rewrite fold_left_app. simpl. fold (rule_count E tr d).
    pose proof (einv_run E _ _ Hrun) as HE. pose proof (dstep_dom E _ _ _ _ HE Hs d) as [_ Hother].
    destruct o; try (rewrite Hother; [destruct r; split; auto|discriminate|discriminate]).
    + simpl in Hs. unfold forget, add_rule in Hs. destruct (r_apply (e_rule E r0)).
      * pose proof (counts_incr r0 (d_rules (w_dom w1 d0))) as Hi. pose proof (rules_incr_spec r0 (d_rules (w_dom w1 d0))) as Hi2.
        destruct (rules_incr E r0 (d_rules (w_dom w1 d0))) as [l b]. injection Hs as <- <-. simpl. unfold upd. rewrite Nat.eqb_sym.
        destruct (Nat.eqb_spec d0 d) as [->|]; simpl; [|auto]. split; [now apply Hi2|]. exact (Hi _ Hso Hco).
      * injection Hs as <- <-. simpl. auto.
    + simpl in Hs. unfold forget, remove_rule in Hs. destruct (Nat.eqb_spec d0 d) as [->|Hne].
      * destruct (counts_decr r0 _ _ Hso Hco) as (l' & b & Hd & H1 & H2). rewrite Hd in Hs. injection Hs as <- <-. simpl. rewrite upd_same. simpl. auto.
      * assert (Hu : d_rules (w_dom w2 d) = d_rules (w_dom w1 d)).
        { destruct (rules_decr E r0 (d_rules (w_dom w1 d0))) as [[l b]|e|u]; injection Hs as <- <-; auto. simpl. now rewrite upd_other by auto. }
        rewrite Hu. split; auto. apply Nat.eqb_neq in Hne. destruct r; simpl; rewrite ?Hne; auto.
Qed.

(** strictly sorted lists with the same elements are equal *)
Lemma sorted_same_set (l1 : list rptr) : forall l2, StronglySorted rlt l1 -> StronglySorted rlt l2 -> (forall x, In x l1 <-> In x l2) -> l1 = l2.
Proof.
  induction l1 as [|a l1 IH]; intros [|b l2] H1 H2 Hs; auto.
  - exfalso. apply (Hs b). now left.
  - exfalso. apply (Hs a). now left.
  - inversion H1 as [|? ? Hs1 Hf1]; inversion H2 as [|? ? Hs2 Hf2]; subst. rewrite Forall_forall in Hf1, Hf2.
    assert (a = b).
    { destruct (proj1 (Hs a) (or_introl eq_refl)) as [->|Ha]; auto. destruct (proj2 (Hs b) (or_introl eq_refl)) as [->|Hb]; auto.
      exfalso. apply (rlt_irrefl a). eapply rlt_trans; [apply Hf1; eauto|apply Hf2; eauto]. }
    subst. f_equal. apply IH; auto. intros x. split; intros Hx.
    + destruct (proj1 (Hs x) (or_intror Hx)) as [->|]; auto. exfalso. apply (rlt_irrefl x). auto.
    + destruct (proj2 (Hs x) (or_intror Hx)) as [->|]; auto. exfalso. apply (rlt_irrefl x). auto.
Qed.
Lemma rsorted_keys l : rsorted l -> StronglySorted rlt (map fst l).
Proof.
  induction 1; simpl; constructor; auto. rewrite Forall_forall in *. intros x Hx. apply in_map_iff in Hx. destruct Hx as (y & <- & Hy). auto.
Qed.
Lemma sorted_nodup l : StronglySorted rlt l -> NoDup l.
Proof.
  induction 1 as [|a l Hs IH Hf]; constructor; auto. rewrite Forall_forall in Hf. intros Hin. apply (rlt_irrefl a). auto.
Qed.
Lemma rlt_before a b : rlt a b -> ~ rule_before E b a.
Proof.
  unfold rlt, rcmp, lexi, rule_before. rewrite lex_lt_cmp. intros H [H1|[H1 H2]].
  - rewrite (proj2 (Z.compare_gt_iff _ _)) in H by lia. discriminate.
  - rewrite H1, Z.compare_refl, (lexcmp_antisym (sv_bytes (r_name (e_rule E b)))) in H. rewrite H2 in H. discriminate.
Qed.
Lemma sorted_before l : StronglySorted rlt l -> StronglySorted (fun a b => ~ rule_before E b a) l.
Proof. induction 1 as [|a l Hs IH Hf]; constructor; auto. eapply Forall_impl; [|exact Hf]. intros. now apply rlt_before. Qed.

Lemma active_keys tr w d r : run E (init_world E) tr w -> In r (map fst (d_rules (w_dom w d))) <-> 0 < rule_count E tr d r.
Proof.
  intros H. destruct (run_rules tr w d H) as [_ Hc]. split.
  - intros Hin. apply in_map_iff in Hin. destruct Hin as ([r' c] & <- & Hin). apply Hc in Hin. simpl. lia.
  - intros Hp. apply in_map_iff. exists (r, rule_count E tr d r). split; auto. apply Hc. lia.
Qed.

Lemma c09 tr w d : run E (init_world E) tr w ->
  (forall r c, In (r, c) (d_rules (w_dom w d)) <-> c = rule_count E tr d r /\ 0 < c) /\
  (exists rs, NoDup rs /\ (forall r, In r rs <-> 0 < rule_count E tr d r) /\ num_mutation_rules w d = length rs) /\
  (forall r, snd (remove_rule E w d r) = Ok tt).
Proof.
  intros H. destruct (run_rules tr w d H) as [Hs Hc]. split; [|split].
  - intros r c. rewrite (Hc r c). lia.
  - exists (map fst (d_rules (w_dom w d))). split; [apply sorted_nodup, rsorted_keys; auto|]. split.
    + intros r. now apply active_keys.
    + unfold num_mutation_rules. now rewrite map_length.
  - intros r. unfold remove_rule. destruct (counts_decr r _ _ Hs Hc) as (l' & b & -> & _). auto.
Qed.

Lemma c10_set tr1 w1 tr2 w2 d : run E (init_world E) tr1 w1 -> run E (init_world E) tr2 w2 ->
  (forall r, 0 < rule_count E tr1 d r <-> 0 < rule_count E tr2 d r) ->
  map fst (d_rules (w_dom w1 d)) = map fst (d_rules (w_dom w2 d)).
Proof.
  intros H1 H2 Hs. apply sorted_same_set.
  - apply rsorted_keys. apply (run_rules tr1 w1 d H1).
  - apply rsorted_keys. apply (run_rules tr2 w2 d H2).
  - intros r. rewrite (active_keys tr1 w1 d r H1), (active_keys tr2 w2 d r H2). auto.
Qed.
End Map.

(** *** applying rules *)
Section Apply.
Variable E : env.

Lemma apply_pass_ok v rules : forall l l', apply_pass E v rules l = Ok l' <-> in_turn E v (map fst rules) l (RuleOk l').
Proof.
  induction rules as [|[r c] rules IH]; intros l l'; simpl; [split; congruence|].
  destruct (r_apply (e_rule E r)) as [f|].
  - destruct (f v l) as [l1|e] eqn:Hf.
    + rewrite IH. split; [intros H; exists f; now rewrite Hf|]. intros (f' & [= <-] & H). now rewrite Hf in H.
    + split; [discriminate|]. intros (f' & [= <-] & H). rewrite Hf in H. discriminate.
  - split; [discriminate|]. intros (f & H & _). discriminate.
Qed.
Lemma apply_pass_err v rules : forall l e, apply_pass E v rules l = Throw (ERuleUser e) <-> in_turn E v (map fst rules) l (RuleErr e).
Proof.
  induction rules as [|[r c] rules IH]; intros l e; simpl; [split; congruence|].
  destruct (r_apply (e_rule E r)) as [f|].
  - destruct (f v l) as [l1|e1] eqn:Hf.
    + rewrite IH. split; [intros H; exists f; now rewrite Hf|]. intros (f' & [= <-] & H). now rewrite Hf in H.
    + split; [intros [= ->]; exists f; now rewrite Hf|]. intros (f' & [= <-] & H). rewrite Hf in H. now injection H as <-.
  - split; [discriminate|]. intros (f & H & _). discriminate.
Qed.
Lemma apply_pass_throw v rules : forall l e, apply_pass E v rules l = Throw e -> exists z, e = ERuleUser z.
Proof.
  induction rules as [|[r c] rules IH]; intros l e; simpl; [discriminate|].
  destruct (r_apply (e_rule E r)) as [f|]; [|discriminate]. destruct (f v l) as [l1|e1]; eauto. intros [= <-]. eauto.
Qed.
Lemma in_turn_fun v rs : forall l o o', in_turn E v rs l o -> in_turn E v rs l o' -> o = o'.
Proof.
  induction rs as [|r rs IH]; simpl; intros l o o'; [congruence|]. intros (f & Hf & H) (f' & Hf' & H').
  rewrite Hf in Hf'. injection Hf' as <-. destruct (f v l); [eauto|congruence].
Qed.
Lemma passes_fun v rs n l l1 l2 : passes E v rs n l l1 -> passes E v rs n l l2 -> l1 = l2.
Proof.
  intros H. revert l2. induction H as [|n l a b H IH Hb]; intros l2 H2; inversion H2; subst; auto.
  apply IH in H1. subst. pose proof (in_turn_fun _ _ _ _ _ Hb H3). congruence.
Qed.

(** rules with functions *)
Definition rules_have_funcs (rules : list (rptr * nat)) : Prop := forall r, In r (map fst rules) -> r_apply (e_rule E r) <> None.
Lemma apply_pass_no_ub v rules : rules_have_funcs rules -> forall l u, apply_pass E v rules l <> Ub u.
Proof.
  induction rules as [|[r c] rules IH]; intros Hf l u; simpl; [discriminate|].
  destruct (r_apply (e_rule E r)) as [f|] eqn:Hr.
  - destruct (f v l); [|discriminate]. apply IH. intros r' Hin. apply Hf. now right.
  - exfalso. apply (Hf r); simpl; auto.
Qed.

Definition bound (rules : list (rptr * nat)) : nat := Nat.min max_dependency_depth (length rules).

(** the loop, started with [cur] reached after [i] passes *)
Definition loop_out (v : rview) (rules : list (rptr * nat)) (q start : list mptr) (i : nat) (R : res (list mptr * list mptr)) : Prop :=
  match R with
  | Ok (_, ms) => exists k, i < k /\ k <= S (bound rules) /\ passes E v (map fst rules) k start ms /\
      (in_turn E v (map fst rules) ms (RuleOk ms) \/ (k = 1 /\ ms = q))
  | Throw e =>
      (exists k z l, e = ERuleUser z /\ k <= bound rules /\ passes E v (map fst rules) k start l /\ in_turn E v (map fst rules) l (RuleErr z)) \/
      (e = ECyclicRules /\ forall k, i <= k -> k <= bound rules -> exists l l',
         passes E v (map fst rules) k start l /\ in_turn E v (map fst rules) l (RuleOk l') /\ l' <> (if k =? 0 then q else l))
  | Ub u => exists l, apply_pass E v rules l = Ub u
  end.

Lemma rules_loop_spec v rules q start : forall fuel i last cur orig,
  passes E v (map fst rules) i start cur -> i <= bound rules -> fuel + i = S max_dependency_depth ->
  last = (if i =? 0 then q else cur) ->
  loop_out v rules q start i (rules_loop E fuel i v rules orig last cur).
Proof.
  induction fuel as [|fuel IH]; intros i last cur orig Hp Hi Hf Hl.
  { exfalso. unfold bound in Hi. lia. }
  simpl. destruct (apply_pass E v rules cur) as [cur'|e|u] eqn:Ha; simpl.
  - apply apply_pass_ok in Ha. assert (Hp' : passes E v (map fst rules) (S i) start cur') by (econstructor; eauto).
    destruct (list_eqb last cur') eqn:He.
    + destruct (list_eqb_spec last cur') as [He'|]; [|discriminate]. clear He; rename He' into He. simpl. exists (S i). split; [lia|]. split; [lia|]. split; auto.
      destruct (Nat.eqb_spec i 0) as [->|]; subst; auto.
    + assert (Hne : cur' <> if i =? 0 then q else cur). { intros H. rewrite <- Hl in H. rewrite H, list_eqb_refl in He. discriminate. }
      destruct ((i =? max_dependency_depth) || (i =? length rules)) eqn:Hend.
      * simpl. right. split; auto. intros k H1 H2. assert (k = i).
        { unfold bound in *. apply orb_true_iff in Hend. rewrite !Nat.eqb_eq in Hend. lia. }
        subst k. eauto.
      * apply orb_false_iff in Hend. rewrite !Nat.eqb_neq in Hend.
        assert (HS : S i <= bound rules) by (unfold bound in *; lia).
        specialize (IH (S i) cur' cur' (if i =? 0 then last else orig) Hp' HS ltac:(lia) eq_refl).
        destruct (rules_loop E fuel (S i) v rules (if i =? 0 then last else orig) cur' cur') as [[oq ms]|e|u]; simpl in *.
        -- destruct IH as (k & H1 & H2 & H3 & H4). exists k. split; [lia|]. auto.
        -- destruct IH as [H|[-> H]]; auto. right. split; auto. intros k H1 H2. destruct (Nat.eq_dec k i) as [->|]; [eauto|]. apply H; lia.
        -- auto.
  - destruct (apply_pass_throw _ _ _ _ Ha) as [z ->]. apply apply_pass_err in Ha. left. exists i, z, cur. auto.
  - eauto.
Qed.

Definition strip (q : list mptr) : list mptr := filter (fun m => negb (m_dependency (e_mixin E m))) q.
Lemma apply_rules_spec v rules q : loop_out v rules q (strip q) 0 (apply_rules E v rules q).
Proof. apply rules_loop_spec; auto; [constructor|lia]. Qed.
Lemma strip_no_deps q : no_deps E q -> strip q = q.
Proof.
  unfold no_deps, strip. induction q as [|m q IH]; simpl; intros H; auto. rewrite (H m) by auto. simpl. f_equal. auto.
Qed.
End Apply.

(** *** every active rule has a function *)
Section Funcs.
Variable E : env.
Hypothesis Hcanon : canon_ok E.
Definition RInv (w : world) : Prop := forall d, rules_have_funcs E (d_rules (w_dom w d)).

Lemma rules_incr_in r : forall l k, In k (map fst (fst (rules_incr E r l))) -> k = r \/ In k (map fst l).
Proof.
  induction l as [|[k c] l IH]; intros k'; simpl.
  - intros [<-|[]]. auto.
  - destruct (rule_less E k r).
    + destruct (rules_incr E r l) as [t b]. simpl in *. intros [<-|H]; auto. destruct (IH _ H); auto.
    + destruct (rule_less E r k); simpl; intros [<-|H]; auto.
Qed.
Lemma rules_decr_in r : forall l l' b, rules_decr E r l = Ok (l', b) -> forall k, In k (map fst l') -> In k (map fst l).
Proof.
  induction l as [|[k c] l IH]; simpl; intros l' b H k'.
  - injection H as <- <-. auto.
  - destruct (rule_less E k r).
    + apply bind_ok in H. destruct H as ([t b0] & Ht & H). injection H as <- <-. simpl. intros [<-|Hin]; auto. right. eapply IH; eauto.
    + destruct (rule_less E r k); [injection H as <- <-; auto|]. destruct c as [|[|c]]; [discriminate| |]; injection H as <- <-; simpl; auto.
Qed.
Lemma rinv_init : RInv (init_world E).
Proof.
  intros d r. simpl. destruct (s_canonicalize (e_settings E d)); simpl; [|easy]. intros [<-|[]]. destruct (Hcanon d) as (H & _). congruence.
Qed.
Lemma rinv_dstep w o w' r : EInv E w -> RInv w -> dstep E w o = (w', r) -> RInv w'.
Proof.
  intros HE HK Hs d2. pose proof (dstep_dom E _ _ _ _ HE Hs d2) as [_ Hrules].
  destruct o; try (rewrite Hrules; [apply HK|discriminate|discriminate]); simpl in Hs; unfold forget in Hs.
  - unfold add_rule in Hs. destruct (r_apply (e_rule E r0)) eqn:Hr0; [|injection Hs as <- <-; apply HK].
    pose proof (rules_incr_in r0 (d_rules (w_dom w d))) as Hp. destruct (rules_incr E r0 (d_rules (w_dom w d))) as [l b]. injection Hs as <- <-.
    simpl. unfold upd. destruct (Nat.eqb_spec d2 d) as [->|]; [|apply HK]. simpl in *. intros k Hin. destruct (Hp _ Hin) as [->|H]; [congruence|]. now apply (HK d).
  - unfold remove_rule in Hs. destruct (rules_decr E r0 (d_rules (w_dom w d))) as [[l b]|e|u] eqn:Hp; injection Hs as <- <-; try apply HK.
    simpl. unfold upd. destruct (Nat.eqb_spec d2 d) as [->|]; [|apply HK]. simpl. intros k Hin. apply (HK d). eapply rules_decr_in; eauto.
Qed.
Lemma rinv_run tr w : run E (init_world E) tr w -> RInv w.
Proof.
  intros H. remember (init_world E) as w0 eqn:Hw0. induction H; subst; [apply rinv_init|].
  eapply rinv_dstep; eauto. eapply einv_run; eauto.
Qed.
Lemma asked_no_ub tr w d q u : run E (init_world E) tr w -> asked E w d q <> Ub u.
Proof.
  intros H Hu. pose proof (apply_rules_spec E (view E w d) (d_rules (w_dom w d)) q) as Ho. unfold asked in Hu. rewrite Hu in Ho. simpl in Ho.
  destruct Ho as [l Hl]. revert Hl. apply apply_pass_no_ub. apply (rinv_run _ _ H).
Qed.
End Funcs.

(** *** canonical domains *)
Section Canon.
Variable E : env.
Hypothesis Hcanon : canon_ok E.
Hypothesis Hmix : regular_mixins E.

Definition canon_sort (idf : mptr -> option nat) (l : list mptr) : list mptr := sort_by (ltb_of (mcmp E idf)) l.
Lemma canon_sort_eq idf l : sort_by (canonical_less E idf) l = canon_sort idf l.
Proof. apply sort_by_ext. intros. now apply canonical_less_cmp. Qed.
Lemma canon_sort_idem idf l : canon_sort idf (canon_sort idf l) = canon_sort idf l.
Proof. apply sort_cmp_perm; [apply tcmp_mcmp|apply mcmp_eq|apply sort_by_perm]. Qed.
Lemma insert_by_ext {A} (f g : A -> A -> bool) x l : (forall a, In a l -> f a x = g a x) -> insert_by f x l = insert_by g x l.
Proof.
  induction l as [|y l IH]; simpl; intros H; auto. rewrite (H y) by auto. destruct (g y x); auto. rewrite IH; auto.
Qed.
Lemma sort_by_ext_in {A} (f g : A -> A -> bool) l : (forall a b, In a l -> In b l -> f a b = g a b) -> sort_by f l = sort_by g l.
Proof.
  induction l as [|x l IH]; simpl; intros H; auto. rewrite IH by auto. apply insert_by_ext. intros a Ha. apply H; auto.
  right. eapply Permutation_in; [apply sort_by_perm|exact Ha].
Qed.
Lemma canon_sort_ids idf idf' l : (forall m, In m l -> idf m = idf' m) -> canon_sort idf l = canon_sort idf' l.
Proof.
  intros H. apply sort_by_ext_in. intros a b Ha Hb. unfold ltb_of, mcmp, lexi. now rewrite (H a Ha), (H b Hb).
Qed.

Lemma asked_canon w d q : map fst (d_rules (w_dom w d)) = [e_canon E d] -> asked E w d q = Ok (q, canon_sort (w_mid w) (strip E q)).
Proof.
  intros Hk. unfold asked. destruct (Hcanon d) as (Hf & _).
  assert (Hp : forall l, apply_pass E (view E w d) (d_rules (w_dom w d)) l = Ok (canon_sort (w_mid w) l)).
  { intros l. destruct (d_rules (w_dom w d)) as [|[r c] [|]]; try discriminate. injection Hk as ->. simpl. rewrite Hf. simpl. now rewrite canon_sort_eq. }
  assert (Hlen : length (d_rules (w_dom w d)) = 1) by (rewrite <- (map_length fst), Hk; auto).
  unfold apply_rules. fold (strip E q). cbn [rules_loop max_dependency_depth]. rewrite Hp. cbn [bind]. 
  destruct (list_eqb_spec q (canon_sort (w_mid w) (strip E q))) as [He|He]; [simpl; now rewrite <- He|].
  rewrite Hlen. cbn [Nat.eqb orb]. rewrite Hp. cbn [bind]. rewrite canon_sort_idem, list_eqb_refl. reflexivity.
Qed.

Definition CanInv (w : world) : Prop := forall d, map fst (d_rules (w_dom w d)) = [e_canon E d] -> CInvAt E w d.
Lemma caninv_dstep w o w' r : WInv E w -> KInv w -> CanInv w -> dstep E w o = (w', r) -> CanInv w'.
Proof.
  intros HW HK HC Hs d Hkeys. destruct (dstep_keys E _ _ _ _ d HW HK Hs) as [Hsame|Hnone].
  2:{ intros q rr. rewrite Hnone. intros []. }
  rewrite Hsame in Hkeys. eapply cinv_dstep_at; eauto. intros Ho q rr t Hin' Hin Ht Ha. rewrite <- Hsame in Hkeys.
  rewrite (asked_canon w' d q Hkeys). rewrite Hsame in Hkeys. rewrite (asked_canon w d q Hkeys) in *. do 2 f_equal. injection Ha as Ha.
  assert (Hin_t : forall m, In m (strip E q) -> In m (t_mixins t)).
  { intros m Hm. rewrite <- Ha. eapply Permutation_in; [apply Permutation_sym, sort_by_perm|exact Hm]. }
  apply canon_sort_ids. intros m Hm. destruct HW as [HE HT].
  destruct o; destruct Ho; simpl in Hs; unfold forget in Hs.
  - destruct (register_mixin E w d0 m0) as [w1 x] eqn:Hr. injection Hs as <- <-. simpl in *.
    destruct (register_mixin_queries E _ _ _ _ _ HE Hr) as (_ & _ & Hid). apply Hid.
    destruct (ti_queries _ _ HT _ _ _ Hin) as [->|Hty].
    + destruct (ti_empty _ _ HT d) as [k Hk]. rewrite Hk in Ht. injection Ht as <-. destruct (Hin_t _ Hm).
    + destruct (ti_types _ _ HT _ _ Hty) as (n & t' & -> & _ & Ht' & Hok). rewrite Ht in Ht'. injection Ht' as <-.
      destruct Hok as (_ & _ & _ & Hreg & _). rewrite (Hreg m) by auto. discriminate.
  - destruct (unregister_mixin w d0 m0) as [w1 x] eqn:Hr. injection Hs as <- <-. simpl in *.
    destruct (unregister_mixin_queries E _ _ _ _ _ HE HT Hr) as (_ & _ & Hid). eapply Hid; eauto.
Qed.
Lemma caninv_run tr w : run E (init_world E) tr w -> CanInv w.
Proof.
  intros H. remember (init_world E) as w0 eqn:Hw0. induction H; subst; [intros d _; apply cinv_init|].
  eapply caninv_dstep; eauto; [eapply winv_run; eauto|eapply kinv_run; eauto].
Qed.
End Canon.

Section Canon2.
Variable E : env.

Lemma get_type_found a w d q r t : reachable E w -> CInvAt E w d -> asked E w d q = Ok (q, t_mixins t) -> has_type w d r t ->
  exists w', get_type E a w d q = (w', Ok r).
Proof.
  intros Hr HC Ha Ht. destruct (winv_reachable _ _ Hr) as [HE HT]. pose proof (get_type_case E a w d q) as Hc.
  destruct (get_type E a w d q) as [w' x]. exists w'. f_equal. destruct (ti_empty _ _ HT d) as [k Hk].
  inversion Hc; subst; try congruence.
  - f_equal. match goal with H : find_query _ _ = Some _ |- _ => apply find_query_some in H; destruct (HC _ _ H) as (t1 & Ht1 & Ha1); pose proof (ti_queries _ _ HT _ _ _ H) as Hw end.
    refine (proj2 (has_type_unique E _ d _ _ _ _ Hr (conj Ht1 Hw) Ht) _). congruence.
  - f_equal. refine (proj2 (has_type_unique E w d _ _ _ _ Hr (conj Hk (or_introl eq_refl)) Ht) _). simpl. congruence.
  - f_equal. match goal with H : find_type _ _ _ = Some _ |- _ => apply find_type_some in H; destruct H as (Hin & t1 & Ht1 & Hm) end.
    refine (proj2 (has_type_unique E w d _ _ _ _ Hr (conj Ht1 (or_intror Hin)) Ht) _). congruence.
  - exfalso. match goal with H : find_type _ _ _ = None |- _ => rename H into Hn end. destruct Ht as [Ht [->|Hin]].
    + rewrite Hk in Ht. injection Ht as <-. simpl in Ha. congruence.
    + eapply find_type_none; eauto. congruence.
  - exfalso. match goal with H : find_type _ _ _ = None |- _ => rename H into Hn end. destruct Ht as [Ht [->|Hin]].
    + rewrite Hk in Ht. injection Ht as <-. simpl in Ha. congruence.
    + eapply find_type_none; eauto. congruence.
  - exfalso. match goal with H : find_type _ _ _ = None |- _ => rename H into Hn end. destruct Ht as [Ht [->|Hin]].
    + rewrite Hk in Ht. injection Ht as <-. simpl in Ha. congruence.
    + eapply find_type_none; eauto. congruence.
Qed.

Lemma get_type_regs a w d q w' r : get_type E a w d q = (w', r) -> w_mid w' = w_mid w /\ forall d2, d_rules (w_dom w' d2) = d_rules (w_dom w d2).
Proof.
  intros H. pose proof (get_type_case E a w d q) as Hc. rewrite H in Hc.
  inversion Hc; subst; simpl; split; auto; intros d2; unfold upd; destruct (Nat.eqb_spec d2 d) as [->|]; auto.
Qed.

Lemma mcmp_before idf a b : ltb_of (mcmp E idf) b a = false -> ~ mixin_before E b a.
Proof.
  unfold ltb_of, mcmp, lexi, mixin_before. rewrite lex_lt_cmp. intros H [H1|[H1 H2]].
  - rewrite (proj2 (Z.compare_lt_iff _ _)) in H by lia. discriminate.
  - rewrite H1, Z.compare_refl, H2 in H. discriminate.
Qed.

Lemma c16 tr w d a q1 w1 r : canon_ok E -> regular_mixins E -> regular_rules E -> run E (init_world E) tr w ->
  (forall x, 0 < rule_count E tr d x <-> x = e_canon E d) ->
  get_type E a w d q1 = (w1, Ok r) ->
  (exists t, has_type w1 d r t /\ StronglySorted (fun x y => ~ mixin_before E y x) (t_mixins t) /\
     Permutation (t_mixins t) (filter (fun m => negb (m_dependency (e_mixin E m))) q1)) /\
  (forall q2 a2, Permutation q1 q2 -> exists w2, get_type E a2 w1 d q2 = (w2, Ok r)).
Proof.
  intros Hcan Hmix Hrul Hrun Hact Hg. assert (Hr := run_reachable E _ _ Hrun).
  assert (Hkeys : map fst (d_rules (w_dom w d)) = [e_canon E d]).
  { destruct (run_rules E Hrul tr w d Hrun) as [Hs _]. apply rsorted_keys in Hs. apply (sorted_same_set E); auto; [repeat constructor|].
    intros x. rewrite (active_keys E Hrul tr w d x Hrun), Hact. simpl. intuition. }
  assert (Hr1 := reach_get_type _ _ _ _ _ _ _ Hr Hg). pose proof Hr1 as [tr1 Hrun1]. destruct (get_type_regs _ _ _ _ _ _ Hg) as [Hid Hru].
  assert (Hkeys1 : map fst (d_rules (w_dom w1 d)) = [e_canon E d]) by (rewrite Hru; auto).
  assert (HC := caninv_run E Hcan Hmix _ _ Hrun d Hkeys). assert (HC1 := caninv_run E Hcan Hmix _ _ Hrun1 d Hkeys1).
  destruct (get_type_has_type _ _ _ _ _ _ _ Hr Hg) as [t Ht].
  assert (Ha := get_type_asked E w a d q1 w1 r t (winv_reachable _ _ Hr) HC Hg (proj1 Ht)).
  rewrite (asked_canon E Hcan Hmix) in Ha by auto. injection Ha as Ha. split.
  - exists t. split; auto. rewrite <- Ha. split; [|apply sort_by_perm].
    assert (Hs := sort_cmp_sorted (mcmp E (w_mid w)) (strip E q1) (tcmp_mcmp E (w_mid w))). unfold canon_sort.
    induction Hs as [|x l Hs IH Hf]; constructor; auto. eapply Forall_impl; [|exact Hf]. intros y. apply mcmp_before.
  - intros q2 a2 Hp. apply (get_type_found a2 w1 d q2 r t); auto. rewrite (asked_canon E Hcan Hmix) by auto. do 2 f_equal.
    rewrite <- Ha, Hid. apply sort_cmp_perm; [apply tcmp_mcmp|apply mcmp_eq|]. unfold strip.
    clear -Hp. induction Hp; simpl; auto.
    + destruct (negb _); auto.
    + destruct (negb _), (negb _); auto. apply perm_swap.
    + eapply perm_trans; eauto.
Qed.
End Canon2.
