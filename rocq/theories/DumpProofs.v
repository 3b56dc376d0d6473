(** Proofs about the debug dump *)
From Coq Require Import List Arith ZArith NArith Lia Bool Permutation Sorted.
From Verif Require Import Base Sv BaseLemmas Info Registry RegistryProofs TypeMut Rules TypeBuild TypeBuildProofs TypeQuery Msg Domain ElemProofs TypesProofs SpecReg SpecDom SpecMsg HistProofs FtableProofs MsgProofs Life LifeProofs Dump SpecDump.
Import ListNotations.

(** ** Registries *)
Lemma nth_nil {A} i (d : A) : nth i [] d = d. Proof. destruct i; auto. Qed.
Lemma nth_nones n i : nth i (repeat (@None nat) n) None = None.
Proof. revert i. induction n; intros [|i]; cbn; auto. Qed.
Lemma nth_app_eq (a b c : list (option nat)) : (forall i, nth i b None = nth i c None) -> forall i, nth i (a ++ b) None = nth i (a ++ c) None.
Proof. intros H. induction a as [|x a IH]; intros [|i]; cbn; auto. Qed.
Lemma slots idf s : forall k next, (forall i x, nth_error s i = Some (Some x) -> idf x = Some (k + i)) -> next <= k ->
  exists l, dump_slots idf next (visit_sparse s) = Ok l /\ (forall i, nth i (read_slots l) None = nth i (repeat None (k - next) ++ s) None) /\
    length (visit_sparse s) = length (filter (fun x => match x with LInfo _ => true | _ => false end) l) /\ (forall z, In (LEmpty z) l -> (0 < z)%Z).
Proof.
  induction s as [|[x|] s IH]; intros k next H L; cbn [visit_sparse dump_slots].
  - exists []. split; auto. split; [|split; [auto|intros z []]]. intros i. cbn [read_slots]. now rewrite nth_nil, app_nil_r, nth_nones.
  - rewrite (H 0 x eq_refl), Nat.add_0_r. destruct (IH (S k) (S k)) as (l & D & R & C & Z); auto.
    { intros i y Y. rewrite (H (S i) y Y). f_equal. lia. }
    rewrite D. cbn [bind]. eexists. split; [reflexivity|]. rewrite Nat.sub_diag in R. cbn [repeat app] in R. destruct (Nat.eqb_spec k next) as [->|N].
    + rewrite Nat.sub_diag. cbn [app repeat read_slots filter length]. split; [intros [|i]; cbn; auto|]. split; [lia|]. intros z [Q|Q]; [discriminate|auto].
    + cbn [app read_slots filter length]. replace (Z.to_nat (Z.of_nat k - Z.of_nat next)) with (k - next) by lia. split; [apply nth_app_eq; intros [|i]; cbn; auto|].
      split; [lia|]. intros z [Q|[Q|Q]]; [injection Q as <-; lia|discriminate|auto].
  - destruct (IH (S k) next) as (l & D & R & C & Z); auto.
    { intros i y Y. rewrite (H (S i) y Y). f_equal. lia. }
    exists l. split; auto. split; [|auto]. intros i. rewrite R. replace (S k - next) with ((k - next) + 1) by lia. rewrite repeat_app, <- app_assoc. reflexivity.
Qed.
Lemma nth_get s i : nth i s None = get_by_id (Some i) s.
Proof. cbn. revert i. induction s; intros [|i]; cbn; auto. Qed.
Lemma slots_shown idf s : (forall i x, nth_error s i = Some (Some x) -> idf x = Some i) ->
  exists l, dump_slots idf 0 (visit_sparse s) = Ok l /\ shows (length (visit_sparse s)) l (fun i => get_by_id (Some i) s).
Proof.
  intros H. destruct (slots idf s 0 0) as (l & D & R & C & Z); auto. exists l. split; auto. split; [|auto]. intros i. rewrite R. cbn [Nat.sub repeat app]. apply nth_get.
Qed.

Section D.
Variable E : env.
(** ** Types *)
Lemma tcs_shown t l : (forall c, In c l -> c_matches (e_tc E c) <> None) ->
  exists x, dump_tcs E t l = Ok x /\ forall c, In c x <-> In c l /\ exists f, c_matches (e_tc E c) = Some f /\ f (t_mixins t) = true.
Proof.
  induction l as [|c l IH]; intros H; cbn [dump_tcs]; [exists []; split; auto; cbn; tauto|]. destruct IH as (x & D & Q); [intros; apply H; now right|].
  destruct (c_matches (e_tc E c)) as [f|] eqn:C; [|destruct (H c); [now left|auto]]. rewrite D. cbn [bind]. eexists. split; [reflexivity|]. intros c2. destruct (f (t_mixins t)) eqn:F; cbn [In]; rewrite Q.
  - split; [intros [->|[A B]]; eauto|]. intros [[->|A] B]; auto.
  - split; [intros [A B]; auto|]. intros [[->|A] B]; auto. exfalso. destruct B as (g & G1 & G2). rewrite C in G1. injection G1 as <-. congruence.
Qed.
Lemma tc_has_function tr w d c : run E (init_world E) tr w -> tc_registered tr d c = true -> c_matches (e_tc E c) <> None.
Proof.
  intros H. remember (init_world E) as w0. induction H as [|w0 tr w1 o r w2 H IH S U]; [discriminate|]. specialize (IH Heqw0). unfold tc_registered in *. rewrite fold_left_app. cbn [fold_left].
  set (cur := fold_left (tc_step d) tr (fun _ => false)) in *. destruct o; cbn [tc_step]; auto; destruct r as [x|e|u]; auto.
  - destruct (d0 =? d); auto. destruct (Nat.eqb_spec c c0) as [->|N]; auto. intros _ Q. cbn in S. unfold register_type_class, register_tc in S.
    destruct (sv_empty _); [discriminate|]. rewrite Q in S. discriminate.
  - destruct (d0 =? d); auto. destruct (c =? c0); auto. discriminate.
Qed.
Definition impl_shown (w : world) (ms : list mptr) (k : nat) (l : impl_line) : Prop := w_fid w (il_feature l) = Some k /\ shows_impl E ms l.
Lemma rows_shown t f S : (forall x, In x S -> In x (impls E (t_mixins t) f)) ->
  exists rows, dump_rows t (map mkpl S) = Ok rows /\
    Forall2 (fun x row => nth_error (t_mixins t) (fst x) = Some (fst (fst (fst row))) /\ row = (fst (fst (fst row)), ff_payload (snd x), ff_bid (snd x), ff_prio (snd x))) S rows.
Proof.
  induction S as [|[i x] S IH]; intros H; cbn [map dump_rows]; [eexists; split; [reflexivity|constructor]|].
  destruct IH as (rows & D & F); [intros; apply H; now right|]. destruct (proj1 (impls_in E _ _ _ _) (H (i, x) (or_introl eq_refl))) as (m & M & _).
  cbn [mkpl fp_mixin]. cbn. rewrite M, D. cbn [bind]. eexists. split; [reflexivity|]. constructor; auto.
Qed.
Lemma entry_shown w d r t k e : WInv E w -> FInv E w -> has_type w d r t -> nth_error (ft_entries (t_ftable t)) k = Some (Some e) ->
  exists p l rows, payloads t e = Ok (p :: l) /\ dump_rows t (p :: l) = Ok rows /\
    impl_shown w (t_mixins t) k {| il_feature := ff_info (fp_data p); il_top := fe_back e - fe_begin e + 1; il_size := fe_end e - fe_begin e; il_rows := rows |}.
Proof.
  intros HW HF Ht Hk. pose proof (fi_t _ _ HF _ _ (proj1 Ht) k) as Hok. pose proof (type_mixins E _ _ _ _ HW Ht) as Hmd. unfold ft_at in Hok. rewrite Hk in Hok.
  destruct Hok as (H1 & H2 & H3 & H4 & H5). destruct (L (w_fid w) k (all_features E (t_mixins t))) as [|[i x] L0] eqn:HL; [congruence|]. clear H1.
  assert (Hx : In (i, x) (L (w_fid w) k (all_features E (t_mixins t)))) by (rewrite HL; now left). apply filter_In in Hx as [Hx Hk']. unfold is_k in Hk'. cbn [snd] in Hk'.
  destruct (opt_eqb_spec (w_fid w (ff_info x)) (Some k)) as [Hf|]; [|discriminate]. apply all_features_in in Hx as (m & Hn & Hx).
  pose proof (fi_m _ _ HF m d (Hmd _ (nth_error_In _ _ Hn)) x Hx) as FR. set (f := ff_info x) in *. pose proof (L_impls E w d f k (t_mixins t) (proj1 HW) HF Hmd FR Hf) as LI.
  unfold sorted_pls in H4, H5. rewrite LI, sorted_impls_mk in H4, H5. set (all := impls E (t_mixins t) f) in *.
  assert (NE : all <> []) by (intros Z; rewrite LI, Z in HL; discriminate).
  assert (P := sorted_impls_perm all). assert (O := sorted_impls_ordered all). assert (T := tops_sorted all). destruct (sorted_impls all) as [|y S]; [apply Permutation_nil in P; congruence|].
  destruct (rows_shown t f (y :: S)) as (rows & D & F). { intros z Z. eapply Permutation_in; eauto. }
  exists (mkpl y), (map mkpl S), rows. split; [unfold payloads; rewrite H5, all_some_map; auto|]. split; auto.
  assert (FY : ff_info (snd y) = f). { assert (In y all) as Y by (eapply Permutation_in; [exact P|now left]). destruct y as [j y]. apply impls_in in Y as (? & _ & _ & Q). exact Q. }
  assert (IF : ff_info (fp_data (mkpl y)) = f) by (destruct y; exact FY).
  assert (LEN : fe_end e - fe_begin e = length all).
  { apply (f_equal (@length _)) in H5. rewrite !map_length in H5. apply Permutation_length in P. rewrite <- P, <- H5. unfold slice. rewrite firstn_length, skipn_length. lia. }
  split; cbn [il_feature]; rewrite IF; auto. unfold shows_impl. cbn [il_feature il_size il_top il_rows]. fold all. split; auto. split; auto. split.
  - rewrite H4. specialize (T y S eq_refl). unfold top_bidders. rewrite <- (Permutation_length (Permutation_filter (is_top all) _ _ P)). rewrite <- T.
    cbn [map back_of length]. rewrite firstn_length. pose proof (top_run_le (bid_of y) (map mkpl S)) as TL. rewrite map_length in TL. destruct y as [j y]. unfold bid_of in *. cbn [mkpl fp_data fp_mixin snd fst] in *. lia.
  - exists (y :: S). auto.
Qed.
Lemma entries_shown w t es : forall k, (forall i e, nth_error es i = Some (Some e) ->
    exists p l rows, payloads t e = Ok (p :: l) /\ dump_rows t (p :: l) = Ok rows /\
    impl_shown w (t_mixins t) (k + i) {| il_feature := ff_info (fp_data p); il_top := fe_back e - fe_begin e + 1; il_size := fe_end e - fe_begin e; il_rows := rows |}) ->
  exists ls, dump_impls t es = Ok ls /\ length (filter (fun x => is_some x) es) = length ls /\ NoDup (map il_feature ls) /\
    (forall l, In l ls -> exists i e, nth_error es i = Some (Some e) /\ impl_shown w (t_mixins t) (k + i) l) /\
    (forall i e, nth_error es i = Some (Some e) -> exists l, In l ls /\ impl_shown w (t_mixins t) (k + i) l).
Proof.
  induction es as [|[e|] es IH]; intros k H; cbn [dump_impls].
  - exists []. split; auto. split; auto. split; [constructor|]. split; [intros l []|]. intros [|i] e; discriminate.
  - destruct (IH (S k)) as (ls & D & LE & ND & A & B). { intros i e' Q. rewrite Nat.add_succ_comm. apply H. exact Q. }
    destruct (H 0 e eq_refl) as (p & l & rows & P & R & SI). rewrite Nat.add_0_r in SI. rewrite P. cbn [bind]. rewrite R, D. cbn [bind]. eexists. split; [reflexivity|]. cbn [filter is_some length map].
    split; [now rewrite LE|]. split; [|split].
    + constructor; auto. intros Q. apply in_map_iff in Q as (l2 & F2 & I2). destruct (A _ I2) as (i & e2 & _ & W2 & _). destruct SI as [W1 _]. cbn [il_feature] in *. rewrite F2, W1 in W2. injection W2. lia.
    + intros l2 [<-|I2]; [exists 0, e; rewrite Nat.add_0_r; auto|]. destruct (A _ I2) as (i & e2 & N2 & S2). exists (S i), e2. split; auto. now rewrite <- Nat.add_succ_comm.
    + intros [|i] e2 Q; [injection Q as <-; eexists; split; [now left|]; now rewrite Nat.add_0_r|]. destruct (B i e2 Q) as (l2 & I2 & S2). exists l2. split; [now right|]. now rewrite <- Nat.add_succ_comm.
  - destruct (IH (S k)) as (ls & D & LE & ND & A & B). { intros i e' Q. rewrite Nat.add_succ_comm. apply H. exact Q. }
    exists ls. split; auto. split; auto. split; auto. split.
    + intros l2 I2. destruct (A _ I2) as (i & e2 & N2 & S2). exists (S i), e2. split; auto. now rewrite <- Nat.add_succ_comm.
    + intros [|i] e2 Q; [discriminate|]. destruct (B i e2 Q) as (l2 & I2 & S2). exists l2. split; auto. now rewrite <- Nat.add_succ_comm.
Qed.
Lemma impl_lines_shown tr w d r t : run_where E (features_kept E) tr w -> has_type w d r t ->
  exists ls, dump_impls t (ft_entries (t_ftable t)) = Ok ls /\ length (filter (fun x => is_some x) (ft_entries (t_ftable t))) = length ls /\
    NoDup (map il_feature ls) /\ Forall (shows_impl E (t_mixins t)) ls /\ (forall f, impls E (t_mixins t) f <> [] -> In f (map il_feature ls)).
Proof.
  intros H Ht. destruct (finv_run E _ _ H) as [HR HF]. pose proof (winv_run E _ _ HR) as HW. pose proof (type_mixins E _ _ _ _ HW Ht) as Hmd.
  assert (FR : forall f, impls E (t_mixins t) f <> [] -> freg w d f).
  { intros f N. destruct (impls E (t_mixins t) f) as [|[i x] l] eqn:I; [congruence|]. assert (In (i, x) (impls E (t_mixins t) f)) as J by (rewrite I; now left).
    apply impls_in in J as (m & M1 & M2 & <-). eapply (fi_m _ _ HF); eauto. apply Hmd. eapply nth_error_In; eauto. }
  destruct (entries_shown w t (ft_entries (t_ftable t)) 0) as (ls & D & LE & ND & A & B).
  { intros i e N. cbn [Nat.add]. eapply entry_shown; eauto. }
  exists ls. split; auto. split; auto. split; auto. split.
  - apply Forall_forall. intros l I. destruct (A l I) as (i & e & _ & _ & Q). exact Q.
  - intros f N. pose proof (FR f N) as F. destruct F as (k & F1 & F2). pose proof (fi_t _ _ HF _ _ (proj1 Ht) k) as Hok. unfold ft_at in Hok.
    rewrite (L_impls E w d f k (t_mixins t) (proj1 HW) HF Hmd (ex_intro _ k (conj F1 F2)) F1) in Hok.
    destruct (nth_error (ft_entries (t_ftable t)) k) as [[e|]|] eqn:NE; try congruence. destruct (B k e NE) as (l & L1 & L2 & L3). cbn [Nat.add] in L2.
    apply in_map_iff. exists l. split; auto. destruct (FR _ (proj1 L3)) as (k2 & G1 & G2). rewrite L2 in G1. injection G1 as <-. congruence.
Qed.
Lemma traits_shown t : exists a b c e f, [default_constructible E t; copy_constructible E t; copy_assignable E t; equality_comparable E t; comparable E t] = [a; b; c; e; f] /\
    (a = true <-> forall m, In m (t_mixins t) -> m_init (e_mixin E m) = true) /\ (b = true <-> forall m, In m (t_mixins t) -> m_copy_init (e_mixin E m) = true) /\
    (c = true <-> forall m, In m (t_mixins t) -> m_copy_asgn (e_mixin E m) = true) /\
    (e = true <-> forall m, In m (t_mixins t) -> m_equals (e_mixin E m) = true \/ m_compare (e_mixin E m) = true) /\
    (f = true <-> forall m, In m (t_mixins t) -> m_compare (e_mixin E m) = true).
Proof.
  exists (default_constructible E t), (copy_constructible E t), (copy_assignable E t), (equality_comparable E t), (comparable E t). split; auto.
  unfold default_constructible, copy_constructible, copy_assignable, equality_comparable, comparable. rewrite !forallb_forall. split; [|split; [|split; [|split]]]; try reflexivity.
  split; intros H m Hm; specialize (H m Hm); now apply orb_true_iff in H || apply orb_true_iff.
Qed.
Lemma type_shown tr w d r : run_where E (features_kept E) tr w -> In r (traverse_types w d) ->
  exists x, dump_type E w d r = Ok x /\ shows_type E w d r x /\ shows_impls E x.
Proof.
  intros H Hr. destruct (finv_run E _ _ H) as [HR HF]. pose proof (winv_run E _ _ HR) as HW. destruct (ti_types _ _ (proj2 HW) _ _ Hr) as (n & t & Hn & _ & Ht & _).
  destruct (impl_lines_shown tr w d r t H) as (ls & D & LE & ND & A & B); [split; auto|]. destruct (c72_elements E tr w d HR) as (_ & _ & _ & TC).
  destruct (tcs_shown t (traverse_type_classes w d)) as (x & DT & T). { intros c C. eapply tc_has_function; eauto. now apply TC. }
  unfold dump_type. rewrite Ht, D. cbn [bind]. rewrite DT. cbn [bind]. eexists. split; [reflexivity|]. split; [|split; cbn; auto].
  exists t. cbn. split; auto. split; auto. split; auto. split; [apply traits_shown|]. split; [now rewrite map_length|]. split.
  - intros q. rewrite in_map_iff. split.
    + intros ([q2 r2] & <- & I). apply filter_In in I as [I1 I2]. unfold same_type in I2. cbn in I2. destruct (tref_eqb_spec r2 r) as [->|]; [exact I1|discriminate].
    + intros I. exists (q, r). split; auto. apply filter_In. split; auto. unfold same_type. cbn. now destruct (tref_eqb_spec r r).
  - intros c. rewrite T. unfold traverse_type_classes. now rewrite visit_in.
Qed.
Lemma types_shown tr w d l : run_where E (features_kept E) tr w -> (forall r, In r l -> In r (traverse_types w d)) ->
  exists x, dump_types E w d l = Ok x /\ Forall2 (fun r y => shows_type E w d r y /\ shows_impls E y) l x.
Proof.
  intros H. induction l as [|r l IH]; intros Q; cbn [dump_types]; [eexists; split; [reflexivity|constructor]|]. destruct IH as (x & D & F); [intros; apply Q; now right|].
  destruct (type_shown tr w d r H (Q r (or_introl eq_refl))) as (y & D1 & F1). rewrite D1, D. cbn [bind]. eexists. split; [reflexivity|]. now constructor.
Qed.
Lemma queries_shown w d l : WInv E w -> (forall q, In q l -> In q (traverse_type_queries w d)) ->
  exists x, dump_queries w l = Ok x /\ Forall2 (fun q y => fst y = fst q /\ exists t, w_type w (snd q) = Some t /\ snd y = t_mixins t) l x.
Proof.
  intros H. induction l as [|[q r] l IH]; intros Q; cbn [dump_queries]; [eexists; split; [reflexivity|constructor]|]. destruct IH as (x & D & F); [intros; apply Q; now right|].
  assert (exists t, w_type w r = Some t) as [t Ht].
  { destruct (ti_queries _ _ (proj2 H) d q r (Q _ (or_introl eq_refl))) as [->|I]; [destruct (ti_empty _ _ (proj2 H) d); eauto|]. destruct (ti_types _ _ (proj2 H) _ _ I) as (? & t & _ & _ & ? & _). eauto. }
  rewrite Ht, D. cbn [bind]. eexists. split; [reflexivity|]. constructor; eauto.
Qed.
Lemma domain_shown tr w d : run_where E (features_kept E) tr w -> exists x, dump_domain E w d = Ok x /\ shows_domain E w d x.
Proof.
  intros H. destruct (finv_run E _ _ H) as [HR HF]. pose proof (winv_run E _ _ HR) as HW.
  destruct (slots_shown (w_fid w) (d_features (w_dom w d))) as (f & F1 & F2); [apply (ei_f1 _ _ (proj1 HW))|].
  destruct (slots_shown (w_mid w) (d_mixins (w_dom w d))) as (m & M1 & M2); [intros i x I; apply (ei_m1 _ _ (proj1 HW) _ _ _ I)|].
  destruct (types_shown tr w d (traverse_types w d) H (fun r I => I)) as (ts & T1 & T2). destruct (queries_shown w d (traverse_type_queries w d) HW (fun r I => I)) as (qs & Q1 & Q2).
  unfold dump_domain, traverse_features, traverse_mixins. rewrite F1. cbn [bind]. rewrite M1. cbn [bind]. rewrite T1. cbn [bind]. rewrite Q1. cbn [bind]. eexists. split; [reflexivity|].
  unfold shows_domain. cbn. do 8 (split; [auto|]). split; [|auto]. intros c. unfold traverse_type_classes. now rewrite visit_in.
Qed.
End D.
