(** The feature table of a type against the listings of its mixins. *)
From Coq Require Import List Arith ZArith NArith Lia Bool Permutation Sorted.
From Verif Require Import Base Sv BaseLemmas Info Registry RegistryProofs TypeMut Rules TypeBuild TypeBuildProofs LayoutProofs
  TypeQuery Msg Domain ElemProofs TypesProofs SpecReg SpecDom SpecMsg HistProofs FtableProofs.
Import ListNotations.

Section M.
Variable E : env.

Lemma flat_map_filter {A B} (p : B -> bool) (g : A -> list B) l : filter p (flat_map g l) = flat_map (fun x => filter p (g x)) l.
Proof. induction l; simpl; auto. now rewrite filter_app, IHl. Qed.
Lemma filter_map_pair {A B} (p : B -> bool) (i : A) l : filter (fun x => p (snd x)) (map (pair i) l) = map (pair i) (filter p l).
Proof. induction l; simpl; auto. rewrite IHl. destruct (p a); auto. Qed.

Lemma impls_enumerate (ms : list mptr) f : impls E ms f = filter (fun x => ff_info (snd x) =? f) (all_features E ms).
Proof.
  unfold impls, all_features. rewrite flat_map_filter.
  assert (H : forall k l, (forall i m, nth_error l i = Some m -> nth_error ms (k + i) = Some m) ->
    flat_map (fun i => match nth_error ms i with Some m => map (pair i) (filter (fun x => ff_info x =? f) (m_features (e_mixin E m))) | None => [] end) (seq k (length l)) =
    flat_map (fun x => filter (fun y => ff_info (snd y) =? f) (map (pair (fst x)) (m_features (e_mixin E (snd x))))) (enumerate k l)).
  { intros k l. revert k. induction l as [|m l IH]; intros k Hn; simpl; auto.
    assert (Hk := Hn 0 m eq_refl). rewrite Nat.add_0_r in Hk. rewrite Hk.
    rewrite (filter_map_pair (fun x => ff_info x =? f)). f_equal. apply IH. intros i m' Hi. replace (S k + i) with (k + S i) by lia. auto. }
  apply (H 0 ms). auto.
Qed.
Lemma impls_in (ms : list mptr) f i x : In (i, x) (impls E ms f) <-> exists m, nth_error ms i = Some m /\ In x (m_features (e_mixin E m)) /\ ff_info x = f.
Proof.
  rewrite impls_enumerate, filter_In, all_features_in. simpl. rewrite Nat.eqb_eq. split.
  - intros [(m & H1 & H2) H3]. eauto.
  - intros (m & H1 & H2 & H3). eauto.
Qed.

Lemma freg_of w d f : EInv E w -> feature_in w d f -> freg w d f.
Proof.
  unfold feature_in, get_feature_by_id, freg. intros HE H. destruct (w_fid w f) as [i|] eqn:Hf.
  - exists i. split; auto. apply get_by_id_spec in H. auto.
  - discriminate.
Qed.
Lemma freg_inj w d f f' k : EInv E w -> freg w d f -> freg w d f' -> w_fid w f = Some k -> w_fid w f' = Some k -> f = f'.
Proof. intros HE (i & A & B) (i' & A' & B') H H'. assert (i = k) by congruence. assert (i' = k) by congruence. subst. congruence. Qed.

Lemma L_impls w d f k ms : EInv E w -> FInv E w -> (forall m, In m ms -> w_mdom w m = Some d) -> freg w d f -> w_fid w f = Some k ->
  L (w_fid w) k (all_features E ms) = impls E ms f.
Proof.
  intros HE HF Hm Hf Hk. rewrite impls_enumerate. unfold L. apply filter_ext_in. intros [i x] Hin. unfold is_k. simpl.
  apply all_features_in in Hin. destruct Hin as (m & Hn & Hx).
  assert (Hfx := fi_m _ _ HF m d (Hm _ (nth_error_In _ _ Hn)) x Hx).
  destruct (Nat.eqb_spec (ff_info x) f) as [->|Hne].
  - rewrite Hk. destruct (opt_eqb_spec (Some k) (Some k)); congruence.
  - destruct (opt_eqb_spec (w_fid w (ff_info x)) (Some k)) as [He|]; auto. exfalso. apply Hne. eapply freg_inj; eauto.
Qed.

(** payloads as listings *)
Lemma payload_preferred a b : payload_less (mkpl a) (mkpl b) = true <-> preferred a b.
Proof.
  unfold payload_less, preferred, bid_of, prio_of. simpl.
  destruct (Z.eqb_spec (ff_bid (snd a)) (ff_bid (snd b))); simpl.
  - destruct (Z.eqb_spec (ff_prio (snd a)) (ff_prio (snd b))); simpl.
    + rewrite Nat.ltb_lt. lia.
    + rewrite Z.ltb_lt. lia.
  - rewrite Z.ltb_lt. lia.
Qed.
Definition ordered (l : list (nat * ffm)) : Prop := StronglySorted (fun a b => ~ preferred b a) l.

Lemma StronglySorted_map {A B} (f : A -> B) (R : B -> B -> Prop) (R' : A -> A -> Prop) l :
  (forall a b, R (f a) (f b) -> R' a b) -> StronglySorted R (map f l) -> StronglySorted R' l.
Proof.
  intros H. induction l as [|x l IH]; simpl; intros Hs; [constructor|]. inversion_clear Hs as [|? ? H1 H2]. constructor; auto.
  rewrite Forall_forall in *. intros y Hy. apply H. apply H2. now apply in_map.
Qed.

Definition sorted_impls (l : list (nat * ffm)) : list (nat * ffm) :=
  map (fun p => (fp_mixin p, fp_data p)) (sort_by payload_less (map mkpl l)).
Lemma unmkpl l : map (fun p => (fp_mixin p, fp_data p)) (map mkpl l) = l.
Proof. induction l as [|[i x] l IH]; simpl; auto. now rewrite IH. Qed.
Lemma sorted_impls_mk l : sort_by payload_less (map mkpl l) = map mkpl (sorted_impls l).
Proof.
  unfold sorted_impls. rewrite map_map. symmetry. erewrite map_ext_in; [apply map_id|]. intros p Hp. simpl.
  apply (Permutation_in _ (sort_by_perm _ _)) in Hp. apply in_map_iff in Hp. destruct Hp as ([i x] & <- & _). reflexivity.
Qed.
Lemma sorted_impls_perm l : Permutation (sorted_impls l) l.
Proof.
  unfold sorted_impls. now rewrite (sort_by_perm payload_less (map mkpl l)), unmkpl.
Qed.
Lemma sorted_impls_ordered l : ordered (sorted_impls l).
Proof.
  assert (H := sort_payloads_sorted (map mkpl l)). rewrite sorted_impls_mk in H. unfold ordered. eapply StronglySorted_map; [|exact H].
  intros a b. unfold le_by. rewrite <- payload_preferred. destruct (payload_less (mkpl b) (mkpl a)); congruence.
Qed.

Lemma type_mixins w d r t : WInv E w -> has_type w d r t -> (forall m, In m (t_mixins t) -> w_mdom w m = Some d).
Proof.
  intros [HE HT] [Ht [->|Hin]] m Hm.
  - destruct (ti_empty _ _ HT d) as [k Hk]. rewrite Hk in Ht. injection Ht as <-. destruct Hm.
  - destruct (ti_types _ _ HT _ _ Hin) as (n & t' & -> & _ & Ht' & Hok). assert (t' = t) by congruence. subst. apply Hok. auto.
Qed.

Lemma table_spec w d r t f : WInv E w -> FInv E w -> has_type w d r t -> feature_in w d f ->
  (impls E (t_mixins t) f = [] /\ ftable_at t (w_fid w f) = None) \/
  (impls E (t_mixins t) f <> [] /\
   let S := sorted_impls (impls E (t_mixins t) f) in
   exists e, ftable_at t (w_fid w f) = Some e /\ payloads t e = Ok (map mkpl S) /\
     fe_back e = fe_begin e + back_of (map mkpl S) /\
     (forall i x, nth_error S i = Some x -> call_at t (fe_begin e + i) = Ok (exec_of x))).
Proof.
  intros HW HF Ht Hf. assert (HE := proj1 HW). apply freg_of in Hf; auto. destruct Hf as (k & Hk & Hn).
  assert (Hok := fi_t _ _ HF _ _ (proj1 Ht) k).
  assert (HL := L_impls w d f k (t_mixins t) HE HF (type_mixins _ _ _ _ HW Ht) (ex_intro _ k (conj Hk Hn)) Hk).
  unfold sorted_pls in Hok. rewrite HL in Hok. unfold ft_at in Hok. unfold ftable_at. rewrite Hk.
  destruct (nth_error (ft_entries (t_ftable t)) k) as [[e|]|]; [|left; auto..].
  right. destruct Hok as (H1 & H2 & H3 & H4 & H5). split; auto. cbv zeta. exists e. rewrite sorted_impls_mk in *. set (S := sorted_impls (impls E (t_mixins t) f)) in *. split; auto.
  split; [unfold payloads; rewrite H5, all_some_map; auto|]. split; auto.
  intros i x Hi. unfold call_at.
  assert (Hs : nth_error (map Some (map mkpl S)) i = Some (Some (mkpl x))) by (now rewrite !nth_error_map, Hi).
  rewrite <- H5, nth_error_slice in Hs. destruct (i <? fe_end e - fe_begin e); [|discriminate]. rewrite Hs. simpl.
  assert (Hin : In x (impls E (t_mixins t) f)) by (eapply Permutation_in; [apply sorted_impls_perm|]; eapply nth_error_In; eauto).
  destruct x as [j x]. apply impls_in in Hin. destruct Hin as (m & Hm & _). simpl. apply nth_error_lt in Hm.
  destruct (Nat.ltb_spec j (length (t_mixins t))); [reflexivity|lia].
Qed.

(** ** C23 *)
Lemma c23 tr w d r t f : run_where E (features_kept E) tr w -> has_type w d r t -> feature_in w d f ->
  (implements_strong (w_fid w) t f = true <-> exists m x, In m (t_mixins t) /\ In x (m_features (e_mixin E m)) /\ ff_info x = f) /\
  match ftable_at t (w_fid w f) with
  | None => impls E (t_mixins t) f = []
  | Some e => exists l, payloads t e = Ok l /\ Permutation (map (fun p => (fp_mixin p, fp_data p)) l) (impls E (t_mixins t) f) /\
      (forall p, In p l -> fp_payload p = ff_payload (fp_data p))
  end.
Proof.
  intros H Ht Hf. apply finv_run in H. destruct H as [Hrun HF]. assert (HW := winv_run _ _ _ Hrun).
  assert (Hex : (exists m x, In m (t_mixins t) /\ In x (m_features (e_mixin E m)) /\ ff_info x = f) <-> impls E (t_mixins t) f <> []).
  { split.
    - intros (m & x & H1 & H2 & H3) Hn. apply In_nth_error in H1. destruct H1 as [i Hi].
      assert (Hin : In (i, x) (impls E (t_mixins t) f)) by (apply impls_in; eauto). rewrite Hn in Hin. destruct Hin.
    - destruct (impls E (t_mixins t) f) as [|[i x] l] eqn:Hi; [congruence|]. intros _.
      assert (Hin : In (i, x) (impls E (t_mixins t) f)) by (rewrite Hi; now left). apply impls_in in Hin. destruct Hin as (m & H1 & H2 & H3).
      exists m, x. split; auto. eapply nth_error_In; eauto. }
  rewrite Hex. unfold implements_strong.
  destruct (table_spec w d r t f HW HF Ht Hf) as [[H1 H2]|[H1 (e & H2 & H3 & _ & _)]]; rewrite H2; simpl.
  - split; auto. split; congruence.
  - split; [tauto|]. exists (map mkpl (sorted_impls (impls E (t_mixins t) f))). split; auto. split.
    + rewrite unmkpl. apply sorted_impls_perm.
    + intros p Hp. apply in_map_iff in Hp. destruct Hp as ([i x] & <- & _). reflexivity.
Qed.

(** ** C24 *)
Lemma preferred_irrefl x : ~ preferred x x.
Proof. unfold preferred. lia. Qed.
Lemma sorted_head l : l <> [] -> exists x r, sorted_impls l = x :: r /\ In x l /\ forall y, In y l -> ~ preferred y x.
Proof.
  intros Hl. assert (Hp := sorted_impls_perm l). assert (Ho := sorted_impls_ordered l).
  destruct (sorted_impls l) as [|x r]; [apply Permutation_nil in Hp; congruence|]. exists x, r. split; auto. split.
  - eapply Permutation_in; [exact Hp|now left].
  - intros y Hy. apply (Permutation_in _ (Permutation_sym Hp)) in Hy. destruct Hy as [<-|Hy]; [apply preferred_irrefl|].
    inversion_clear Ho as [|? ? _ Hf]. rewrite Forall_forall in Hf. auto.
Qed.
Lemma c24 tr w d r t f : run_where E (features_kept E) tr w -> has_type w d r t -> feature_in w d f ->
  impls E (t_mixins t) f <> [] ->
  exists x, call_unicast E (w_fid w) t f = Ok (exec_of x) /\ In x (impls E (t_mixins t) f) /\
    forall y, In y (impls E (t_mixins t) f) -> ~ preferred y x.
Proof.
  intros H Ht Hf Hne. apply finv_run in H. destruct H as [Hrun HF]. assert (HW := winv_run _ _ _ Hrun).
  destruct (table_spec w d r t f HW HF Ht Hf) as [[H1 _]|[_ (e & H2 & _ & _ & H5)]]; [congruence|].
  destruct (sorted_head _ Hne) as (x & l & Hs & Hin & Hx). exists x. split; auto. unfold call_unicast. rewrite H2.
  rewrite <- (Nat.add_0_r (fe_begin e)). apply H5. rewrite Hs. reflexivity.
Qed.

(** ** C25 *)
Lemma call_down_spec t b S : (forall i x, nth_error S i = Some x -> call_at t (b + i) = Ok (exec_of x)) ->
  forall n, n < length S -> call_down t b n = Ok (map exec_of (rev (firstn n (tl S)))).
Proof.
  intros H. induction n as [|n IH]; intros Hn; [reflexivity|].
  destruct (nth_error S (Datatypes.S n)) as [x|] eqn:Hx; [|apply nth_error_None in Hx; lia].
  simpl call_down. rewrite (H _ _ Hx). simpl bind. rewrite IH by lia. simpl bind. f_equal.
  destruct S as [|y S]; [simpl in Hn; lia|]. simpl tl in *. simpl in Hx.
  assert (Hf : firstn (Datatypes.S n) S = firstn n S ++ [x]).
  { clear -Hx. revert n Hx. induction S as [|z S IHS]; intros [|n] Hx; simpl in *; try discriminate; [now injection Hx as ->|]. f_equal. auto. }
  rewrite Hf, rev_app_distr. reflexivity.
Qed.
Lemma top_run_filter b l : Forall (fun y => (bid_of y <= b)%Z) l -> ordered l ->
  firstn (top_bid_run b (map mkpl l)) l = filter (fun y => Z.eqb (bid_of y) b) l.
Proof.
  intros Hle Ho. induction l as [|x l IH]; simpl; auto. inversion_clear Hle as [|? ? Hx Hl]. inversion_clear Ho as [|? ? Ho' Hf].
  change (ff_bid (snd x)) with (bid_of x). destruct (Z.eqb_spec (bid_of x) b) as [He|Hne].
  - simpl. f_equal. auto.
  - simpl. symmetry. rewrite (filter_ext_in _ (fun _ => false)). { clear. induction l; simpl; auto. }
    intros y Hy. apply Z.eqb_neq. rewrite Forall_forall in Hf. specialize (Hf y Hy). unfold preferred in Hf. lia.
Qed.
Lemma top_run_le b l : top_bid_run b l <= length l.
Proof. induction l; simpl; auto. destruct (Z.eqb _ _); lia. Qed.
Lemma Permutation_filter {A} (p : A -> bool) l l' : Permutation l l' -> Permutation (filter p l) (filter p l').
Proof.
  induction 1; simpl; auto.
  - destruct (p x); auto.
  - destruct (p x), (p y); auto. constructor.
  - etransitivity; eauto.
Qed.
Lemma is_top_eq l x : In x l -> (forall y, In y l -> ~ preferred y x) -> forall y, In y l -> is_top l y = Z.eqb (bid_of y) (bid_of x).
Proof.
  intros Hx Hp y Hy. unfold is_top. destruct (Z.eqb_spec (bid_of y) (bid_of x)) as [He|Hne].
  - apply forallb_forall. intros z Hz. apply Z.leb_le. specialize (Hp z Hz). unfold preferred in Hp. lia.
  - apply not_true_is_false. rewrite forallb_forall. intros H. specialize (H x Hx). apply Z.leb_le in H.
    specialize (Hp y Hy). unfold preferred in Hp. lia.
Qed.
Lemma StronglySorted_filter {A} (R : A -> A -> Prop) p l : StronglySorted R l -> StronglySorted R (filter p l).
Proof.
  induction 1 as [|x l H IH Hf]; simpl; [constructor|]. destruct (p x); auto. constructor; auto.
  rewrite Forall_forall in *. intros y Hy. apply filter_In in Hy. now apply Hf.
Qed.
Lemma StronglySorted_rev {A} (R : A -> A -> Prop) l : StronglySorted R l -> StronglySorted (fun a b => R b a) (rev l).
Proof.
  induction 1 as [|x l H IH Hf]; simpl; [constructor|].
  assert (forall k, StronglySorted (fun a b => R b a) k -> Forall (fun y => R x y) k -> StronglySorted (fun a b => R b a) (k ++ [x])) as Hsnoc.
  { induction 1 as [|y k Hk IHk Hy]; simpl; intros Hx; [repeat constructor|]. inversion_clear Hx. constructor; auto.
    apply Forall_app. split; auto. }
  apply Hsnoc; auto. rewrite Forall_forall in *. intros y Hy. apply Hf. now apply in_rev.
Qed.
Lemma StronglySorted_weak {A} (R R' : A -> A -> Prop) l : (forall a b, In a l -> In b l -> R a b -> R' a b) -> StronglySorted R l -> StronglySorted R' l.
Proof.
  intros H Hs. induction Hs as [|x l Hl IH Hf]; [constructor|]. constructor.
  - apply IH. intros. apply H; simpl; auto.
  - rewrite Forall_forall in *. intros y Hy. apply H; simpl; auto.
Qed.
Lemma tops_sorted l x r : sorted_impls l = x :: r ->
  x :: firstn (top_bid_run (bid_of x) (map mkpl r)) r = filter (is_top l) (sorted_impls l).
Proof.
  intros Hs. assert (Ho := sorted_impls_ordered l). assert (Hp := sorted_impls_perm l). rewrite Hs in *.
  inversion_clear Ho as [|? ? Ho' Hf]. assert (Hx : In x l) by (eapply Permutation_in; [exact Hp|now left]).
  assert (Hpref : forall y, In y l -> ~ preferred y x).
  { intros y Hy. apply (Permutation_in _ (Permutation_sym Hp)) in Hy. destruct Hy as [<-|Hy]; [apply preferred_irrefl|]. rewrite Forall_forall in Hf. auto. }
  rewrite (top_run_filter (bid_of x) r); auto.
  2:{ rewrite Forall_forall in *. intros y Hy. specialize (Hf y Hy). unfold preferred in Hf. lia. }
  rewrite (filter_ext_in (is_top l) (fun y => Z.eqb (bid_of y) (bid_of x))).
  - simpl. rewrite Z.eqb_refl. reflexivity.
  - intros y Hy. apply is_top_eq; auto. eapply Permutation_in; [exact Hp|auto].
Qed.
Lemma c25 tr w d r t f : run_where E (features_kept E) tr w -> has_type w d r t -> feature_in w d f ->
  impls E (t_mixins t) f <> [] ->
  exists xs last, call_multicast E (w_fid w) t f = Ok (map exec_of xs, last) /\
    Permutation xs (top_bidders (impls E (t_mixins t) f)) /\ StronglySorted executed_before xs /\
    (exists l, map exec_of xs = l ++ [last]) /\ call_unicast E (w_fid w) t f = Ok last.
Proof.
  intros H Ht Hf Hne. apply finv_run in H. destruct H as [Hrun HF]. assert (HW := winv_run _ _ _ Hrun).
  destruct (table_spec w d r t f HW HF Ht Hf) as [[H1 _]|[_ (e & H2 & _ & Hb & H5)]]; [congruence|].
  set (l := impls E (t_mixins t) f) in *. destruct (sorted_head _ Hne) as (x & rest & Hs & Hin & Hx).
  assert (Htops := tops_sorted l x rest Hs). rewrite Hs in *. simpl back_of in Hb. change (ff_bid (snd x)) with (bid_of x) in Hb.
  set (n := top_bid_run (bid_of x) (map mkpl rest)) in *.
  assert (Hn : n <= length rest) by (unfold n; etransitivity; [apply top_run_le|rewrite map_length; auto]).
  exists (rev (filter (is_top l) (x :: rest))), (exec_of x). rewrite <- Htops.
  assert (H0 : call_at t (fe_begin e) = Ok (exec_of x)) by (rewrite <- (Nat.add_0_r (fe_begin e)); apply H5; reflexivity).
  split; [|split; [|split; [|split]]].
  - unfold call_multicast. rewrite H2, Hb. replace (fe_begin e + n - fe_begin e) with n by lia.
    rewrite (call_down_spec t (fe_begin e) (x :: rest) H5) by (simpl; lia). simpl bind. rewrite H0. simpl bind. f_equal. f_equal.
    simpl rev. rewrite map_app. reflexivity.
  - rewrite <- Permutation_rev, Htops. apply Permutation_filter. rewrite <- Hs. apply sorted_impls_perm.
  - rewrite Htops. apply StronglySorted_weak with (R := fun a b => ~ preferred a b).
    + intros a b Ha Hb'. rewrite <- in_rev in Ha, Hb'. apply filter_In in Ha, Hb'. destruct Ha as [Ha1 Ha], Hb' as [Hb1 Hb'].
      rewrite <- Hs in Ha1, Hb1. apply (Permutation_in _ (sorted_impls_perm l)) in Ha1, Hb1.
      rewrite (is_top_eq l x Hin Hx) in Ha, Hb' by auto. apply Z.eqb_eq in Ha, Hb'. unfold preferred, executed_before. lia.
    + apply (StronglySorted_rev (fun a b => ~ preferred b a)). apply StronglySorted_filter. rewrite <- Hs. apply sorted_impls_ordered.
  - simpl rev. rewrite map_app. eexists. reflexivity.
  - unfold call_unicast. rewrite H2. auto.
Qed.

(** ** C26 *)
Definition nosame (a b : nat * ffm) : Prop := ~ (bid_of a = bid_of b /\ prio_of a = prio_of b).
Lemma clash_in_pairs l : clash_in l <-> ~ ForallOrdPairs nosame l.
Proof.
  split.
  - intros (l1 & x & l2 & y & l3 & -> & H1 & H2) Hf. induction l1 as [|z l1 IH]; simpl in Hf; inversion_clear Hf as [|? ? Ha Hb]; auto.
    rewrite Forall_forall in Ha. apply (Ha y); [|auto]. apply in_or_app. simpl. auto.
  - induction l as [|x l IH]; intros Hn; [destruct Hn; constructor|].
    destruct (Exists_dec (fun y => bid_of x = bid_of y /\ prio_of x = prio_of y) l) as [He|He].
    + intros y. destruct (Z.eq_dec (bid_of x) (bid_of y)); [|right; tauto]. destruct (Z.eq_dec (prio_of x) (prio_of y)); [left; auto|right; tauto].
    + apply Exists_exists in He. destruct He as (y & Hy & H1 & H2). apply in_split in Hy. destruct Hy as (l2 & l3 & ->).
      exists [], x, l2, y, l3. auto.
    + destruct IH as (l1 & a & l2 & b & l3 & -> & H1 & H2).
      * intros Hf. apply Hn. constructor; auto. rewrite Forall_forall. intros y Hy Hs. apply He. apply Exists_exists. eauto.
      * exists (x :: l1), a, l2, b, l3. auto.
Qed.
Lemma pairs_perm l l' : Permutation l l' -> ForallOrdPairs nosame l -> ForallOrdPairs nosame l'.
Proof.
  assert (Hsym : forall a b, nosame a b -> nosame b a) by (unfold nosame; intros a b H [H1 H2]; auto).
  induction 1 as [|x l l' Hp IH|x y l|l l' l'' H1 IH1 H2 IH2]; intros Hf; auto.
  - inversion_clear Hf. constructor; auto. eapply Permutation_Forall; eauto.
  - inversion_clear Hf as [|? ? Ha Hb]. inversion_clear Hb as [|? ? Hc Hd]. inversion_clear Ha. repeat constructor; auto.
Qed.
Lemma has_clash_spec l : ordered l -> (has_clash (map mkpl l) = false <-> ForallOrdPairs nosame l).
Proof.
  induction l as [|x l IH]; intros Ho; [simpl; split; auto; constructor|]. inversion_clear Ho as [|? ? Ho' Hf].
  specialize (IH Ho'). destruct l as [|y l]; [simpl; split; auto; intros _; repeat constructor|].
  change (has_clash (map mkpl (x :: y :: l))) with
    ((Z.eqb (bid_of x) (bid_of y) && Z.eqb (prio_of x) (prio_of y)) || has_clash (map mkpl (y :: l))).
  rewrite orb_false_iff, IH, andb_false_iff, !Z.eqb_neq. inversion_clear Hf as [|? ? Hy Hl]. inversion_clear Ho' as [|? ? Ho'' Hyl]. split.
  - intros [H1 H2]. constructor; auto. constructor; [unfold nosame; lia|].
    rewrite Forall_forall in *. intros z Hz. specialize (Hl z Hz). specialize (Hyl z Hz). unfold nosame, preferred in *. lia.
  - intros H. inversion_clear H as [|? ? Ha Hb]. inversion_clear Ha as [|? ? Hxy _]. split; auto. unfold nosame in Hxy.
    destruct (Z.eq_dec (bid_of x) (bid_of y)); [|auto]. right. tauto.
Qed.
Lemma clash_sorted l : has_clash (sort_by payload_less (map mkpl l)) = true <-> clash_in l.
Proof.
  rewrite sorted_impls_mk, clash_in_pairs. assert (H := has_clash_spec _ (sorted_impls_ordered l)). destruct (has_clash _).
  - split; auto. intros _ Hf. assert (true = false); [|discriminate]. apply H. eapply pairs_perm; [apply Permutation_sym, sorted_impls_perm|auto].
  - split; [discriminate|]. intros Hn. exfalso. apply Hn. eapply pairs_perm; [apply sorted_impls_perm|]. now apply H.
Qed.
Lemma build_clash w d a ms : EInv E w -> FInv E w -> NoDup ms -> (forall m, In m ms -> w_mdom w m = Some d) ->
  (a = true /\ ms <> [] /\ exists f, f_allow_clashes (e_feature E f) = false /\ clash_in (impls E ms f)) <->
  build_type E (w_fid w) (w_mid w) (w_mdom w) a d ms = Throw EFeatureClash.
Proof.
  intros HE HF Hnd Hm. unfold build_type.
  assert (Hck : check_mixins (w_mid w) (w_mdom w) d ms = Ok tt).
  { apply check_mixins_ok. split; auto. intros m Hin. split; auto. destruct (ei_m2 _ _ HE _ _ (Hm _ Hin)) as (i & Hi & _). congruence. }
  rewrite Hck. simpl bind.
  assert (Hfreg : forall i x, In (i, x) (all_features E ms) -> freg w d (ff_info x)).
  { intros i x Hin. apply all_features_in in Hin. destruct Hin as (m & Hn & Hx). eapply (fi_m _ _ HF); eauto. apply Hm. eapply nth_error_In; eauto. }
  destruct (build_ftable_spec E (w_fid w) (w_mid w) ms) as (counts & Hc & Hb).
  { intros i x Hin. destruct (Hfreg i x Hin) as (k & Hk & _). congruence. }
  rewrite Hc. simpl bind. destruct ms as [|m0 ms0] eqn:Hms; [simpl; split; [intros (_ & [] & _); auto|discriminate]|]. rewrite <- Hms in *.
  assert (Hlen : (length ms =? 0) = false) by (subst; auto). rewrite Hlen.
  destruct a; simpl negb; cbv iota; [|split; [intros [? _]; discriminate|discriminate]].
  assert (Hct : forall k, clash_test E (sorted_pls E (w_fid w) k ms) = true <->
     exists f, freg w d f /\ w_fid w f = Some k /\ f_allow_clashes (e_feature E f) = false /\ clash_in (impls E ms f)).
  { intros k. assert (Hk : forall f, freg w d f -> w_fid w f = Some k -> sorted_pls E (w_fid w) k ms = map mkpl (sorted_impls (impls E ms f))).
    { intros f Hf Hk. unfold sorted_pls. rewrite (L_impls w d f k ms HE HF Hm Hf Hk). apply sorted_impls_mk. }
    split.
    - intros H. unfold clash_test in H. destruct (sorted_pls E (w_fid w) k ms) as [|top rest] eqn:Hs; [discriminate|].
      apply andb_true_iff in H. destruct H as [H1 H2].
      assert (Hin : In top (map mkpl (L (w_fid w) k (all_features E ms)))).
      { eapply Permutation_in; [apply sort_by_perm|]. unfold sorted_pls in Hs. rewrite Hs. now left. }
      apply in_map_iff in Hin. destruct Hin as ([i x] & <- & Hin). apply filter_In in Hin. destruct Hin as [Hin Hik]. unfold is_k in Hik. simpl in Hik.
      destruct (opt_eqb_spec (w_fid w (ff_info x)) (Some k)) as [He|]; [|discriminate]. exists (ff_info x).
      assert (Hf := Hfreg _ _ Hin). split; auto. split; auto. simpl in H1. split; [now apply negb_true_iff|].
      apply clash_sorted. rewrite sorted_impls_mk, <- (Hk _ Hf He). auto.
    - intros (f & Hf & Hfk & Hal & Hcl). rewrite (Hk f Hf Hfk). apply clash_sorted in Hcl. rewrite sorted_impls_mk in Hcl.
      assert (Hall : forall z, In z (sorted_impls (impls E ms f)) -> ff_info (snd z) = f).
      { intros [i x] Hz. apply (Permutation_in _ (sorted_impls_perm _)) in Hz. apply impls_in in Hz. destruct Hz as (m & _ & _ & Hz). auto. }
      destruct (sorted_impls (impls E ms f)) as [|z rest]; [discriminate|]. unfold clash_test. simpl map. cbn [map] in Hcl. rewrite Hcl.
      simpl fp_data. rewrite (Hall z (or_introl eq_refl)), Hal. reflexivity. }
  assert (Hff : forall f, clash_in (impls E ms f) -> exists k, freg w d f /\ w_fid w f = Some k).
  { intros f (l1 & [i x] & l2 & y & l3 & Heq & _). assert (Hin : In (i, x) (impls E ms f)) by (rewrite Heq; apply in_or_app; simpl; auto).
    rewrite impls_enumerate in Hin. apply filter_In in Hin. destruct Hin as [Hin Hf]. apply Nat.eqb_eq in Hf. simpl in Hf. subst f.
    assert (Hf := Hfreg _ _ Hin). destruct Hf as (k & A & B). exists k. split; auto. exists k. auto. }
  destruct Hb as [(k & Hk & Hth)|(Hno & ft & Hok & _)].
  - rewrite Hth. simpl. split; auto. intros _. split; auto. split; [rewrite Hms; discriminate|]. apply Hct in Hk. destruct Hk as (f & _ & _ & H1 & H2). eauto.
  - rewrite Hok. simpl bind. split.
    + intros (_ & _ & f & Hal & Hcl). destruct (Hff f Hcl) as (k & Hf & Hk). exfalso. assert (Hx := Hno k).
      assert (clash_test E (sorted_pls E (w_fid w) k ms) = true) by (apply Hct; eauto). congruence.
    + destruct (layout E ms) as [x|e|u] eqn:Hl; simpl.
      * destruct (build_sparse_spec (w_mid w) ms) as (sp & -> & _); [| |discriminate].
        -- intros m Hin. destruct (ei_m2 _ _ HE _ _ (Hm _ Hin)) as (i & Hi & _). congruence.
        -- intros i j m m' Hi Hj Heq. assert (H1 := Hm _ (nth_error_In _ _ Hi)). assert (H2 := Hm _ (nth_error_In _ _ Hj)).
           destruct (ei_m2 _ _ HE _ _ H1) as (a1 & A1 & B1), (ei_m2 _ _ HE _ _ H2) as (a2 & A2 & B2).
           assert (a1 = a2) by congruence. subst. assert (m = m') by congruence. subst. eapply NoDup_nth_error; eauto; [apply nth_error_Some; congruence|congruence].
      * intros [= ->]. exfalso. clear -Hl. unfold layout in Hl. revert Hl. generalize (u32 (N.of_nat (length ms) * sizeof_mixin_data)) as sz. generalize sizeof_ptr at 1 as al.
        induction ms as [|m ms IH]; simpl; intros al sz; [discriminate|].
        destruct (external _); [specialize (IH al sz); destruct (layout_loop E ms sz al); simpl; try discriminate; auto; congruence|].
        destruct (negb _); [discriminate|].
        match goal with |- context [layout_loop E ms ?a ?b] => specialize (IH b a); destruct (layout_loop E ms a b); simpl; try discriminate; congruence end.
      * discriminate.
Qed.
End M.
