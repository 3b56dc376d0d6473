(** Lookup in types, chains of implementers, defaults, clashes, combinators. *)
From Coq Require Import List Arith ZArith NArith Lia Bool Permutation Sorted.
From Verif Require Import Base Sv BaseLemmas SvProofs Info Registry RegistryProofs TypeMut Rules TypeBuild TypeBuildProofs LayoutProofs
  TypeQuery Msg Domain ElemProofs TypesProofs SpecReg SpecDom SpecOrd SpecRule SpecMsg HistProofs RegTheorems DomTheorems RuleTheorems RuleTheorems2 FtableProofs MsgProofs.
Import ListNotations.
Local Open Scope res_scope.

Section M.
Variable E : env.

(** ** C20 *)
Lemma type_sparse w d r t : WInv E w -> has_type w d r t -> sparse_ok (w_mid w) (t_mixins t) (t_sparse t) /\ NoDup (t_mixins t).
Proof.
  intros [HE HT] [Ht [->|Hin]].
  - destruct (ti_empty _ _ HT d) as [k Hk]. rewrite Hk in Ht. injection Ht as <-. simpl. split; [|constructor]. split.
    + intros [|i] m k0; discriminate.
    + intros k0 _. right. destruct k0; auto.
  - destruct (ti_types _ _ HT _ _ Hin) as (n & t' & -> & _ & Ht' & Hok). assert (t' = t) by congruence. subst. split; apply Hok.
Qed.
Lemma index_of_spec w d r t id i : WInv E w -> has_type w d r t ->
  index_of t id = Some i <-> exists m k, id = Some k /\ nth_error (t_mixins t) i = Some m /\ w_mid w m = Some k.
Proof.
  intros HW Ht. destruct (type_sparse _ _ _ _ HW Ht) as [Hs Hnd]. unfold index_of. destruct id as [k|].
  - assert (H := sparse_ok_index _ _ _ k Hs). split.
    + destruct (nth_error (t_sparse t) k) as [[j|]|]; try discriminate. intros [= ->]. destruct H as (m & H1 & H2). eauto 6.
    + intros (m & k' & [= <-] & H1 & H2). now rewrite (proj1 Hs _ _ _ H1 H2).
  - split; [discriminate|]. intros (m & k & ? & _). discriminate.
Qed.
Lemma index_of_mixin w d r t i m : WInv E w -> has_type w d r t -> nth_error (t_mixins t) i = Some m -> index_of t (w_mid w m) = Some i.
Proof.
  intros HW Ht Hi. destruct (type_sparse _ _ _ _ HW Ht) as [Hs Hnd]. assert (Hm := type_mixins E _ _ _ _ HW Ht _ (nth_error_In _ _ Hi)).
  destruct (ei_m2 _ _ (proj1 HW) _ _ Hm) as (k & Hk & _). rewrite Hk. simpl. now rewrite (proj1 Hs _ _ _ Hi Hk).
Qed.
Lemma index_of_name_spec ms nm : forall k i, index_of_name_from E nm ms k = Some i <->
  exists j m, i = k + j /\ nth_error ms j = Some m /\ sv_bytes (m_name (e_mixin E m)) = nm /\
    forall j' m', j' < j -> nth_error ms j' = Some m' -> sv_bytes (m_name (e_mixin E m')) <> nm.
Proof.
  induction ms as [|x ms IH]; intros k i; simpl.
  - split; [discriminate|]. intros ([|j] & m & _ & H & _); discriminate.
  - destruct (bytes_eqb_spec (sv_bytes (m_name (e_mixin E x))) nm) as [He|Hne].
    + split.
      * intros [= <-]. exists 0, x. split; [lia|]. split; auto. split; auto. intros j' m' H; lia.
      * intros ([|j] & m & -> & H1 & H2 & H3); [f_equal; lia|]. exfalso. apply (H3 0 x); auto. lia.
    + rewrite IH. split.
      * intros (j & m & -> & H1 & H2 & H3). exists (S j), m. split; [lia|]. split; auto. split; auto.
        intros [|j'] m' Hj Hm; [injection Hm as <-; auto|]. apply (H3 j' m'); auto. lia.
      * intros ([|j] & m & -> & H1 & H2 & H3); [injection H1 as <-; congruence|]. exists j, m. split; [lia|]. split; auto. split; auto.
        intros j' m' Hj Hm. apply (H3 (S j') m'); auto. lia.
Qed.
Lemma index_of_name_none ms nm : forall k, index_of_name_from E nm ms k = None <-> forall m, In m ms -> sv_bytes (m_name (e_mixin E m)) <> nm.
Proof.
  induction ms as [|x ms IH]; intros k; simpl.
  - split; auto.
  - destruct (bytes_eqb_spec (sv_bytes (m_name (e_mixin E x))) nm) as [He|Hne].
    + split; [discriminate|]. intros H. exfalso. apply (H x); auto.
    + rewrite IH. split.
      * intros H m [<-|Hm]; auto.
      * intros H m Hm. auto.
Qed.
Lemma type_has_spec w d r t m : WInv E w -> has_type w d r t -> not_foreign w d m ->
  type_has (w_mid w) t m = true <-> In m (t_mixins t).
Proof.
  intros HW Ht Hm. unfold type_has, type_has_id. split.
  - destruct (index_of t (w_mid w m)) as [i|] eqn:Hi; [|discriminate]. intros _. apply (index_of_spec w d r t) in Hi; auto.
    destruct Hi as (m' & k & H1 & H2 & H3). assert (Hd := type_mixins E _ _ _ _ HW Ht _ (nth_error_In _ _ H2)).
    destruct Hm as [Hm|Hm].
    + destruct (ei_m2 _ _ (proj1 HW) _ _ Hm) as (a & A1 & A2), (ei_m2 _ _ (proj1 HW) _ _ Hd) as (b & B1 & B2).
      assert (a = b) by congruence. subst. assert (m = m') by congruence. subst. eapply nth_error_In; eauto.
    + exfalso. destruct (ei_m3 _ _ (proj1 HW) m k H1) as [d' H]. congruence.
  - intros Hin. apply In_nth_error in Hin. destruct Hin as [i Hi]. rewrite (index_of_mixin w d r t i m); auto.
Qed.

(** ** Ordered listings *)
Lemma impls_fst_nodup ms f : listed_once E -> NoDup (map fst (impls E ms f)).
Proof.
  intros Hl. unfold impls. assert (H : forall k n, NoDup (map fst (flat_map (fun i => match nth_error ms i with
      | Some m => map (pair i) (filter (fun x => ff_info x =? f) (m_features (e_mixin E m))) | None => [] end) (seq k n))) /\
    forall i, In i (map fst (flat_map (fun i => match nth_error ms i with
      | Some m => map (pair i) (filter (fun x => ff_info x =? f) (m_features (e_mixin E m))) | None => [] end) (seq k n))) -> k <= i).
  { intros k n. revert k. induction n as [|n IH]; intros k; simpl; [split; [constructor|easy]|]. destruct (IH (S k)) as [H1 H2].
    assert (Hone : map fst (match nth_error ms k with Some m => map (pair k) (filter (fun x => ff_info x =? f) (m_features (e_mixin E m))) | None => [] end) = [] \/
      map fst (match nth_error ms k with Some m => map (pair k) (filter (fun x => ff_info x =? f) (m_features (e_mixin E m))) | None => [] end) = [k]).
    { destruct (nth_error ms k) as [m|]; auto. assert (Hnd := Hl m). clear -Hnd.
      induction (m_features (e_mixin E m)) as [|x l IHl]; simpl; auto. simpl in Hnd. inversion_clear Hnd as [|? ? Hx Hnd'].
      destruct (Nat.eqb_spec (ff_info x) f) as [He|]; auto. right. simpl. f_equal.
      assert (Hno : filter (fun x => ff_info x =? f) l = []).
      { clear -Hx He. induction l as [|y l IHl]; simpl; auto. destruct (Nat.eqb_spec (ff_info y) f) as [Hy|].
        - exfalso. apply Hx. simpl. left. congruence.
        - apply IHl. intros H. apply Hx. now right. }
      now rewrite Hno. }
    rewrite map_app. destruct Hone as [-> | ->]; simpl.
    - split; auto. intros i Hi. apply H2 in Hi. lia.
    - split; [constructor; auto; intros Hk; apply H2 in Hk; lia|]. intros i [<-|Hi]; auto. apply H2 in Hi. lia. }
  apply H.
Qed.
Lemma find_implementer_at S k x : NoDup (map fst S) -> nth_error S k = Some x ->
  find_implementer (Some (fst x)) (map mkpl S) = map mkpl (skipn k S).
Proof.
  revert k. induction S as [|y S IH]; intros k Hnd Hk; [destruct k; discriminate|]. inversion_clear Hnd as [|? ? Hy Hnd'].
  destruct k as [|k]; simpl in *.
  - injection Hk as ->. now rewrite Nat.eqb_refl.
  - destruct (Nat.eqb_spec (fst y) (fst x)) as [He|]; [|auto]. exfalso. apply Hy. rewrite He. apply in_map. eapply nth_error_In; eauto.
Qed.
Lemma find_implementer_none S i : (forall x, In x S -> Some (fst x) <> i) -> find_implementer i (map mkpl S) = [].
Proof.
  induction S as [|y S IH]; intros H; simpl; auto. destruct i as [i|]; [|apply IH; intros; congruence].
  destruct (Nat.eqb_spec (fst y) i) as [He|]; [|apply IH; intros x Hx; apply H; now right]. exfalso. apply (H y); [now left|congruence].
Qed.
Lemma skipn_nth {A} (l : list A) k x : nth_error l k = Some x -> skipn k l = x :: skipn (S k) l.
Proof. revert k. induction l as [|y l IH]; intros [|k] H; simpl in *; try discriminate; [now injection H as ->|]. auto. Qed.

(** the mixin [m] of the chain is found at the position of its listing *)
Lemma sorted_at ms f x : In x (impls E ms f) -> exists k, nth_error (sorted_impls (impls E ms f)) k = Some x.
Proof. intros H. apply (Permutation_in _ (Permutation_sym (sorted_impls_perm _))) in H. now apply In_nth_error. Qed.

(** ** C27 *)
Lemma call_pl_of t f x : In x (impls E (t_mixins t) f) -> call_pl t (mkpl x) = Ok (exec_of x).
Proof.
  intros H. destruct x as [i x]. apply impls_in in H. destruct H as (m & Hm & _). apply nth_error_lt in Hm. unfold call_pl. simpl.
  destruct (Nat.ltb_spec i (length (t_mixins t))); [reflexivity|lia].
Qed.
Lemma not_implementer w d r t f m : WInv E w -> has_type w d r t -> not_foreign w d m ->
  ~ (In m (t_mixins t) /\ exists x, In x (m_features (e_mixin E m)) /\ ff_info x = f) ->
  forall x, In x (impls E (t_mixins t) f) -> Some (fst x) <> index_of t (w_mid w m).
Proof.
  intros HW Ht Hm Hno [i x] Hx He. simpl in He. symmetry in He. apply impls_in in Hx. destruct Hx as (m' & H1 & H2 & H3).
  assert (Hin : In m (t_mixins t)).
  { apply (type_has_spec w d r t m HW Ht Hm). unfold type_has, type_has_id. now rewrite He. }
  apply Hno. split; auto. exists x. split; auto.
  assert (m = m'); [|congruence]. apply In_nth_error in Hin. destruct Hin as [j Hj].
  rewrite (index_of_mixin w d r t j m HW Ht Hj) in He. injection He as <-. congruence.
Qed.
Lemma sorted_tl_none l k x m : nth_error (sorted_impls l) k = Some x -> m = x -> skipn k (sorted_impls l) = x :: skipn (S k) (sorted_impls l).
Proof. intros H _. now apply skipn_nth. Qed.

Lemma next_at t f w d r S e k x m : WInv E w -> has_type w d r t -> ftable_at t (w_fid w f) = Some e -> payloads t e = Ok (map mkpl S) ->
  NoDup (map fst S) -> nth_error S k = Some x -> nth_error (t_mixins t) (fst x) = Some m ->
  find_next_implementer (w_fid w) (w_mid w) t f m = Ok (option_map payload_of (nth_error S (Datatypes.S k))).
Proof.
  intros HW Ht He Hp Hnd Hk Hm. unfold find_next_implementer. rewrite He, Hp. simpl bind.
  rewrite (index_of_mixin w d r t _ m HW Ht Hm), (find_implementer_at S k x Hnd Hk), (skipn_nth S k x Hk). cbn [map].
  destruct (nth_error S (Datatypes.S k)) as [y|] eqn:Hy.
  - rewrite (skipn_nth S _ y Hy). reflexivity.
  - apply nth_error_None in Hy. rewrite skipn_all2 by lia. reflexivity.
Qed.

Lemma c27 tr w d r t f : listed_once E -> run_where E (features_kept E) tr w -> has_type w d r t -> feature_in w d f ->
  exists l, Permutation l (impls E (t_mixins t) f) /\ StronglySorted (fun a b => ~ preferred b a) l /\
    (forall x rest, l = x :: rest -> call_unicast E (w_fid w) t f = Ok (exec_of x)) /\
    (forall k x m, nth_error l k = Some x -> nth_error (t_mixins t) (fst x) = Some m ->
       find_next_implementer (w_fid w) (w_mid w) t f m = Ok (option_map payload_of (nth_error l (S k))) /\
       has_next_impl (w_fid w) (w_mid w) t f m = Ok (S k <? length l) /\
       call_next_impl (w_fid w) (w_mid w) t f m = match nth_error l (S k) with Some y => Ok (exec_of y) | None => Throw ENotImplemented end) /\
    (forall m, not_foreign w d m -> ~ (In m (t_mixins t) /\ exists x, In x (m_features (e_mixin E m)) /\ ff_info x = f) ->
       find_next_implementer (w_fid w) (w_mid w) t f m = Ok None /\ call_next_impl (w_fid w) (w_mid w) t f m = Throw ENotImplemented).
Proof.
  intros Hl H Ht Hf. apply finv_run in H. destruct H as [Hrun HF]. assert (HW := winv_run _ _ _ Hrun).
  exists (sorted_impls (impls E (t_mixins t) f)). split; [apply sorted_impls_perm|]. split; [apply sorted_impls_ordered|].
  destruct (table_spec E w d r t f HW HF Ht Hf) as [[H1 H2]|[H1 (e & H2 & H3 & H4 & H5)]].
  - rewrite H1. unfold call_next_impl, find_next_implementer. rewrite H2. split; [discriminate|]. split; [intros [|k]; discriminate|]. auto.
  - set (S := sorted_impls (impls E (t_mixins t) f)) in *.
    assert (Hnd : NoDup (map fst S)).
    { eapply Permutation_NoDup; [apply Permutation_map, Permutation_sym, sorted_impls_perm|]. now apply impls_fst_nodup. }
    split; [|split].
    + intros x rest Hs. unfold call_unicast. rewrite H2. rewrite <- (Nat.add_0_r (fe_begin e)). apply H5. rewrite Hs. reflexivity.
    + intros k x m Hk Hm. assert (Hn := next_at t f w d r S e k x m HW Ht H2 H3 Hnd Hk Hm). split; auto. split.
      * unfold has_next_impl. rewrite Hn. cbn [bind]. f_equal. destruct (nth_error S (Datatypes.S k)) eqn:Hy.
        -- apply nth_error_lt in Hy. destruct (Nat.ltb_spec (Datatypes.S k) (length S)); [auto|lia].
        -- apply nth_error_None in Hy. destruct (Nat.ltb_spec (Datatypes.S k) (length S)); [lia|auto].
      * unfold call_next_impl. rewrite Hn. cbn [bind]. destruct (nth_error S (Datatypes.S k)) as [y|] eqn:Hy; auto.
        apply (call_pl_of t f). eapply Permutation_in; [apply sorted_impls_perm|]. eapply nth_error_In; eauto.
    + intros m Hm Hno.
      assert (Hn : find_next_implementer (w_fid w) (w_mid w) t f m = Ok None).
      { unfold find_next_implementer. rewrite H2, H3. simpl bind. rewrite find_implementer_none; auto.
        intros x Hx. apply (Permutation_in _ (sorted_impls_perm _)) in Hx. eapply not_implementer; eauto. }
      split; auto. unfold call_next_impl. now rewrite Hn.
Qed.

(** ** C28 *)
Lemma ordered_skipn l k : ordered l -> ordered (skipn k l).
Proof. revert l. induction k as [|k IH]; intros [|x l] H; simpl; auto. inversion_clear H. auto. Qed.
Lemma ordered_bid a l : ordered (a :: l) -> forall y, In y l -> (bid_of y <= bid_of a)%Z.
Proof. intros H y Hy. inversion_clear H as [|? ? _ Hf]. rewrite Forall_forall in Hf. specialize (Hf y Hy). unfold preferred in Hf. lia. Qed.
Lemma skip_bid_filter b l : ordered l -> (forall y, In y l -> (bid_of y <= b)%Z) -> skip_bid b (map mkpl l) = map mkpl (below b l).
Proof.
  induction l as [|x l IH]; intros Ho Hb; simpl; auto. change (ff_bid (snd x)) with (bid_of x).
  assert (Hx := Hb x (or_introl eq_refl)). unfold below. simpl.
  destruct (Z.eqb_spec (bid_of x) b) as [He|Hne].
  - destruct (Z.ltb_spec (bid_of x) b); [lia|]. apply IH; [inversion_clear Ho; auto|]. intros; apply Hb; now right.
  - destruct (Z.ltb_spec (bid_of x) b); [|lia]. simpl. f_equal. rewrite (filter_ext_in _ (fun _ => true)).
    + clear. induction l as [|y l IHl]; simpl; auto. f_equal. auto.
    + intros y Hy. apply Z.ltb_lt. assert (H' := ordered_bid _ _ Ho _ Hy). lia.
Qed.
Lemma take_bid_filter b l : ordered l -> (forall y, In y l -> (bid_of y <= b)%Z) -> take_bid b (map mkpl l) = map mkpl (filter (fun y => Z.eqb (bid_of y) b) l).
Proof.
  induction l as [|x l IH]; intros Ho Hb; simpl; auto. change (ff_bid (snd x)) with (bid_of x).
  assert (Hx := Hb x (or_introl eq_refl)).
  destruct (Z.eqb_spec (bid_of x) b) as [He|Hne].
  - simpl. f_equal. apply IH; [inversion_clear Ho; auto|]. intros; apply Hb; now right.
  - rewrite (filter_ext_in _ (fun _ => false)).
    + clear. induction l as [|y l IHl]; simpl; auto.
    + intros y Hy. apply Z.eqb_neq. assert (H' := ordered_bid _ _ Ho _ Hy). lia.
Qed.
Lemma below_skipn S k x : ordered S -> nth_error S k = Some x -> below (bid_of x) (skipn k S) = below (bid_of x) S.
Proof.
  revert k. induction S as [|y S IH]; intros [|k] Ho Hk; simpl in *; try discriminate; auto.
  assert (Hb := ordered_bid _ _ Ho x (nth_error_In _ _ Hk)). unfold below at 2. simpl. destruct (Z.ltb_spec (bid_of y) (bid_of x)); [lia|].
  apply IH; auto. inversion_clear Ho. auto.
Qed.
Lemma is_top_perm l l' x : Permutation l l' -> is_top l x = is_top l' x.
Proof.
  intros Hp. unfold is_top. apply eq_iff_eq_true. rewrite !forallb_forall. split; intros H y Hy; apply H.
  - eapply Permutation_in; [apply Permutation_sym|]; eauto.
  - eapply Permutation_in; eauto.
Qed.
Lemma next_bidders_perm b l l' : Permutation l l' -> Permutation (next_bidders b l) (next_bidders b l').
Proof.
  intros Hp. unfold next_bidders, top_bidders. assert (Hb : Permutation (below b l) (below b l')) by (now apply Permutation_filter).
  rewrite (Permutation_filter _ _ _ Hb). erewrite filter_ext; [reflexivity|]. intros a. now apply is_top_perm.
Qed.
Lemma top_ordered l : ordered l -> match l with [] => [] | x :: r => x :: filter (fun y => Z.eqb (bid_of y) (bid_of x)) r end = top_bidders l.
Proof.
  intros Ho. destruct l as [|x r]; auto. assert (Hb := ordered_bid _ _ Ho). unfold top_bidders.
  assert (Ht : forall y, In y (x :: r) -> is_top (x :: r) y = Z.eqb (bid_of y) (bid_of x)).
  { intros y Hy. unfold is_top. destruct (Z.eqb_spec (bid_of y) (bid_of x)) as [He|Hne].
    - apply forallb_forall. intros z [<-|Hz]; apply Z.leb_le; [lia|]. rewrite He. auto.
    - apply not_true_is_false. rewrite forallb_forall. intros H. specialize (H x (or_introl eq_refl)). apply Z.leb_le in H.
      destruct Hy as [<-|Hy]; [lia|]. apply Hb in Hy. lia. }
  rewrite (filter_ext_in _ _ _ Ht). simpl. now rewrite Z.eqb_refl.
Qed.
Lemma find_next_set w d r t f S e k x m : WInv E w -> has_type w d r t -> ftable_at t (w_fid w f) = Some e -> payloads t e = Ok (map mkpl S) ->
  NoDup (map fst S) -> ordered S -> nth_error S k = Some x -> nth_error (t_mixins t) (fst x) = Some m ->
  find_next_bidder_set (w_fid w) (w_mid w) t f m = Ok (map mkpl (next_bidders (bid_of x) S)).
Proof.
  intros HW Ht He Hp Hnd Ho Hk Hm. unfold find_next_bidder_set. rewrite He, Hp. simpl bind.
  rewrite (index_of_mixin w d r t _ m HW Ht Hm), (find_implementer_at S k x Hnd Hk).
  assert (Hs := skipn_nth S k x Hk). assert (Hos := ordered_skipn S k Ho). rewrite Hs in *.
  change (match skip_bid (bid_of x) (map mkpl (x :: skipn (Datatypes.S k) S)) with [] => Ok [] | q :: r' => Ok (q :: take_bid (ff_bid (fp_data q)) r') end = Ok (map mkpl (next_bidders (bid_of x) S))).
  rewrite (skip_bid_filter (bid_of x) (x :: skipn (Datatypes.S k) S)); auto.
  2:{ intros y [<-|Hy]; [lia|]. eapply ordered_bid; eauto. }
  rewrite <- Hs, below_skipn by auto. unfold next_bidders. assert (Hob : ordered (below (bid_of x) S)) by (now apply StronglySorted_filter).
  rewrite <- (top_ordered _ Hob). destruct (below (bid_of x) S) as [|y l]; auto. cbn [map]. f_equal. f_equal.
  change (ff_bid (fp_data (mkpl y))) with (bid_of y). apply take_bid_filter; [inversion_clear Hob; auto|]. eapply ordered_bid; eauto.
Qed.
Lemma call_pls_of t f l : (forall x, In x l -> In x (impls E (t_mixins t) f)) -> call_pls t (map mkpl l) = Ok (map exec_of l).
Proof.
  induction l as [|x l IH]; intros H; simpl; auto. rewrite (call_pl_of t f) by (apply H; now left). simpl. rewrite IH; auto. intros y Hy. apply H. now right.
Qed.
Lemma c28 tr w d r t f m : listed_once E -> run_where E (features_kept E) tr w -> has_type w d r t -> feature_in w d f -> not_foreign w d m ->
  (forall i x, nth_error (t_mixins t) i = Some m -> In (i, x) (impls E (t_mixins t) f) ->
     exists l, find_next_bidder_set (w_fid w) (w_mid w) t f m = Ok (map payload_of l) /\
       Permutation l (next_bidders (bid_of (i, x)) (impls E (t_mixins t) f)) /\
       has_next_bidder_set (w_fid w) (w_mid w) t f m = Ok (negb (length l =? 0)) /\
       (l = [] -> call_next_bidder_set (w_fid w) (w_mid w) t f m = Throw ENotImplemented /\
                  call_next_bidder_top (w_fid w) (w_mid w) t f m = Throw ENotImplemented) /\
       (l <> [] -> exists xs last, call_next_bidder_set (w_fid w) (w_mid w) t f m = Ok (map exec_of xs, exec_of last) /\
          call_next_bidder_top (w_fid w) (w_mid w) t f m = Ok (exec_of last) /\
          Permutation xs l /\ StronglySorted executed_before xs /\ (exists ys, xs = ys ++ [last]) /\
          (forall y, In y l -> ~ preferred y last))) /\
  (~ (In m (t_mixins t) /\ exists x, In x (m_features (e_mixin E m)) /\ ff_info x = f) ->
     find_next_bidder_set (w_fid w) (w_mid w) t f m = Ok [] /\ has_next_bidder_set (w_fid w) (w_mid w) t f m = Ok false /\
     call_next_bidder_set (w_fid w) (w_mid w) t f m = Throw ENotImplemented).
Proof.
  intros Hl H Ht Hf Hm. apply finv_run in H. destruct H as [Hrun HF]. assert (HW := winv_run _ _ _ Hrun).
  unfold has_next_bidder_set, call_next_bidder_set, call_next_bidder_top.
  destruct (table_spec E w d r t f HW HF Ht Hf) as [[H1 H2]|[H1 (e & H2 & H3 & H4 & H5)]].
  - rewrite H1. split; [intros i x _ []|]. intros _. unfold find_next_bidder_set. rewrite H2. auto.
  - set (S := sorted_impls (impls E (t_mixins t) f)) in *. assert (Hp : Permutation S (impls E (t_mixins t) f)) by apply sorted_impls_perm.
    assert (Hnd : NoDup (map fst S)).
    { eapply Permutation_NoDup; [apply Permutation_map, Permutation_sym, Hp|]. now apply impls_fst_nodup. }
    split.
    + intros i x Hi Hx. destruct (sorted_at _ _ _ Hx) as [k Hk]. fold S in Hk.
      assert (Hn := find_next_set w d r t f S e k (i, x) m HW Ht H2 H3 Hnd (sorted_impls_ordered _) Hk Hi). rewrite Hn. simpl bind.
      exists (next_bidders (bid_of (i, x)) S). split; auto. split; [now apply next_bidders_perm|].
      assert (Hin : forall y, In y (next_bidders (bid_of (i, x)) S) -> In y (impls E (t_mixins t) f)).
      { intros y Hy. unfold next_bidders, top_bidders, below in Hy. apply filter_In in Hy. destruct Hy as [Hy _]. apply filter_In in Hy. eapply Permutation_in; [exact Hp|tauto]. }
      assert (Ho : ordered (next_bidders (bid_of (i, x)) S)) by (apply StronglySorted_filter, StronglySorted_filter, sorted_impls_ordered).
      assert (Htop : forall y z, In y (next_bidders (bid_of (i, x)) S) -> In z (next_bidders (bid_of (i, x)) S) -> bid_of y = bid_of z).
      { unfold next_bidders, top_bidders. intros y z Hy Hz. apply filter_In in Hy, Hz. destruct Hy as [Hy1 Hy], Hz as [Hz1 Hz].
        unfold is_top in Hy, Hz. rewrite forallb_forall in Hy, Hz. specialize (Hy z Hz1). specialize (Hz y Hy1). apply Z.leb_le in Hy, Hz. lia. }
      destruct (next_bidders (bid_of (i, x)) S) as [|z l] eqn:Hnb; simpl.
      * split; auto. split; auto. congruence.
      * split; auto. split; [discriminate|]. intros _. exists (rev l ++ [z]), z.
        rewrite <- map_rev, (call_pls_of t f). 2:{ intros y Hy. apply Hin. right. now apply in_rev. }
        change (call_pl t _) with (call_pl t (mkpl z)). rewrite (call_pl_of t f z) by (apply Hin; now left). simpl.
        split; [now rewrite map_app|]. split; auto. split; [|split; [|split]].
        -- change (rev l ++ [z]) with (rev (z :: l)). apply Permutation_sym, Permutation_rev.
        -- apply StronglySorted_weak with (R := fun a b => ~ preferred a b).
           ++ intros a b Ha Hb. change (rev l ++ [z]) with (rev (z :: l)) in *. rewrite <- in_rev in Ha, Hb. assert (Heq := Htop a b Ha Hb). unfold preferred, executed_before. lia.
           ++ apply (StronglySorted_rev (fun a b => ~ preferred b a) (z :: l)). auto.
        -- eauto.
        -- intros y [<-|Hy]; [apply preferred_irrefl|]. inversion_clear Ho as [|? ? _ Hf']. rewrite Forall_forall in Hf'. auto.
    + intros Hno.
      assert (Hn : find_next_bidder_set (w_fid w) (w_mid w) t f m = Ok []).
      { unfold find_next_bidder_set. rewrite H2, H3. simpl bind. rewrite find_implementer_none; auto.
        intros x Hx. apply (Permutation_in _ (sorted_impls_perm _)) in Hx. eapply not_implementer; eauto. }
      rewrite Hn. simpl. auto.
Qed.

(** ** C29 *)
Lemma unlisted w d r t f : WInv E w -> FInv E w -> has_type w d r t -> w_fid w f = None -> impls E (t_mixins t) f = [].
Proof.
  intros HW HF Ht Hf. destruct (impls E (t_mixins t) f) as [|[i x] l] eqn:Hi; auto. exfalso.
  assert (Hin : In (i, x) (impls E (t_mixins t) f)) by (rewrite Hi; now left). apply impls_in in Hin. destruct Hin as (m & H1 & H2 & H3).
  assert (Hm := type_mixins E _ _ _ _ HW Ht _ (nth_error_In _ _ H1)). destruct (fi_m _ _ HF m d Hm x H2) as (k & Hk & _). congruence.
Qed.
Lemma c29 tr w d r t f : run_where E (features_kept E) tr w -> has_type w d r t -> feature_in w d f \/ w_fid w f = None ->
  (implements E (w_fid w) t f = true <-> f_default (e_feature E f) <> None \/ impls E (t_mixins t) f <> []) /\
  (impls E (t_mixins t) f = [] ->
     match f_default (e_feature E f) with
     | Some p => call_unicast E (w_fid w) t f = Ok (ExecDefault p) /\ call_multicast E (w_fid w) t f = Ok ([ExecDefault p], ExecDefault p)
     | None => call_unicast E (w_fid w) t f = Throw ENotImplemented /\ call_multicast E (w_fid w) t f = Throw ENotImplemented
     end) /\
  (impls E (t_mixins t) f <> [] ->
     (exists i p, call_unicast E (w_fid w) t f = Ok (ExecImpl i p)) /\
     (exists l i p, call_multicast E (w_fid w) t f = Ok (l, ExecImpl i p) /\ forall x, In x l -> exists i p, x = ExecImpl i p)).
Proof.
  intros H Ht Hf. assert (Hw := H). apply finv_run in H. destruct H as [Hrun HF]. assert (HW := winv_run _ _ _ Hrun).
  assert (Htab : (impls E (t_mixins t) f = [] /\ ftable_at t (w_fid w f) = None) \/ (impls E (t_mixins t) f <> [] /\ ftable_at t (w_fid w f) <> None /\ feature_in w d f)).
  { destruct Hf as [Hf|Hf].
    - destruct (table_spec E w d r t f HW HF Ht Hf) as [?|[H1 (e & H2 & _)]]; [left; auto|right]. split; auto. split; [congruence|auto].
    - left. split; [eapply unlisted; eauto|]. now rewrite Hf. }
  split; [|split].
  - unfold implements, implements_strong. destruct (f_default (e_feature E f)) as [p|].
    + split; auto. intros _. left. discriminate.
    + destruct Htab as [[H1 H2]|[H1 [H2 _]]].
      * rewrite H2. simpl. split; [discriminate|]. intros [[]|?]; congruence.
      * destruct (ftable_at t (w_fid w f)); [|congruence]. simpl. tauto.
  - intros Hno. destruct Htab as [[H1 H2]|[H1 _]]; [|congruence]. unfold call_unicast, call_multicast, try_default. rewrite H2.
    destruct (f_default (e_feature E f)); auto.
  - intros Hne. destruct Htab as [[H1 _]|[_ [_ Hf']]]; [congruence|]. split.
    + destruct (c24 E tr w d r t f Hw Ht Hf' Hne) as (x & Hx & _). unfold exec_of in Hx. eauto.
    + destruct (c25 E tr w d r t f Hw Ht Hf' Hne) as (xs & last & H1 & _ & _ & (l & Hl) & _). exists (map exec_of xs).
      assert (Hall : forall y, In y (map exec_of xs) -> exists i p, y = ExecImpl i p).
      { intros y Hy. apply in_map_iff in Hy. destruct Hy as (z & <- & _). unfold exec_of. eauto. }
      destruct (Hall last) as (i & p & ->); [rewrite Hl; apply in_or_app; simpl; auto|]. eauto 6.
Qed.
(** ** C20 *)
Lemma c20 w d r t : reachable E w -> has_type w d r t ->
  (forall id i, index_of t id = Some i <-> exists m k, id = Some k /\ nth_error (t_mixins t) i = Some m /\ w_mid w m = Some k) /\
  (forall id, type_has_id t id = true <-> exists m k, id = Some k /\ In m (t_mixins t) /\ w_mid w m = Some k) /\
  (forall m, not_foreign w d m -> (type_has (w_mid w) t m = true <-> In m (t_mixins t)) /\ (type_lacks (w_mid w) t m = true <-> ~ In m (t_mixins t))).
Proof.
  intros Hw Ht. assert (HW := winv_reachable _ _ Hw). split; [intros; eapply index_of_spec; eauto|]. split.
  - intros id. unfold type_has_id. destruct (index_of t id) as [i|] eqn:Hi; simpl.
    + split; auto. intros _. apply (index_of_spec w d r t) in Hi; auto. destruct Hi as (m & k & A & B & C). exists m, k. split; auto. split; auto. eapply nth_error_In; eauto.
    + split; [discriminate|]. intros (m & k & -> & B & C). apply In_nth_error in B. destruct B as [i B].
      assert (X : index_of t (Some k) = Some i) by (apply (index_of_spec w d r t); eauto). congruence.
  - intros m Hm. assert (H := type_has_spec w d r t m HW Ht Hm). split; auto. unfold type_lacks. rewrite <- H. destruct (type_has (w_mid w) t m); simpl; split; intros; auto; congruence.
Qed.
Lemma c20_name t nm :
  (forall i, index_of_name E t nm = Some i <-> exists m, nth_error (t_mixins t) i = Some m /\ sv_bytes (m_name (e_mixin E m)) = nm /\
     forall j m', j < i -> nth_error (t_mixins t) j = Some m' -> sv_bytes (m_name (e_mixin E m')) <> nm) /\
  (type_has_name E t nm = true <-> exists m, In m (t_mixins t) /\ sv_bytes (m_name (e_mixin E m)) = nm).
Proof.
  split.
  - intros i. unfold index_of_name. rewrite index_of_name_spec. split.
    + intros (j & m & -> & H). exists m. auto.
    + intros (m & H). exists i, m. split; auto.
  - unfold type_has_name, index_of_name. destruct (index_of_name_from E nm (t_mixins t) 0) as [i|] eqn:Hi; simpl.
    + split; auto. intros _. apply index_of_name_spec in Hi. destruct Hi as (j & m & _ & A & B & _). exists m. split; auto. eapply nth_error_In; eauto.
    + split; [discriminate|]. intros (m & A & B). exfalso. apply (proj1 (index_of_name_none _ _ _) Hi m A B).
Qed.
End M.
