(** Next implementers and bidders when a mixin may list a feature more than once *)
From Coq Require Import List Arith ZArith NArith Lia Bool Permutation Sorted.
From Verif Require Import Base Sv BaseLemmas Info Registry TypeMut Rules TypeBuild TypeBuildProofs LayoutProofs ElemProofs TypeQuery Msg MixinInfo Domain SpecReg SpecDom SpecMsg SpecNext HistProofs TypesProofs FtableProofs DomTheorems MsgProofs MsgProofs2.
Import ListNotations.
Section Next.
Variable E : env.
Lemma find_first l k x : first_of l k x -> find_implementer (Some (fst x)) (map mkpl l) = map mkpl (skipn k l).
Proof.
  revert k. induction l as [|y l IH]; intros k [Hk Hj]; [destruct k; discriminate|]. destruct k as [|k]; simpl in *.
  - injection Hk as ->. now rewrite Nat.eqb_refl.
  - destruct (Nat.eqb_spec (fst y) (fst x)) as [He|]; [exfalso; exact (Hj 0 y (Nat.lt_0_succ _) eq_refl He)|]. apply IH. split; auto. intros j z Hlt. apply (Hj (S j)). lia.
Qed.
Lemma next_impl_exact tr w d r t f : run_where E (features_kept E) tr w -> has_type w d r t -> feature_in w d f ->
  exists l, Permutation l (impls E (t_mixins t) f) /\ StronglySorted (fun a b => ~ preferred b a) l /\
    (forall x rest, l = x :: rest -> call_unicast E (w_fid w) t f = Ok (exec_of x)) /\
    (forall k x m, first_of l k x -> nth_error (t_mixins t) (fst x) = Some m ->
       find_next_implementer (w_fid w) (w_mid w) t f m = Ok (option_map payload_of (nth_error l (S k))) /\
       has_next_impl (w_fid w) (w_mid w) t f m = Ok (S k <? length l) /\
       call_next_impl (w_fid w) (w_mid w) t f m = match nth_error l (S k) with Some y => Ok (exec_of y) | None => Throw ENotImplemented end) /\
    (forall k x m, first_of l k x -> nth_error (t_mixins t) (fst x) = Some m ->
       exists n, find_next_bidder_set (w_fid w) (w_mid w) t f m = Ok (map payload_of n) /\ Permutation n (next_bidders (bid_of x) (impls E (t_mixins t) f)) /\ StronglySorted (fun a b => ~ preferred b a) n).
Proof.
  intros H Ht Hf. apply finv_run in H. destruct H as [Hrun HF]. assert (HW := winv_run _ _ _ Hrun).
  exists (sorted_impls (impls E (t_mixins t) f)). split; [apply sorted_impls_perm|]. split; [apply sorted_impls_ordered|].
  destruct (table_spec E w d r t f HW HF Ht Hf) as [[H1 H2]|[H1 (e & H2 & H3 & H4 & H5)]].
  - rewrite H1. split; [discriminate|]. split; intros [|k] x m [Hk _]; discriminate.
  - set (S := sorted_impls (impls E (t_mixins t) f)) in *. split; [|split].
    + intros x rest Hs. unfold call_unicast. rewrite H2. rewrite <- (Nat.add_0_r (fe_begin e)). apply H5. rewrite Hs. reflexivity.
    + intros k x m Hk Hm. assert (Hn : find_next_implementer (w_fid w) (w_mid w) t f m = Ok (option_map payload_of (nth_error S (Datatypes.S k)))).
      { unfold find_next_implementer. rewrite H2, H3. simpl bind. rewrite (index_of_mixin E w d r t _ m HW Ht Hm), (find_first S k x Hk), (skipn_nth S k x (proj1 Hk)). cbn [map].
        destruct (nth_error S (Datatypes.S k)) as [y|] eqn:Hy; [rewrite (skipn_nth S _ y Hy); reflexivity|apply nth_error_None in Hy; rewrite skipn_all2 by lia; reflexivity]. }
      split; auto. split.
      * unfold has_next_impl. rewrite Hn. cbn [bind]. f_equal. destruct (nth_error S (Datatypes.S k)) eqn:Hy.
        -- apply nth_error_lt in Hy. destruct (Nat.ltb_spec (Datatypes.S k) (length S)); [auto|lia].
        -- apply nth_error_None in Hy. destruct (Nat.ltb_spec (Datatypes.S k) (length S)); [lia|auto].
      * unfold call_next_impl. rewrite Hn. cbn [bind]. destruct (nth_error S (Datatypes.S k)) as [y|] eqn:Hy; auto.
        apply (call_pl_of E t f). eapply Permutation_in; [apply sorted_impls_perm|]. eapply nth_error_In; eauto.
    + intros k x m Hk Hm. assert (Ho : ordered S) by apply sorted_impls_ordered. exists (next_bidders (bid_of x) S). split; [|split; [apply next_bidders_perm, sorted_impls_perm|now apply StronglySorted_filter, StronglySorted_filter]].
      unfold find_next_bidder_set. rewrite H2, H3. simpl bind. rewrite (index_of_mixin E w d r t _ m HW Ht Hm), (find_first S k x Hk). pose proof (proj1 Hk) as Hk1. clear Hk. rename Hk1 into Hk.
      assert (Hs := skipn_nth S k x Hk). assert (Hos := ordered_skipn S k Ho). rewrite Hs in *.
      change (match skip_bid (bid_of x) (map mkpl (x :: skipn (Datatypes.S k) S)) with [] => Ok [] | q :: r' => Ok (q :: take_bid (ff_bid (fp_data q)) r') end = Ok (map mkpl (next_bidders (bid_of x) S))).
      rewrite (skip_bid_filter (bid_of x) (x :: skipn (Datatypes.S k) S)); auto.
      2:{ intros y [<-|Hy]; [lia|]. eapply ordered_bid; eauto. }
      rewrite <- Hs, below_skipn by auto. unfold next_bidders. assert (Hob : ordered (below (bid_of x) S)) by (now apply StronglySorted_filter).
      rewrite <- (top_ordered _ Hob). destruct (below (bid_of x) S) as [|y l]; auto. cbn [map]. f_equal. f_equal.
      change (ff_bid (fp_data (mkpl y))) with (bid_of y). apply take_bid_filter; [inversion_clear Hob; auto|]. eapply ordered_bid; eauto.
Qed.

Lemma first_upto (l : list (nat * ffm)) k y : nth_error l k = Some y -> exists k' x, k' <= k /\ first_of l k' x /\ fst x = fst y.
Proof.
  revert k. induction l as [|z l IH]; intros k Hk; [destruct k; discriminate|]. destruct (Nat.eq_dec (fst z) (fst y)) as [He|Hne].
  - exists 0, z. split; [lia|]. split; [split; [reflexivity|intros j q Hj; lia]|exact He].
  - destruct k as [|k]; [cbn in Hk; injection Hk as ->; congruence|]. destruct (IH k Hk) as (k' & x & Hle & [A B] & C). exists (S k'), x. split; [lia|]. split; [|exact C].
    split; [exact A|]. intros [|j] q Hj Hq; [cbn in Hq; injection Hq as <-; congruence|]. apply (B j); [lia|exact Hq].
Qed.
Lemma twice_or_once (l : list nat) : NoDup l \/ exists i j x, i < j /\ nth_error l i = Some x /\ nth_error l j = Some x.
Proof.
  induction l as [|x l [IH|(i & j & y & A & B & C)]]; [left; constructor| |right; exists (S i), (S j), y; split; [lia|auto]].
  destruct (in_dec Nat.eq_dec x l) as [Hin|Hin]; [right|left; now constructor]. destruct (In_nth_error _ _ Hin) as (j & Hj). exists 0, (S j), x. split; [lia|auto].
Qed.
Lemma once_first (l : list (nat * ffm)) k x : NoDup (map fst l) -> nth_error l k = Some x -> first_of l k x.
Proof.
  intros Hd Hk. split; [exact Hk|]. intros j y Hj Hy He. apply (NoDup_nth_error (map fst l)) with (i := j) (j := k) in Hd; [lia| |].
  - rewrite map_length. now apply nth_error_lt in Hy.
  - rewrite !nth_error_map, Hy, Hk. simpl. now rewrite He.
Qed.
Lemma chain_exact tr w d r t f : run_where E (features_kept E) tr w -> has_type w d r t -> feature_in w d f -> impls E (t_mixins t) f <> [] ->
  (NoDup (map fst (impls E (t_mixins t) f)) -> exists l, Permutation l (impls E (t_mixins t) f) /\ StronglySorted (fun a b => ~ preferred b a) l /\
     (forall n x, nth_error l n = Some x -> chain E (w_fid w) (w_mid w) t f n = Ok (exec_of x)) /\ chain E (w_fid w) (w_mid w) t f (length l) = Throw ENotImplemented) /\
  (~ NoDup (map fst (impls E (t_mixins t) f)) -> forall n, exists x, In x (impls E (t_mixins t) f) /\ chain E (w_fid w) (w_mid w) t f n = Ok (exec_of x)).
Proof.
  intros H Ht Hf Hne. destruct (next_impl_exact tr w d r t f H Ht Hf) as (l & Hp & Ho & Hu & Hn & _).
  assert (Hm : forall k x, nth_error l k = Some x -> exists m, nth_error (t_mixins t) (fst x) = Some m).
  { intros k [i x] Hk. apply nth_error_In in Hk. apply (Permutation_in _ Hp) in Hk. apply impls_in in Hk. destruct Hk as (m & Hm & _). now exists m. }
  assert (Hstep : forall n k k' x y, chain E (w_fid w) (w_mid w) t f n = Ok (exec_of y) -> nth_error l k = Some y -> first_of l k' x -> fst x = fst y ->
    chain E (w_fid w) (w_mid w) t f (S n) = match nth_error l (S k') with Some z => Ok (exec_of z) | None => Throw ENotImplemented end).
  { intros n k k' x y Hc Hk Hk' He. cbn [chain]. rewrite Hc. unfold exec_of at 1. rewrite <- He. destruct (Hm k' x (proj1 Hk')) as (m & Hmm). rewrite Hmm. apply (Hn k' x m Hk' Hmm). }
  split.
  - intros Hd. exists l. split; [exact Hp|]. split; [exact Ho|]. assert (Hdl : NoDup (map fst l)) by (eapply Permutation_NoDup; [apply Permutation_map, Permutation_sym, Hp|exact Hd]).
    assert (Hall : forall n x, nth_error l n = Some x -> chain E (w_fid w) (w_mid w) t f n = Ok (exec_of x)).
    { induction n as [|n IH]; intros x Hx.
      - destruct l as [|y l']; [discriminate|]. cbn in Hx. injection Hx as ->. exact (Hu x l' eq_refl).
      - destruct (nth_error l n) as [y|] eqn:Hy; [|apply nth_error_None in Hy; apply nth_error_lt in Hx; lia].
        rewrite (Hstep n n n y y (IH y eq_refl) Hy (once_first l n y Hdl Hy) eq_refl), Hx. reflexivity. }
    split; [exact Hall|]. destruct (length l) as [|n] eqn:Hl.
    { exfalso. destruct l; [|discriminate]. apply Permutation_nil in Hp. contradiction. }
    destruct (nth_error l n) as [y|] eqn:Hy; [|apply nth_error_None in Hy; lia].
    rewrite (Hstep n n n y y (Hall n y Hy) Hy (once_first l n y Hdl Hy) eq_refl). replace (nth_error l (S n)) with (@None (nat * ffm)); [reflexivity|]. symmetry. apply nth_error_None. lia.
  - intros Hd. destruct (twice_or_once (map fst l)) as [Hdl|(i & j & v & Hij & Hi & Hj)].
    { exfalso. apply Hd. eapply Permutation_NoDup; [apply Permutation_map, Hp|exact Hdl]. }
    rewrite nth_error_map in Hi, Hj. destruct (nth_error l i) as [a|] eqn:Ha; [|discriminate]. destruct (nth_error l j) as [b|] eqn:Hb; [|discriminate]. cbn in Hi, Hj. injection Hi as Hi. injection Hj as Hj.
    assert (Hall : forall n, exists k x, k <= j /\ nth_error l k = Some x /\ chain E (w_fid w) (w_mid w) t f n = Ok (exec_of x)).
    { induction n as [|n (k & y & Hkj & Hk & Hc)].
      - destruct l as [|y l'] eqn:Hl; [destruct i; discriminate|]. exists 0, y. split; [lia|]. split; [reflexivity|]. exact (Hu y l' eq_refl).
      - assert (Hfst : exists k' x, k' < j /\ first_of l k' x /\ fst x = fst y).
        { destruct (Nat.eq_dec k j) as [->|Hkne].
          - rewrite Hb in Hk. injection Hk as <-. destruct (first_upto l i a Ha) as (k' & x & A & B & C). exists k', x. split; [lia|]. split; [exact B|]. congruence.
          - destruct (first_upto l k y Hk) as (k' & x & A & B & C). exists k', x. split; [lia|]. split; assumption. }
        destruct Hfst as (k' & x & A & B & C). assert (Hlt := nth_error_lt _ _ _ Hb). destruct (nth_error l (S k')) as [z|] eqn:Hz; [|apply nth_error_None in Hz; lia].
        exists (S k'), z. split; [lia|]. split; [exact Hz|]. rewrite (Hstep n k k' x y Hc Hk B C), Hz. reflexivity. }
    intros n. destruct (Hall n) as (k & x & _ & Hk & Hc). exists x. split; [|exact Hc]. eapply Permutation_in; [exact Hp|]. eapply nth_error_In; exact Hk.
Qed.
Lemma next_none tr w d r t f m : run_where E (features_kept E) tr w -> has_type w d r t -> feature_in w d f -> not_foreign w d m ->
  ~ (In m (t_mixins t) /\ exists x, In x (m_features (e_mixin E m)) /\ ff_info x = f) ->
  find_next_implementer (w_fid w) (w_mid w) t f m = Ok None /\ call_next_impl (w_fid w) (w_mid w) t f m = Throw ENotImplemented /\
  find_next_bidder_set (w_fid w) (w_mid w) t f m = Ok [] /\ call_next_bidder_set (w_fid w) (w_mid w) t f m = Throw ENotImplemented.
Proof.
  intros H Ht Hf Hm Hno. apply finv_run in H. destruct H as [Hrun HF]. assert (HW := winv_run _ _ _ Hrun).
  assert (Hn : find_next_implementer (w_fid w) (w_mid w) t f m = Ok None /\ find_next_bidder_set (w_fid w) (w_mid w) t f m = Ok []).
  { unfold find_next_implementer, find_next_bidder_set. destruct (table_spec E w d r t f HW HF Ht Hf) as [[H1 H2]|[H1 (e & H2 & H3 & H4 & H5)]]; rewrite H2; [auto|]. rewrite H3. simpl bind.
    rewrite find_implementer_none; auto. intros x Hx. apply (Permutation_in _ (sorted_impls_perm _)) in Hx. eapply not_implementer; eauto. }
  destruct Hn as [Hn1 Hn2]. unfold call_next_impl, call_next_bidder_set. rewrite Hn1, Hn2. auto.
Qed.
End Next.
