(** The invariant of the type registries over all runs *)
From Coq Require Import List Arith ZArith NArith Lia Bool.
From Verif Require Import Base Sv Info Registry TypeMut Rules TypeBuild TypeQuery Domain
  BaseLemmas SvProofs RegistryProofs TypeBuildProofs LayoutProofs ElemProofs.
Import ListNotations.

(** ** Keys *)
Lemma lex_less_total a : forall b, length a = length b -> lex_less a b = false -> lex_less b a = false -> a = b.
Proof.
  induction a as [|x a IH]; intros [|y b]; simpl; try discriminate; auto.
  intros Hl. destruct (Nat.ltb_spec x y); [discriminate|]. destruct (Nat.ltb_spec y x); [discriminate|].
  intros H1 H2. f_equal; [lia|]. apply IH; auto.
Qed.
Lemma lex_less_irrefl a : lex_less a a = false.
Proof. induction a; simpl; auto. now rewrite Nat.ltb_irrefl. Qed.
Lemma span_equiv_spec a b : reflect (a = b) (span_equiv a b).
Proof.
  apply iff_reflect. unfold span_equiv, span_less. destruct (Nat.eqb_spec (length a) (length b)) as [Hl|Hl]; simpl.
  - rewrite <- Hl, Nat.eqb_refl. simpl. split.
    + intros <-. now rewrite lex_less_irrefl.
    + intros H. apply andb_true_iff in H. rewrite !negb_true_iff in H. now apply lex_less_total.
  - destruct (Nat.eqb_spec (length b) (length a)); [lia|]. simpl. split; [congruence|].
    destruct (Nat.ltb_spec (length a) (length b)); simpl; [discriminate|].
    destruct (Nat.ltb_spec (length b) (length a)); simpl; [discriminate|lia].
Qed.
Lemma tref_eqb_spec a b : reflect (a = b) (tref_eqb a b).
Proof.
  destruct a as [x|x], b as [y|y]; simpl; try (constructor; congruence);
  destruct (Nat.eqb_spec x y); constructor; congruence.
Qed.

Lemma find_query_some q qs r : find_query q qs = Some r -> In (q, r) qs.
Proof.
  induction qs as [|[k t] qs IH]; simpl; [discriminate|]. destruct (span_equiv_spec k q) as [->|]; auto.
  intros [= ->]. auto.
Qed.
Lemma find_query_none q qs : find_query q qs = None <-> ~ In q (map fst qs).
Proof.
  induction qs as [|[k t] qs IH]; simpl; [tauto|]. destruct (span_equiv_spec k q) as [->|Hn].
  - split; [discriminate|]. intros H. exfalso. auto.
  - rewrite IH. split; [intros H [H'|H']; auto|tauto].
Qed.
Lemma find_query_in q qs r : NoDup (map fst qs) -> In (q, r) qs -> find_query q qs = Some r.
Proof.
  induction qs as [|[k t] qs IH]; simpl; [tauto|]. intros Hnd Hin. inversion_clear Hnd as [|? ? H1 H2].
  destruct (span_equiv_spec k q) as [->|Hn].
  - destruct Hin as [[= ->]|Hin]; auto. exfalso. apply H1. now apply (in_map fst) in Hin.
  - destruct Hin as [[= -> ->]|Hin]; [congruence|auto].
Qed.
Lemma store_query_in q t qs k x : In (k, x) (store_query q t qs) -> (k = q /\ x = t) \/ In (k, x) qs.
Proof.
  induction qs as [|[k' t'] qs IH]; simpl.
  - intros [[= -> ->]|[]]. auto.
  - destruct (span_equiv_spec k' q) as [->|Hn]; simpl.
    + intros [[= -> ->]|H]; auto.
    + intros [[= -> ->]|H]; auto. destruct (IH H); auto.
Qed.
Lemma store_query_keys q t qs : find_query q qs = None -> store_query q t qs = qs ++ [(q, t)].
Proof.
  induction qs as [|[k x] qs IH]; simpl; auto. destruct (span_equiv k q); [discriminate|]. intros H. now rewrite IH.
Qed.
Lemma store_query_map q t qs : map fst (store_query q t qs) = map fst qs \/ (~ In q (map fst qs) /\ map fst (store_query q t qs) = map fst qs ++ [q]).
Proof.
  induction qs as [|[k x] qs IH]; simpl; auto. destruct (span_equiv_spec k q) as [->|Hn]; simpl; auto.
  destruct IH as [->|[H1 ->]]; auto. right. split; auto. intros [H|H]; auto.
Qed.
Lemma NoDup_snoc {A} (l : list A) x : NoDup l -> ~ In x l -> NoDup (l ++ [x]).
Proof.
  intros Hnd Hx. induction l as [|y l IH]; simpl; [constructor; auto; constructor|].
  inversion_clear Hnd as [|? ? H1 H2]. constructor.
  - rewrite in_app_iff. simpl. intros [H|[->|[]]]; [auto|]. apply Hx. simpl. auto.
  - apply IH; auto. intros H. apply Hx. simpl. auto.
Qed.
Lemma store_query_nodup q t qs : NoDup (map fst qs) -> NoDup (map fst (store_query q t qs)).
Proof.
  intros H. destruct (store_query_map q t qs) as [->|[H1 ->]]; auto. now apply NoDup_snoc.
Qed.
Lemma find_query_store q t qs k : find_query k (store_query q t qs) = if span_equiv q k then Some t else find_query k qs.
Proof.
  induction qs as [|[k' t'] qs IH]; simpl; auto.
  destruct (span_equiv_spec k' q) as [->|Hn]; simpl.
  - destruct (span_equiv q k); auto.
  - rewrite IH. destruct (span_equiv_spec k' k) as [->|]; auto.
    destruct (span_equiv_spec q k); congruence.
Qed.

Lemma find_type_some w ms ts r : find_type w ms ts = Some r -> In r ts /\ exists t, w_type w r = Some t /\ t_mixins t = ms.
Proof.
  induction ts as [|x ts IH]; simpl; [discriminate|]. destruct (w_type w x) as [t|] eqn:Ht.
  - destruct (span_equiv_spec (t_mixins t) ms) as [He|Hn].
    + intros [= ->]. eauto.
    + intros H. destruct (IH H). auto.
  - intros H. destruct (IH H). auto.
Qed.
Lemma find_type_none w ms ts r t : find_type w ms ts = None -> In r ts -> w_type w r = Some t -> t_mixins t <> ms.
Proof.
  induction ts as [|x ts IH]; simpl; [tauto|]. intros H [->|Hin] Ht.
  - rewrite Ht in H. destruct (span_equiv_spec (t_mixins t) ms); congruence.
  - destruct (w_type w x); auto. destruct (span_equiv _ _); [discriminate|auto].
Qed.

(** ** Rules store the query they were asked *)
Lemma rules_loop_query E lk rules : forall fuel i orig last cur oq ms,
  rules_loop E fuel i lk rules orig last cur = Ok (oq, ms) -> oq = if i =? 0 then last else orig.
Proof.
  induction fuel as [|fuel IH]; intros i orig last cur oq ms; simpl; [discriminate|].
  destruct (apply_pass E lk rules cur) as [cur'|e|u]; simpl; try discriminate.
  destruct (list_eqb last cur').
  - intros [= <- _]. auto.
  - destruct (_ || _); [discriminate|]. intros H. apply IH in H. simpl in H. auto.
Qed.
Lemma apply_rules_query E lk rules q oq ms : apply_rules E lk rules q = Ok (oq, ms) -> oq = q.
Proof. intros H. apply rules_loop_query in H. auto. Qed.

Section Types.
Variable E : env.

(** what the sparse array says *)
Definition sparse_ok (mid : mptr -> option nat) (l : list mptr) (sp : list (option nat)) : Prop :=
  (forall i m k, nth_error l i = Some m -> mid m = Some k -> nth_error sp k = Some (Some i)) /\
  (forall k, (forall m, In m l -> mid m <> Some k) -> nth_error sp k = Some None \/ nth_error sp k = None).

Definition type_ok (w : world) (d : dptr) (t : type_rec) : Prop :=
  t_dom t = d /\ t_mixins t <> [] /\ NoDup (t_mixins t) /\
  (forall m, In m (t_mixins t) -> w_mdom w m = Some d) /\
  sparse_ok (w_mid w) (t_mixins t) (t_sparse t) /\
  layout E (t_mixins t) = Ok (t_offsets t, t_buf_size t, t_buf_align t).

Record TInv (w : world) : Prop := {
  ti_types : forall d r, In r (d_types (w_dom w d)) ->
    exists n t, r = TReg n /\ n < w_next w /\ w_type w r = Some t /\ type_ok w d t;
  ti_alive : forall n t, w_type w (TReg n) = Some t -> In (TReg n) (d_types (w_dom w (t_dom t)));
  ti_empty : forall d, exists k, w_type w (TEmpty d) = Some (set_nobj (empty_type d) k);
  ti_nodup : forall d, NoDup (d_types (w_dom w d));
  ti_uniq : forall d r r' t t', In r (d_types (w_dom w d)) -> In r' (d_types (w_dom w d)) ->
    w_type w r = Some t -> w_type w r' = Some t' -> t_mixins t = t_mixins t' -> r = r';
  ti_queries : forall d q r, In (q, r) (d_queries (w_dom w d)) -> r = TEmpty d \/ In r (d_types (w_dom w d));
  ti_keys : forall d, NoDup (map fst (d_queries (w_dom w d)))
}.

Lemma sparse_ok_ext mid mid' l sp : (forall m, In m l -> mid' m = mid m) -> sparse_ok mid l sp -> sparse_ok mid' l sp.
Proof.
  intros He [H1 H2]. split.
  - intros i m k Hi Hk. apply (H1 i m); auto. rewrite <- He; auto. eapply nth_error_In; eauto.
  - intros k Hk. apply H2. intros m Hin. rewrite <- He; auto.
Qed.
Lemma type_ok_mono w w' d t :
  (forall m, w_mdom w m = Some d -> In m (t_mixins t) -> w_mdom w' m = Some d /\ w_mid w' m = w_mid w m) -> type_ok w d t -> type_ok w' d t.
Proof.
  intros H (A1 & A2 & A3 & A4 & A5 & A6). split; auto. split; auto. split; auto. split; [|split; auto].
  - intros m Hin. apply H; auto.
  - eapply sparse_ok_ext; [|eauto]. intros m Hin. apply H; auto.
Qed.
Lemma sparse_ok_index mid l sp k : sparse_ok mid l sp ->
  match nth_error sp k with
  | Some (Some i) => exists m, nth_error l i = Some m /\ mid m = Some k
  | _ => forall m, In m l -> mid m <> Some k
  end.
Proof.
  intros [H1 H2].
  destruct (existsb (fun m => opt_eqb (mid m) (Some k)) l) eqn:Hex.
  - apply existsb_exists in Hex. destruct Hex as (m & Hin & Hm). destruct (opt_eqb_spec (mid m) (Some k)); [|discriminate].
    apply In_nth_error in Hin. destruct Hin as [i Hi]. rewrite (H1 i m k); eauto.
  - assert (Hno : forall m, In m l -> mid m <> Some k).
    { intros m Hin Hm. assert (existsb (fun m => opt_eqb (mid m) (Some k)) l = true); [|congruence].
      apply existsb_exists. exists m. split; auto. rewrite Hm. simpl. apply Nat.eqb_refl. }
    destruct (H2 k Hno) as [-> | ->]; auto.
Qed.
Lemma type_has_id_spec w d t id : type_ok w d t -> type_has_id t id = true <-> exists m, In m (t_mixins t) /\ w_mid w m = id /\ id <> None.
Proof.
  intros (A1 & A2 & A3 & A4 & A5 & A6). unfold type_has_id, index_of. destruct id as [k|]; simpl.
  - assert (H := sparse_ok_index _ _ _ k A5). destruct (nth_error (t_sparse t) k) as [[i|]|]; simpl.
    + destruct H as (m & H1 & H2). split; auto. intros _. exists m. split; [eapply nth_error_In; eauto|]. split; congruence.
    + split; [discriminate|]. intros (m & H1 & H2 & _). exfalso. eapply H; eauto.
    + split; [discriminate|]. intros (m & H1 & H2 & _). exfalso. eapply H; eauto.
  - split; [discriminate|]. intros (m & _ & _ & H). congruence.
Qed.
(** for a mixin of the domain, having its id is having it *)
Lemma type_has_id_mixin w d t m : EInv E w -> type_ok w d t -> w_mdom w m = Some d ->
  type_has_id t (w_mid w m) = true <-> In m (t_mixins t).
Proof.
  intros HE Hok Hm. rewrite type_has_id_spec by eauto. destruct (ei_m2 _ _ HE _ _ Hm) as (i & Hi & Hn). split.
  - intros (m' & H1 & H2 & H3). destruct Hok as (A1 & A2 & A3 & A4 & A5).
    destruct (ei_m2 _ _ HE _ _ (A4 _ H1)) as (i' & Hi' & Hn'). assert (i = i') by congruence. subst. congruence.
  - intros Hin. exists m. split; auto. split; auto. congruence.
Qed.

Lemma tinv_init : TInv (init_world E).
Proof.
  constructor; simpl; try tauto; try discriminate.
  - intros d. exists 0. reflexivity.
  - constructor.
  - constructor.
Qed.

Lemma tinv_fresh w n : TInv w -> w_next w <= n -> w_type w (TReg n) = None.
Proof.
  intros H Hn. destruct (w_type w (TReg n)) as [t|] eqn:Ht; auto. apply (ti_alive _ H) in Ht.
  destruct (ti_types _ H _ _ Ht) as (n' & t' & [= <-] & Hlt & _). lia.
Qed.

(** changes that keep the types *)
Lemma tinv_same w w' :
  w_type w' = w_type w -> w_next w' = w_next w ->
  (forall d, d_types (w_dom w' d) = d_types (w_dom w d)) ->
  (forall d, d_queries (w_dom w' d) = d_queries (w_dom w d) \/ d_queries (w_dom w' d) = []) ->
  (forall d r t m, In r (d_types (w_dom w d)) -> w_type w r = Some t -> In m (t_mixins t) ->
     w_mdom w m = Some d -> w_mdom w' m = Some d /\ w_mid w' m = w_mid w m) ->
  TInv w -> TInv w'.
Proof.
  intros H1 H2 H3 H4 H5 [A1 A2 A3 A4 A5 A6 A7]. constructor; rewrite ?H1, ?H2.
  - intros d r. rewrite H3. intros Hin. destruct (A1 _ _ Hin) as (n & t & B1 & B2 & B3 & B4).
    exists n, t. split; auto. split; auto. split; auto. eapply type_ok_mono; [|eauto].
    intros m Hm Hmin. eapply H5; eauto.
  - intros n t Ht. rewrite H3. auto.
  - auto.
  - intros d. rewrite H3. auto.
  - intros d r r' t t'. rewrite H3. eauto.
  - intros d q r. rewrite H3. destruct (H4 d) as [-> | ->]; [eauto|simpl; tauto].
  - intros d. destruct (H4 d) as [-> | ->]; [eauto|constructor].
Qed.

Lemma tinv_only_features w w' : only_features w w' -> TInv w -> TInv w'.
Proof.
  intros (H1 & H2 & H3 & H4 & H5). apply tinv_same; auto; try (intros d; destruct (H5 d); tauto).
  intros. rewrite H1, H2. auto.
Qed.

Lemma tinv_register_mixin w d m w' r : EInv E w -> TInv w -> register_mixin E w d m = (w', r) -> TInv w'.
Proof.
  intros HE HT. unfold register_mixin.
  destruct (match w_mdom w m with Some d' => negb (d' =? d) | None => false end); [now intros [= <- <-]|].
  assert (Ho := register_features_of_only E (m_features (e_mixin E m)) w d).
  assert (HE1 := einv_register_features_of E (m_features (e_mixin E m)) w d HE).
  destruct (register_features_of E w d (m_features (e_mixin E m))) as [w1 [[]|e|u]]; simpl in *;
    apply tinv_only_features in Ho; auto; try (intros [= <- <-]; auto; fail).
  destruct (basic_register _ _ _ _ _) as [[sp id]|e|u] eqn:Hb; intros [= <- <-]; auto.
  assert (Hok : reg_ok (w_mid w1) (d_mixins (w_dom w1 d))) by (intros i p Hp; now apply (ei_m1 _ _ HE1) in Hp).
  destruct (basic_register_ok _ _ _ _ _ _ _ Hok Hb) as (B1 & _).
  eapply tinv_same; [..|exact Ho]; simpl; auto.
  - intros d2. unfold upd. destruct (Nat.eqb_spec d2 d) as [->|]; auto.
  - intros d2. unfold upd. destruct (Nat.eqb_spec d2 d) as [->|]; auto.
  - intros d2 r t m2 _ _ _ Hm. assert (m2 <> m). { intros ->. destruct (ei_m2 _ _ HE1 _ _ Hm) as (i & Hi & _). congruence. }
    rewrite !upd_other; auto.
Qed.

Lemma free_types_spec f dead r : free_types f dead r = if existsb (tref_eqb r) dead then None else f r.
Proof. reflexivity. Qed.
Lemma existsb_tref r l : reflect (In r l) (existsb (tref_eqb r) l).
Proof.
  induction l as [|x l IH]; simpl; [constructor; auto|].
  destruct (tref_eqb_spec r x) as [->|Hn]; simpl; [constructor; auto|].
  destruct IH; constructor; [tauto|]. intros [H|H]; [congruence|tauto].
Qed.

Lemma NoDup_map_filter {A B} (f : A -> B) (p : A -> bool) l : NoDup (map f l) -> NoDup (map f (filter p l)).
Proof.
  induction l as [|x l IH]; simpl; auto. intros Hk. inversion_clear Hk as [|? ? Hx Hl]. destruct (p x); simpl; auto. constructor; auto.
  intros Hin. apply Hx. apply in_map_iff in Hin. destruct Hin as (y & Hy & Hin). apply filter_In in Hin.
  apply in_map_iff. exists y. tauto.
Qed.
(** removing some types of a domain together with the queries leading to them *)
Lemma tinv_drop w d (keep : tref -> bool) (keepq : list mptr * tref -> bool) w' :
  TInv w ->
  w_mid w' = w_mid w -> w_mdom w' = w_mdom w -> w_next w' = w_next w ->
  w_dom w' = upd (w_dom w) d (with_types (w_dom w d) (filter keep (d_types (w_dom w d))) (filter keepq (d_queries (w_dom w d)))) ->
  w_type w' = free_types (w_type w) (filter (fun r => negb (keep r)) (d_types (w_dom w d))) ->
  (forall q r, In (q, r) (d_queries (w_dom w d)) -> keepq (q, r) = true -> r = TEmpty d \/ keep r = true) ->
  TInv w'.
Proof.
  intros HT H1 H2 H3 H4 H5 H6.
  assert (Htd : forall d2, d_types (w_dom w' d2) = if d2 =? d then filter keep (d_types (w_dom w d)) else d_types (w_dom w d2)).
  { intros d2. rewrite H4. unfold upd. destruct (Nat.eqb_spec d2 d) as [->|]; auto. }
  assert (Hqd : forall d2, d_queries (w_dom w' d2) = if d2 =? d then filter keepq (d_queries (w_dom w d)) else d_queries (w_dom w d2)).
  { intros d2. rewrite H4. unfold upd. destruct (Nat.eqb_spec d2 d) as [->|]; auto. }
  assert (Hin' : forall d2 r, In r (d_types (w_dom w' d2)) <-> In r (d_types (w_dom w d2)) /\ (d2 = d -> keep r = true)).
  { intros d2 r. rewrite Htd. destruct (Nat.eqb_spec d2 d) as [->|].
    - rewrite filter_In. tauto.
    - tauto. }
  assert (Hlive : forall d2 r, In r (d_types (w_dom w' d2)) -> w_type w' r = w_type w r).
  { intros d2 r Hin. rewrite H5, free_types_spec. destruct (existsb_tref r (filter (fun r => negb (keep r)) (d_types (w_dom w d)))) as [Hd|]; auto.
    exfalso. apply filter_In in Hd. destruct Hd as [Hd Hk]. apply Hin' in Hin. destruct Hin as [Hin Hk2].
    destruct (ti_types _ HT _ _ Hd) as (n & t & -> & _ & Ht & Hok). destruct (ti_types _ HT _ _ Hin) as (n2 & t2 & [= <-] & _ & Ht2 & Hok2).
    destruct Hok as [Hok _], Hok2 as [Hok2 _]. assert (d2 = d) by congruence. subst d2.
    rewrite Hk2 in Hk by congruence. discriminate. }
  constructor.
  - intros d2 r Hin. rewrite (Hlive _ _ Hin). apply Hin' in Hin. destruct Hin as [Hin _].
    destruct (ti_types _ HT _ _ Hin) as (n & t & B1 & B2 & B3 & B4). exists n, t. rewrite H3. split; [auto|]. split; [auto|]. split; [auto|].
    eapply type_ok_mono; [|eauto]. rewrite H1, H2. auto.
  - intros n t Ht. rewrite H5, free_types_spec in Ht. destruct (existsb_tref (TReg n) (filter (fun r => negb (keep r)) (d_types (w_dom w d)))) as [|Hd]; [discriminate|].
    apply (ti_alive _ HT) in Ht. apply Hin'. split; auto. intros He. rewrite He in Ht.
    destruct (keep (TReg n)) eqn:Hk; auto. exfalso. apply Hd. apply filter_In. rewrite Hk. auto.
  - intros d2. rewrite H5, free_types_spec. destruct (existsb_tref (TEmpty d2) (filter (fun r => negb (keep r)) (d_types (w_dom w d)))) as [Hd|].
    + exfalso. apply filter_In in Hd. destruct Hd as [Hd _]. destruct (ti_types _ HT _ _ Hd) as (n & t & ? & _). discriminate.
    + apply (ti_empty _ HT).
  - intros d2. rewrite Htd. destruct (d2 =? d); [apply NoDup_filter|]; apply (ti_nodup _ HT).
  - intros d2 r r' t t' Hr Hr'. rewrite (Hlive _ _ Hr), (Hlive _ _ Hr'). apply Hin' in Hr, Hr'. apply (ti_uniq _ HT d2); tauto.
  - intros d2 q r. rewrite Hqd. rewrite Hin'. destruct (Nat.eqb_spec d2 d) as [->|Hd].
    + rewrite filter_In. intros [Hin Hk]. destruct (ti_queries _ HT _ _ _ Hin) as [->|Hr]; auto.
      destruct (H6 _ _ Hin Hk); auto.
    + intros Hin. destruct (ti_queries _ HT _ _ _ Hin); [auto|]. right. split; [auto|]. congruence.
  - intros d2. rewrite Hqd. destruct (d2 =? d); [|apply (ti_keys _ HT)].
    apply NoDup_map_filter. apply (ti_keys _ HT).
Qed.

Lemma filter_ext_in_ {A} (f g : A -> bool) l : (forall a, f a = g a) -> filter f l = filter g l.
Proof. intros H. apply filter_ext. auto. Qed.

Lemma tinv_purge w d m w1 : TInv w -> purge_types w d m = Ok w1 -> TInv w1.
Proof.
  intros HT. unfold purge_types. destruct (existsb _ (d_queries (w_dom w d))); [discriminate|].
  destruct (existsb _ (filter _ _)); [discriminate|]. intros [= <-].
  eapply tinv_drop with (d := d) (keep := fun r => negb (ref_has_id w (w_mid w m) r)); eauto; try reflexivity; simpl.
  - f_equal. apply filter_ext. intros a. now rewrite negb_involutive.
  - intros q r _ Hk. apply negb_true_iff in Hk. apply orb_false_iff in Hk. destruct Hk as [-> _]. auto.
Qed.
Lemma purge_none w d m w1 : TInv w -> purge_types w d m = Ok w1 ->
  forall r t, In r (d_types (w_dom w1 d)) -> w_type w1 r = Some t -> type_has_id t (w_mid w m) = false.
Proof.
  intros HT. unfold purge_types. destruct (existsb _ (d_queries (w_dom w d))); [discriminate|].
  destruct (existsb _ (filter _ _)); [discriminate|]. intros [= <-]. simpl. intros r t. rewrite upd_same. simpl.
  rewrite filter_In. intros [Hin Hk]. rewrite free_types_spec. destruct (existsb _ _); [discriminate|].
  intros Ht. unfold ref_has_id in Hk. rewrite Ht in Hk. now apply negb_true_iff in Hk.
Qed.

Lemma tinv_unregister_mixin w d m w' r : EInv E w -> TInv w -> unregister_mixin w d m = (w', r) -> TInv w'.
Proof.
  intros HE HT. unfold unregister_mixin.
  destruct (purge_types w d m) as [w1|e|u] eqn:Hp; try (intros [= <- <-]; auto; fail).
  assert (HT1 := tinv_purge _ _ _ _ HT Hp). assert (Hno := purge_none _ _ _ _ HT Hp).
  assert (Hs := same_elems_purge _ _ _ _ Hp). assert (HE1 := einv_same _ _ _ Hs HE).
  unfold unregister_mixin_elem. destruct (basic_unregister _ _ _) as [sp|e|u] eqn:Hb; intros [= <- <-]; auto.
  apply basic_unregister_ok in Hb. destruct Hb as (id & B1 & B2 & ->).
  eapply tinv_same; [..|exact HT1]; simpl; auto.
  - intros d2. unfold upd. destruct (Nat.eqb_spec d2 d) as [->|]; auto.
  - intros d2. unfold upd. destruct (Nat.eqb_spec d2 d) as [->|]; auto.
  - intros d2 r t m2 Hr Ht Hin Hm. assert (m2 <> m); [|rewrite !upd_other; auto].
    intros ->. assert (Hmd : w_mdom w1 m = Some d) by apply (ei_m1 _ _ HE1 _ _ _ B2). assert (d2 = d) by congruence. subst d2.
    assert (Hh := Hno _ _ Hr Ht). destruct (ti_types _ HT1 _ _ Hr) as (n & t' & _ & _ & Ht' & Hok).
    rewrite Ht in Ht'. injection Ht' as <-. destruct Hs as (Hs & _). rewrite <- Hs in Hh.
    assert (type_has_id t (w_mid w1 m) = true); [|congruence]. eapply type_has_id_mixin; eauto.
Qed.

Lemma tinv_store w d q r : TInv w -> r = TEmpty d \/ In r (d_types (w_dom w d)) -> TInv (store_found w d q r).
Proof.
  intros HT Hr. unfold store_found, set_dom.
  assert (Htd : forall d2, d_types (upd (w_dom w) d (with_types (w_dom w d) (d_types (w_dom w d)) (store_query q r (d_queries (w_dom w d)))) d2) = d_types (w_dom w d2)).
  { intros d2. unfold upd. destruct (Nat.eqb_spec d2 d) as [->|]; auto. }
  constructor; simpl.
  - intros d2 r2. rewrite Htd. intros Hin. destruct (ti_types _ HT _ _ Hin) as (n & t & B1 & B2 & B3 & B4). exists n, t.
    split; auto.
  - intros n t. rewrite Htd. apply (ti_alive _ HT).
  - apply (ti_empty _ HT).
  - intros d2. rewrite Htd. apply (ti_nodup _ HT).
  - intros d2 r1 r2 t t'. rewrite Htd. apply (ti_uniq _ HT).
  - intros d2 q2 r2. rewrite Htd. unfold upd. destruct (Nat.eqb_spec d2 d) as [->|].
    + simpl. intros Hin. apply store_query_in in Hin. destruct Hin as [[-> ->]|Hin]; auto. now apply (ti_queries _ HT) in Hin.
    + apply (ti_queries _ HT).
  - intros d2. unfold upd. destruct (Nat.eqb_spec d2 d) as [->|]; [|apply (ti_keys _ HT)].
    simpl. apply store_query_nodup. apply (ti_keys _ HT).
Qed.

Lemma check_mixins_ok mid mdom d ms : check_mixins mid mdom d ms = Ok tt <->
  NoDup ms /\ forall m, In m ms -> mid m <> None /\ mdom m = Some d.
Proof.
  induction ms as [|m ms IH]; simpl.
  - split; auto. split; [constructor|simpl; tauto].
  - destruct (mid m) as [i|] eqn:Hi.
    + destruct (opt_eqb_spec (mdom m) (Some d)) as [Hd|Hd]; simpl.
      * destruct (memb_spec m ms) as [Hin|Hin].
        -- split; [discriminate|]. intros [Hnd _]. inversion_clear Hnd. tauto.
        -- rewrite IH. split.
           ++ intros [H1 H2]. split; [constructor; auto|]. intros x [<-|Hx]; auto. split; congruence.
           ++ intros [H1 H2]. inversion_clear H1. split; auto.
      * split; [discriminate|]. intros [_ H]. exfalso. apply Hd. apply H. auto.
    + split; [discriminate|]. intros [_ H]. exfalso. destruct (H m) as [H1 _]; auto.
Qed.

Lemma build_type_ok fid mid mdom a d ms t : build_type E fid mid mdom a d ms = Ok t ->
  t_mixins t = ms /\ t_dom t = d /\ t_nobj t = 0 /\ ms <> [] /\ a = true /\
  NoDup ms /\ (forall m, In m ms -> mid m <> None /\ mdom m = Some d) /\
  (exists counts, ftable_counts E fid ms = Ok counts /\ build_ftable E fid ms counts = Ok (t_ftable t)) /\
  layout E ms = Ok (t_offsets t, t_buf_size t, t_buf_align t) /\
  build_sparse mid ms = Ok (t_sparse t).
Proof.
  unfold build_type. destruct (check_mixins mid mdom d ms) as [[]|e|u] eqn:Hc; simpl; try discriminate.
  destruct (ftable_counts E fid ms) as [counts|e|u] eqn:Hcnt; simpl; try discriminate.
  destruct (Nat.eqb_spec (length ms) 0) as [|Hl]; [discriminate|]. destruct a; simpl; [|discriminate].
  destruct (build_ftable E fid ms counts) as [ft|e|u] eqn:Hft; simpl; try discriminate.
  destruct (layout E ms) as [[[offs sz] al]|e|u] eqn:Hla; simpl; try discriminate.
  destruct (build_sparse mid ms) as [sp|e|u] eqn:Hsp; simpl; try discriminate.
  intros [= <-]. simpl. apply check_mixins_ok in Hc. destruct Hc as [H1 H2].
  assert (Hne : ms <> []) by (intros ->; auto).
  split; [auto|]. split; [auto|]. split; [auto|]. split; [exact Hne|]. split; [auto|]. split; [exact H1|].
  split; [exact H2|]. split; [eauto|]. split; auto.
Qed.

Lemma build_sparse_world w d ms sp : EInv E w -> NoDup ms -> (forall m, In m ms -> w_mdom w m = Some d) ->
  build_sparse (w_mid w) ms = Ok sp -> sparse_ok (w_mid w) ms sp.
Proof.
  intros HE Hnd Hd Hb. destruct (build_sparse_spec (w_mid w) ms) as (sp' & H1 & H2 & H3).
  - intros m Hin. destruct (ei_m2 _ _ HE _ _ (Hd _ Hin)) as (i & Hi & _). congruence.
  - intros i j m m' Hi Hj He.
    destruct (ei_m2 _ _ HE _ _ (Hd _ (nth_error_In _ _ Hi))) as (k & Hk & Hn).
    destruct (ei_m2 _ _ HE _ _ (Hd _ (nth_error_In _ _ Hj))) as (k' & Hk' & Hn').
    assert (k = k') by congruence. subst k'. assert (m = m') by congruence. subst m'.
    eapply NoDup_nth_error; eauto. eapply nth_error_lt; eauto. congruence.
  - rewrite Hb in H1. injection H1 as <-. split; auto.
Qed.

Lemma tinv_insert w d q t : TInv w -> type_ok w d t -> TInv (fst (insert_type w d q t)) /\
  let r := snd (insert_type w d q t) in In r (d_types (w_dom (fst (insert_type w d q t)) d)) /\ exists t', w_type (fst (insert_type w d q t)) r = Some t' /\ t_mixins t' = t_mixins t.
Proof.
  intros HT Hok. unfold insert_type. destruct (find_type w (t_mixins t) (d_types (w_dom w d))) as [r|] eqn:Hf; simpl.
  - apply find_type_some in Hf. destruct Hf as (Hin & t' & Ht' & Hm). split; [apply tinv_store; auto|].
    rewrite upd_same. simpl. eauto.
  - assert (Hnew : w_type w (TReg (w_next w)) = None) by (apply tinv_fresh; auto).
    assert (Hnotin : forall d2, ~ In (TReg (w_next w)) (d_types (w_dom w d2))).
    { intros d2 Hin. destruct (ti_types _ HT _ _ Hin) as (n & t' & _ & _ & Ht' & _). congruence. }
    set (w' := Build_world _ _ _ _ _ _).
    assert (Htd : forall d2, d_types (w_dom w' d2) = if d2 =? d then d_types (w_dom w d) ++ [TReg (w_next w)] else d_types (w_dom w d2)).
    { intros d2. simpl. unfold upd. destruct (Nat.eqb_spec d2 d) as [->|]; auto. }
    assert (Hin' : forall d2 r, In r (d_types (w_dom w' d2)) <-> In r (d_types (w_dom w d2)) \/ (d2 = d /\ r = TReg (w_next w))).
    { intros d2 r. rewrite Htd. destruct (Nat.eqb_spec d2 d) as [->|]; [|tauto]. rewrite in_app_iff. simpl. intuition. }
    assert (Hty : forall r, w_type w' r = if tref_eqb r (TReg (w_next w)) then Some t else w_type w r) by reflexivity.
    assert (Htyn : w_type w' (TReg (w_next w)) = Some t) by (rewrite Hty; destruct (tref_eqb_spec (TReg (w_next w)) (TReg (w_next w))); congruence).
    assert (Hold : forall d2 r, In r (d_types (w_dom w d2)) -> w_type w' r = w_type w r).
    { intros d2 r Hin. rewrite Hty. destruct (tref_eqb_spec r (TReg (w_next w))) as [->|]; auto. exfalso. eapply Hnotin; eauto. }
    split; [constructor|].
    + intros d2 r Hin. apply Hin' in Hin. destruct Hin as [Hin|[-> ->]].
      * rewrite (Hold _ _ Hin). destruct (ti_types _ HT _ _ Hin) as (n & t' & B1 & B2 & B3 & B4). exists n, t'.
        split; auto. split; [simpl; lia|]. split; auto.
      * exists (w_next w), t. split; [auto|]. split; [simpl; lia|]. split; auto.
    + intros n t' Ht'. apply Hin'. rewrite Hty in Ht'. destruct (tref_eqb_spec (TReg n) (TReg (w_next w))) as [He|].
      * injection Ht' as <-. right. split; auto. apply Hok.
      * left. now apply (ti_alive _ HT).
    + intros d2. rewrite Hty. destruct (tref_eqb_spec (TEmpty d2) (TReg (w_next w))); [discriminate|]. apply (ti_empty _ HT).
    + intros d2. rewrite Htd. destruct (Nat.eqb_spec d2 d) as [->|]; [|apply (ti_nodup _ HT)].
      apply NoDup_snoc; auto. apply (ti_nodup _ HT).
    + intros d2 r r' t1 t2 Hr Hr' H1 H2 He. apply Hin' in Hr, Hr'. destruct Hr as [Hr|[-> ->]], Hr' as [Hr'|[Hd ->]].
      * rewrite (Hold _ _ Hr) in H1. rewrite (Hold _ _ Hr') in H2. eapply (ti_uniq _ HT); eauto.
      * subst d2. rewrite Htyn in H2. injection H2 as <-. rewrite (Hold _ _ Hr) in H1. exfalso. eapply find_type_none; eauto.
      * rewrite Htyn in H1. injection H1 as <-. rewrite (Hold _ _ Hr') in H2. exfalso. eapply find_type_none; eauto.
      * auto.
    + intros d2 q2 r2. rewrite Hin'. simpl. unfold upd. destruct (Nat.eqb_spec d2 d) as [->|].
      * simpl. intros Hin. apply store_query_in in Hin. destruct Hin as [[-> ->]|Hin]; auto.
        destruct (ti_queries _ HT _ _ _ Hin); auto.
      * intros Hin. destruct (ti_queries _ HT _ _ _ Hin); auto.
    + intros d2. simpl. unfold upd. destruct (Nat.eqb_spec d2 d) as [->|]; [|apply (ti_keys _ HT)].
      simpl. apply store_query_nodup. apply (ti_keys _ HT).
    + rewrite upd_same. simpl. split; [rewrite in_app_iff; simpl; auto|]. exists t. auto.
Qed.

Lemma built_type_ok w d ms a t : EInv E w -> build_type E (w_fid w) (w_mid w) (w_mdom w) a d ms = Ok t -> type_ok w d t.
Proof.
  intros HE H. apply build_type_ok in H. destruct H as (<- & Hd & Hn & Hne & _ & Hnd & Hm & _ & Hl & Hsp).
  split; auto. split; auto. split; auto. split; [intros; now apply Hm|]. split; auto.
  eapply build_sparse_world; eauto. intros; now apply Hm.
Qed.

Lemma tinv_get_type_mut a w d dm q w' r : EInv E w -> TInv w -> get_type_mut E a w d dm q = (w', r) -> TInv w'.
Proof.
  intros HE HT. unfold get_type_mut. destruct (negb _); [now intros [= <- <-]|].
  destruct (lookup_type E w d q) as [[t|oq ms [t|]]|e|u] eqn:Hl; try (intros [= <- <-]; auto; fail).
  - intros [= <- <-]. apply tinv_store; auto. unfold lookup_type in Hl.
    destruct (find_query _ _); [discriminate|]. destruct (apply_rules _ _ _ _) as [[oq' ms']|e|u]; simpl in Hl; try discriminate.
    injection Hl as _ _ Hl. destruct ms'; [injection Hl as <-; auto|]. apply find_type_some in Hl. tauto.
  - destruct (build_type _ _ _ _ _ _ _) as [t|e|u] eqn:Hb; try (intros [= <- <-]; auto; fail).
    assert (Hok := built_type_ok _ _ _ _ _ HE Hb). destruct (tinv_insert w d oq t HT Hok) as [Hi _].
    destruct (insert_type w d oq t). now intros [= <- <-].
Qed.
Lemma tinv_get_type a w d q w' r : EInv E w -> TInv w -> get_type E a w d q = (w', r) -> TInv w'.
Proof.
  intros HE HT. unfold get_type. destruct (find_query _ _); [now intros [= <- <-]|now apply tinv_get_type_mut].
Qed.

Lemma tinv_gc w d w' r : TInv w -> gc w d = (w', r) -> TInv w'.
Proof.
  intros HT. unfold gc. destruct (existsb (dangling w) _); [now intros [= <- <-]|]. intros [= <- <-].
  eapply tinv_drop with (d := d) (keep := fun r => negb (ref_nobj w r =? 0)); eauto; try reflexivity; simpl.
  - f_equal. apply filter_ext. intros a. now rewrite negb_involutive.
  - intros q r Hin Hk. apply negb_true_iff in Hk. destruct (ti_queries _ HT _ _ _ Hin) as [->|Hr]; auto. right.
    destruct (ref_nobj w r =? 0) eqn:Hn; auto. exfalso.
    destruct (existsb_tref r (filter (fun r => ref_nobj w r =? 0) (d_types (w_dom w d)))) as [|Hno]; [discriminate|].
    apply Hno. apply filter_In. auto.
Qed.

Lemma set_nobj_set t a b : set_nobj (set_nobj t a) b = set_nobj t b.
Proof. reflexivity. Qed.
Lemma tinv_nobj w r t n : TInv w -> w_type w r = Some t -> TInv (with_type w r (set_nobj t n)).
Proof.
  intros HT Ht.
  assert (Hty : forall r', w_type (with_type w r (set_nobj t n)) r' = if tref_eqb r' r then Some (set_nobj t n) else w_type w r') by reflexivity.
  assert (Hty2 : forall r' t', w_type (with_type w r (set_nobj t n)) r' = Some t' -> exists t0, w_type w r' = Some t0 /\ (t' = t0 \/ t' = set_nobj t0 n)).
  { intros r' t'. rewrite Hty. destruct (tref_eqb_spec r' r) as [->|]; [intros [= <-]|]; eauto. }
  constructor.
  - intros d r' Hin. destruct (ti_types _ HT _ _ Hin) as (k & t' & -> & B2 & B3 & B4). rewrite Hty.
    destruct (tref_eqb_spec (TReg k) r) as [<-|].
    + exists k, (set_nobj t n). split; auto. split; auto. split; auto. assert (t' = t) by congruence. subst t'. exact B4.
    + exists k, t'. auto.
  - intros k t' Ht'. destruct (Hty2 _ _ Ht') as (t0 & H0 & [-> | ->]); simpl; now apply (ti_alive _ HT).
  - intros d. rewrite Hty. destruct (ti_empty _ HT d) as [k Hk]. destruct (tref_eqb_spec (TEmpty d) r) as [<-|]; eauto.
    exists n. rewrite Hk in Ht. injection Ht as <-. reflexivity.
  - apply (ti_nodup _ HT).
  - intros d r1 r2 t1 t2 Hr1 Hr2 H1 H2 He. destruct (Hty2 _ _ H1) as (a & Ha & Ha'), (Hty2 _ _ H2) as (b & Hb & Hb').
    apply (ti_uniq _ HT d r1 r2 a b); auto. destruct Ha' as [-> | ->], Hb' as [-> | ->]; auto.
  - apply (ti_queries _ HT).
  - apply (ti_keys _ HT).
Qed.

Lemma tinv_set_dom w d s : TInv w -> d_types s = d_types (w_dom w d) -> d_queries s = d_queries (w_dom w d) \/ d_queries s = [] ->
  TInv (set_dom w d s).
Proof.
  intros HT H1 H2. eapply tinv_same; [..|exact HT]; simpl; auto; intros d2; unfold upd; destruct (Nat.eqb_spec d2 d) as [->|]; auto.
Qed.

Lemma tinv_dstep w o w' r : EInv E w -> TInv w -> dstep E w o = (w', r) -> TInv w'.
Proof.
  intros HE HT. destruct o; simpl; unfold forget, retty; intros [= <- _].
  - eapply tinv_only_features; [apply register_feature_only|auto].
  - unfold unregister_feature. destruct (basic_unregister _ _ _); auto. simpl.
    eapply tinv_same; [..|exact HT]; simpl; auto; intros d2; unfold upd; destruct (Nat.eqb_spec d2 d) as [->|]; auto.
  - destruct (register_mixin E w d m) eqn:H. simpl. eapply tinv_register_mixin; eauto.
  - destruct (unregister_mixin w d m) eqn:H. simpl. eapply tinv_unregister_mixin; eauto.
  - unfold register_type_class. destruct (register_tc _ _ _); auto. apply tinv_set_dom; auto.
  - apply tinv_set_dom; auto.
  - unfold add_rule. destruct (r_apply _); auto. destruct (rules_incr _ _ _) as [rs []]; apply tinv_set_dom; simpl; auto.
  - unfold remove_rule. destruct (rules_decr _ _ _) as [[rs []]| |]; auto; apply tinv_set_dom; simpl; auto.
  - destruct (get_type E alloc_ok w d q) eqn:H. eapply tinv_get_type; eauto.
  - destruct (get_type_mut E alloc_ok w d dm q) eqn:H. eapply tinv_get_type_mut; eauto.
  - destruct (gc w d) eqn:H. eapply tinv_gc; eauto.
  - unfold incr_nobj. destruct (w_type w r0) eqn:Ht; auto. apply tinv_nobj; auto.
  - unfold decr_nobj. destruct (w_type w r0) eqn:Ht; auto. destruct (t_nobj t); auto. apply tinv_nobj; auto.
Qed.

Definition WInv w := EInv E w /\ TInv w.
Lemma winv_dstep w o w' r : WInv w -> dstep E w o = (w', r) -> WInv w'.
Proof. intros [HE HT] H. split; [eapply einv_dstep|eapply tinv_dstep]; eauto. Qed.
Lemma winv_run tr w' : run E (init_world E) tr w' -> WInv w'.
Proof.
  intros H. remember (init_world E) as w0. induction H; subst.
  - split; [apply einv_init|apply tinv_init].
  - eapply winv_dstep; eauto.
Qed.
Lemma winv_reachable w : reachable E w -> WInv w.
Proof. intros [tr H]. eapply winv_run; eauto. Qed.

End Types.
