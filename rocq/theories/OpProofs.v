(** What the operations that are not mutations do *)
From Coq Require Import List Arith ZArith NArith Lia Bool.
From Verif Require Import Base Sv BaseLemmas Info TypeBuild TypeQuery Domain TypesProofs SpecDom HistProofs DomTheorems SpecLayout Heap HeapProofs Mutation Object SpecObj
  PartProofs RollProofs AllocProofs UpdProofs FinProofs PerfProofs WorldProofs ObjProofs.
Import ListNotations.

Section Ops.
Variable E : env.
Variable U : user.
Hypothesis AM : aligned_mixins E.
Notation Inv := (Inv E).
Notation part := (part E).

(** ** Changing the members of an object without touching its memory *)
Definition data_of (x : option obj) : option (nat * option tref * nat) :=
  match x with Some x => match o_data x with Some b => Some (b, o_type x, o_alloc x) | None => None end | None => None end.
Lemma data_of_some y x b : data_of y = Some (b, o_type x, o_alloc x) -> exists z, y = Some z /\ o_data z = Some b /\ o_type z = o_type x /\ o_alloc z = o_alloc x.
Proof. destruct y as [z|]; [|discriminate]. simpl. destruct (o_data z) eqn:Hz; [|discriminate]. intros [= -> H1 H2]. eauto. Qed.

Lemma put_foot s o y : data_of (s_obj s o) = data_of y -> forall o' c, foot (set_obj s o y) o' c <-> foot s o' c.
Proof.
  intros Hd. assert (Hk : forall o', data_of (s_obj (set_obj s o y) o') = data_of (s_obj s o')).
  { intros o'. cbn [set_obj s_obj]. unfold upd. destruct (Nat.eqb_spec o' o) as [->|]; auto. }
  intros o' c. split; intros (x & b & r & t & A1 & A2 & A3 & A4 & A5).
  - specialize (Hk o'). rewrite A1 in Hk. simpl in Hk. rewrite A2 in Hk. symmetry in Hk. destruct (data_of_some _ _ _ Hk) as (z & B1 & B2 & B3 & B4). exists z, b, r, t. split; auto. split; auto. split; [congruence|]. split; auto.
  - specialize (Hk o'). rewrite A1 in Hk. simpl in Hk. rewrite A2 in Hk. destruct (data_of_some _ _ _ Hk) as (z & B1 & B2 & B3 & B4). exists z, b, r, t. split; auto. split; auto. split; [congruence|]. split; auto.
Qed.
Lemma is_of_data s s' r o : data_of (s_obj s o) = data_of (s_obj s' o) -> is_of s r o = is_of s' r o.
Proof.
  intros H. unfold is_of. destruct (s_obj s o) as [x|], (s_obj s' o) as [y|]; simpl in H; auto.
  - destruct (o_data x), (o_data y); try discriminate; auto. injection H as _ -> _. reflexivity.
  - destruct (o_data x); [discriminate|auto].
  - destruct (o_data y); [discriminate|auto].
Qed.

Lemma inv_put s o y : Inv s -> data_of (s_obj s o) = data_of y -> Inv (set_obj s o y).
Proof.
  intros I Hd. pose proof (put_foot s o y Hd) as Hf. apply (inv_one E s (set_obj s o y) o I).
  - apply (iv_reach _ _ I).
  - apply (iv_small _ _ I).
  - intros o' Hne. cbn [set_obj s_obj]. now rewrite upd_other.
  - intros q t Hq _. exists (t_nobj t). cbn [set_obj s_w]. rewrite Hq. now destruct t.
  - intros o' c _ _. apply agree_refl.
  - intros x Hx. cbn [set_obj s_obj] in Hx. rewrite upd_same in Hx. subst y. unfold obj_ok. destruct (o_data x) as [b|] eqn:Hb; auto.
    simpl in Hd. rewrite Hb in Hd. destruct (data_of_some _ _ _ Hd) as (z & B1 & B2 & B3 & B4). pose proof (iv_obj _ _ I o z B1) as Hk. unfold obj_ok in Hk. rewrite B2 in Hk.
    destruct Hk as (r & t & dd & C1 & C2 & C3 & P). exists r, t, dd. split; [congruence|]. split; auto. split; auto. rewrite <- B4. exact P.
  - intros c Hc. right. now apply Hf.
  - intros c Hc. destruct (iv_own _ _ I c Hc) as (o' & Ho'). destruct (Nat.eq_dec o' o) as [->|Hne].
    + right. now apply Hf.
    + left. split; auto. intros Hf2. apply Hne. eapply iv_sep; eauto.
  - apply (iv_next _ _ I).
  - intros r t Ht. exists t. split; auto. f_equal. apply is_of_data. cbn [set_obj s_obj]. now rewrite upd_same.
Qed.

(** ** clear_mixin_data *)
Record cleared (s : st) (o : nat) (x : obj) (s' : st) : Prop := {
  cl_obj : forall o', s_obj s' o' = if o' =? o then Some (with_odata x None) else s_obj s o';
  cl_next : s_next s' = s_next s;
  cl_calls : s_calls s' = s_calls s;
  cl_free : forall c, foot s o c -> s_blk s' c = None;
  cl_keep : forall c, ~ foot s o c -> s_blk s' c = s_blk s c;
  cl_log : match o_data x with
    | None => s_w s' = s_w s /\ s_log s' = s_log s
    | Some b => exists r t dd, o_type x = Some r /\ w_type (s_w s) r = Some t /\ part (s_blk s) o (o_alloc x) t b dd (full t) (full t) (full t) /\
        s_w s' = with_type (s_w s) r (set_nobj t (pred (t_nobj t))) /\
        s_log s' = s_log s ++ devs E t dd (full t) (length (t_mixins t)) ++ fevs E (o_alloc x) t dd (full t) (length (t_mixins t)) ++ [EvFree (AObj (o_alloc x)) b (t_buf_size t) (t_buf_align t)]
    end
}.

Lemma get_old_inverse o x r t mid i : is_new (inverse_mut o x r t) mid i = full t i.
Proof.
  unfold is_new, full. cbn [inverse_mut mu_ty old_slot mu_odata mu_old]. destruct (nth_error (t_mixins t) i) eqn:Hn.
  - symmetry. apply Nat.ltb_lt. now apply nth_error_lt in Hn.
  - symmetry. apply Nat.ltb_ge. now apply nth_error_None.
Qed.

Lemma devs_ext2 t dd f g k : (forall i, f i = g i) -> devs E t dd f k = devs E t dd g k.
Proof. intros H. induction k as [|k IH]; simpl; auto. now rewrite H, IH. Qed.
Lemma fevs_ext2 a t dd f g k : (forall i, f i = g i) -> fevs E a t dd f k = fevs E a t dd g k.
Proof. intros H. induction k as [|k IH]; simpl; auto. now rewrite H, IH. Qed.

Lemma clear_step s o x : Inv s -> s_obj s o = Some x -> exists s', clear_mixin_data E o s = (s', Ok tt) /\ cleared s o x s'.
Proof.
  intros I Ho. unfold clear_mixin_data. rewrite (bnd_ok _ _ _ _ _ (get_obj_step s o x Ho)). destruct (o_data x) as [b|] eqn:Hb.
  2:{ exists s. split; [reflexivity|]. constructor; auto.
      - intros o'. destruct (Nat.eqb_spec o' o) as [->|]; auto. rewrite Ho. unfold with_odata. rewrite <- Hb. now destruct x.
      - intros c (x' & b & r & t & A1 & A2 & _). congruence.
      - rewrite Hb. auto. }
  pose proof (iv_obj _ _ I o x Ho) as Hk. unfold obj_ok in Hk. rewrite Hb in Hk. destruct Hk as (r & t & dd & A1 & A2 & A3 & P).
  assert (Hty : the_type x s = (s, Ok (r, t))). { unfold the_type. rewrite A1. rewrite (bnd_ok _ _ _ _ _ (get_ty_step s r t A2)). reflexivity. }
  rewrite (bnd_ok _ _ _ _ _ Hty). cbn [fst snd]. pose proof (inv_good E AM s r t I A2) as G.
  set (mu := inverse_mut o x r t). pose proof (get_old_inverse o x r t (w_mid (s_w s))) as Hnew. fold mu in Hnew.
  pose proof (nobj_pos E s o x b r t I Ho Hb A1 A2) as Hnz.
  assert (P' : part (s_blk s) o (o_alloc x) t b dd (fun i => i <? length (t_mixins t)) (fun i => (i <? length (t_mixins t)) && is_new mu (w_mid (s_w s)) i) (fun i => (i <? length (t_mixins t)) && is_new mu (w_mid (s_w s)) i)).
  { eapply part_ext; [exact P|auto| |]; intros i; rewrite Hnew; unfold full; now rewrite andb_diag. }
  destruct (rollback_ok E (w_mid (s_w s)) o (o_alloc x) t b dd mu s x (length (t_mixins t)) (length (t_mixins t)) r t (pred (t_nobj t)) G)
    as (mu' & s' & H1 & H2 & H3 & H4 & H5 & H6 & H7 & H8 & H9); auto.
  { destruct (t_nobj t); [congruence|reflexivity]. }
  assert (Hrun : run_mut mu (rollback E) s = (s', Ok tt)) by (unfold run_mut; now rewrite H1).
  rewrite (bnd_ok _ _ _ _ _ Hrun). unfold mod_obj. assert (Ho' : s_obj s' o = Some x) by now rewrite H4. rewrite (bnd_ok _ _ _ _ _ (get_obj_step s' o x Ho')).
  exists (set_obj s' o (Some (with_odata x None))). split; [reflexivity|].
  assert (Hfoot : forall c, foot s o c <-> fp t b dd (fun i => (i <? length (t_mixins t)) && is_new mu (w_mid (s_w s)) i) c).
  { intros c. rewrite (foot_fp E s o x b r t dd c Ho Hb A1 A2 P). unfold fp. split; intros [->|(i & m & B1 & B2 & B3)]; auto; right; exists i, m; rewrite Hnew in *; unfold full in *.
    - rewrite B2. auto.
    - apply andb_true_iff in B2. tauto. }
  constructor.
  - intros o'. cbn [set_obj s_obj]. unfold upd. now rewrite H4.
  - exact H5.
  - exact H6.
  - intros c Hc. apply H7. now apply Hfoot.
  - intros c Hc. apply H8. rewrite <- Hfoot. auto.
  - rewrite Hb. exists r, t, dd. split; auto. split; auto. split; auto. split; [exact H3|]. cbn [set_obj s_log]. rewrite H9. f_equal. rewrite (devs_ext2 t dd _ _ _ Hnew), (fevs_ext2 _ t dd _ _ _ Hnew). reflexivity.
Qed.

Lemma cl_type s o x s' q k : s_obj s o = Some x -> cleared s o x s' -> w_type (s_w s') q = Some k -> exists k0, w_type (s_w s) q = Some k0 /\ k = set_nobj k0 (t_nobj k) /\
  (Inv s -> t_nobj k + is_of s q o = t_nobj k0).
Proof.
  intros Ho C Hk. pose proof (cl_log _ _ _ _ C) as L. unfold is_of. rewrite Ho. pose proof (nobj_pos E s o x) as Hnz. destruct (o_data x) as [b|] eqn:Hb.
  - destruct L as (r & t & dd & A1 & A2 & P & Hw & _). rewrite Hw in Hk. unfold with_type, tupd in Hk. cbn [w_type] in Hk. rewrite A1. destruct (tref_eqb_spec q r) as [->|Hne].
    + injection Hk as <-. exists t. split; auto. split; [reflexivity|]. intros I. specialize (Hnz b r t I Ho eq_refl A1 A2). destruct (tref_eqb_spec r r); [|congruence]. cbn [set_nobj t_nobj]. lia.
    + exists k. split; auto. split; [now destruct k|]. intros _. destruct (tref_eqb_spec r q); [congruence|lia].
  - destruct L as [Hw _]. rewrite Hw in Hk. exists k. split; auto. split; [now destruct k|]. intros _. lia.
Qed.
Lemma cl_type2 s o x s' q k : cleared s o x s' -> w_type (s_w s) q = Some k -> exists n, w_type (s_w s') q = Some (set_nobj k n).
Proof.
  intros C Hk. pose proof (cl_log _ _ _ _ C) as L. destruct (o_data x) as [b|].
  - destruct L as (r & t & dd & A1 & A2 & P & Hw & _). rewrite Hw. unfold with_type, tupd. cbn [w_type]. destruct (tref_eqb_spec q r) as [->|]; [|exists (t_nobj k); rewrite Hk; now destruct k].
    assert (k = t) as -> by congruence. eauto.
  - destruct L as [Hw _]. rewrite Hw, Hk. exists (t_nobj k). now destruct k.
Qed.

Lemma inv_cleared s o x s' : Inv s -> s_obj s o = Some x -> cleared s o x s' -> Inv s'.
Proof.
  intros I Ho C. apply (inv_one E s s' o I).
  - pose proof (cl_log _ _ _ _ C) as L. destruct (o_data x) as [b|] eqn:Hb.
    + destruct L as (r & t & dd & A1 & A2 & P & Hw & _). eapply (reach_decr E (s_w s) r); [apply (iv_reach _ _ I)| |].
      * unfold decr_nobj. rewrite A2. pose proof (nobj_pos E s o x b r t I Ho Hb A1 A2) as Hnz. destruct (t_nobj t) as [|n]; [congruence|]. rewrite Hw. reflexivity.
      * auto.
    + destruct L as [-> _]. apply (iv_reach _ _ I).
  - intros q k Hk. destruct (cl_type s o x s' q k Ho C Hk) as (k0 & A1 & A2 & _). rewrite A2. exact (iv_small _ _ I q k0 A1).
  - intros o' Hne. rewrite (cl_obj _ _ _ _ C). destruct (Nat.eqb_spec o' o); congruence.
  - intros q k Hk _. eapply cl_type2; eauto.
  - intros o' c Hne Hf. apply agree_eq. apply (cl_keep _ _ _ _ C). intros Hf2. apply Hne. eapply iv_sep; eauto.
  - intros y Hy. rewrite (cl_obj _ _ _ _ C), Nat.eqb_refl in Hy. injection Hy as <-. exact Logic.I.
  - intros c (y & b & r & t & A1 & A2 & _). rewrite (cl_obj _ _ _ _ C), Nat.eqb_refl in A1. injection A1 as <-. discriminate.
  - intros c Hc. left. assert (Hn : ~ foot s o c) by (intros Hf; apply Hc; now apply (cl_free _ _ _ _ C)). split; auto. now rewrite <- (cl_keep _ _ _ _ C).
  - intros c Hc. rewrite (cl_next _ _ _ _ C) in Hc. rewrite (cl_keep _ _ _ _ C); [now apply (iv_next _ _ I)|]. intros Hf. apply (foot_lt E) in Hf; auto. lia.
  - intros q k Hk. destruct (cl_type s o x s' q k Ho C Hk) as (k0 & A1 & _ & A3). exists k0. split; auto. rewrite (A3 I). unfold is_of. rewrite (cl_obj _ _ _ _ C), Nat.eqb_refl. cbn [with_odata o_data]. lia.
Qed.

(** ** usurp *)
Lemma redirect_step b o dd l : forall s, (forall i, In i l -> bdat (s_blk s) b i = Some (dd i) /\ has_blk s (fst (md_mixin (dd i)))) ->
  exists s', redirect_loop b o l s = (s', Ok tt) /\ same_rest s s' /\ s_calls s' = s_calls s /\ s_log s' = s_log s /\
    (forall c, battr (s_blk s') c = battr (s_blk s) c) /\ (forall c i, bdat (s_blk s') c i = bdat (s_blk s) c i) /\ (forall p, binst (s_blk s') p = binst (s_blk s) p) /\
    (forall p, bback (s_blk s') p = if existsb (fun i => addr_eqb p (md_mixin (dd i))) l then Some o else bback (s_blk s) p).
Proof.
  induction l as [|i l IH]; intros s Hl; cbn [redirect_loop].
  - exists s. split; [reflexivity|]. split; [apply same_rest_refl|]. repeat split.
  - destruct (Hl i (or_introl eq_refl)) as [Hd Hb]. rewrite (bnd_ok _ _ _ _ _ (read_data_step s b i _ Hd)), (bnd_ok _ _ _ _ _ (set_object_step s (md_mixin (dd i)) o Hb)).
    destruct (st_back_views s (md_mixin (dd i)) o Hb) as (V1 & V2 & V4 & V3).
    pose proof (in_blk_rest s (fst (md_mixin (dd i))) (fun k => with_back k (snd (md_mixin (dd i))) o)) as (R1 & R2 & R3). fold (st_back s (md_mixin (dd i)) o) in R1, R2, R3.
    destruct (IH (st_back s (md_mixin (dd i)) o)) as (s' & H1 & H2 & H3 & H4 & H5 & H6 & H7 & H8).
    + intros j Hj. rewrite V2. unfold has_blk. rewrite V1. apply Hl. now right.
    + exists s'. split; [exact H1|]. split; [eapply same_rest_trans; eauto|]. split; [congruence|]. split; [congruence|].
      split; [intros c; now rewrite H5|]. split; [intros c j; now rewrite H6|]. split; [intros p; now rewrite H7|].
      intros p. rewrite H8, V4. cbn [existsb]. destruct (existsb _ l); [now rewrite orb_true_r|]. now rewrite orb_false_r.
Qed.

Record usurped (s : st) (o : nat) (x : obj) (other : nat) (y : obj) (d : dptr) (s' : st) : Prop := {
  us_obj : forall o', s_obj s' o' = if o' =? other then Some {| o_type := Some (TEmpty d); o_data := None; o_alloc := o_alloc y; o_sealed := o_sealed y |}
    else if o' =? o then Some {| o_type := o_type y; o_data := o_data y; o_alloc := o_alloc x; o_sealed := o_sealed y |} else s_obj s o';
  us_w : s_w s' = s_w s;
  us_next : s_next s' = s_next s;
  us_calls : s_calls s' = s_calls s;
  us_log : s_log s' = s_log s;
  us_attr : forall c, battr (s_blk s') c = battr (s_blk s) c;
  us_dat : forall c i, bdat (s_blk s') c i = bdat (s_blk s) c i;
  us_inst : forall p, binst (s_blk s') p = binst (s_blk s) p;
  us_back : forall p, ~ foot s other (fst p) -> bback (s_blk s') p = bback (s_blk s) p;
  us_own : forall p, bback (s_blk s') p = Some o \/ bback (s_blk s') p = bback (s_blk s) p;
  us_mine : forall b r t dd i, o_data y = Some b -> o_type y = Some r -> w_type (s_w s) r = Some t -> part (s_blk s) other (o_alloc y) t b dd (full t) (full t) (full t) ->
    i < length (t_mixins t) -> bback (s_blk s') (md_mixin (dd i)) = Some o
}.

Lemma mod_obj_step s o f x : s_obj s o = Some x -> mod_obj o f s = (set_obj s o (Some (f x)), Ok tt).
Proof. intros H. unfold mod_obj. now rewrite (bnd_ok _ _ _ _ _ (get_obj_step s o x H)). Qed.
Lemma the_type_step s x r t : o_type x = Some r -> w_type (s_w s) r = Some t -> the_type x s = (s, Ok (r, t)).
Proof. intros H1 H2. unfold the_type. rewrite H1, (bnd_ok _ _ _ _ _ (get_ty_step s r t H2)). reflexivity. Qed.

Lemma usurp_step s o x other y r t : Inv s -> o <> other -> s_obj s o = Some x -> s_obj s other = Some y -> o_type y = Some r -> w_type (s_w s) r = Some t ->
  (o_data y = None -> t_mixins t = []) -> exists s', usurp o other s = (s', Ok tt) /\ usurped s o x other y (t_dom t) s'.
Proof.
  intros I Hne Hx Hy Hr Ht Hem. unfold usurp. rewrite (bnd_ok _ _ _ _ _ (get_obj_step s other y Hy)).
  rewrite (bnd_ok _ _ _ _ _ (mod_obj_step s o _ x Hx)). set (nx := {| o_type := o_type y; o_data := o_data y; o_alloc := o_alloc x; o_sealed := o_sealed y |}).
  set (s1 := set_obj s o (Some nx)). rewrite (bnd_ok _ _ _ _ _ (the_type_step s1 y r t Hr Ht)). cbn [fst snd].
  assert (Hy1 : s_obj s1 other = Some y) by (cbn [s1 set_obj s_obj]; now rewrite upd_other by auto).
  assert (Hfin : forall s2, same_rest s1 s2 -> s_calls s2 = s_calls s1 -> s_log s2 = s_log s1 -> exists s3, mod_obj other (fun y => with_odata (with_otype y (Some (TEmpty (t_dom t)))) None) s2 = (s3, Ok tt) /\
    s_blk s3 = s_blk s2 /\ s_w s3 = s_w s /\ s_next s3 = s_next s /\ s_calls s3 = s_calls s /\ s_log s3 = s_log s /\
    forall o', s_obj s3 o' = if o' =? other then Some {| o_type := Some (TEmpty (t_dom t)); o_data := None; o_alloc := o_alloc y; o_sealed := o_sealed y |} else if o' =? o then Some nx else s_obj s o').
  { intros s2 (R1 & R2 & R3) R4 R5. rewrite (mod_obj_step s2 other _ y); [|now rewrite R2]. eexists. split; [reflexivity|]. cbn [set_obj s_blk s_w s_next s_calls s_log s_obj]. split; auto. split; auto. split; auto. split; auto. split; auto.
    intros o'. unfold upd. rewrite R2. cbn [s1 set_obj s_obj]. unfold upd. destruct (o' =? other); auto. }
  destruct (o_data y) as [b|] eqn:Hb.
  - pose proof (iv_obj _ _ I other y Hy) as Hk. unfold obj_ok in Hk. rewrite Hb in Hk. destruct Hk as (r' & t' & dd & A1 & A2 & A3 & P).
    assert (r' = r) as -> by congruence. assert (t' = t) as -> by congruence. pose proof (inv_good E AM s r t I Ht) as G.
    assert (Hmine : forall i, i < length (t_mixins t) -> exists m off, mine t (full t) (full t) i m off).
    { intros i Hi. apply Nat.ltb_lt in Hi. destruct (part_con_mine E _ _ _ _ _ _ _ _ _ i P Hi) as (m & off & v & Hm & _). eauto. }
    destruct (redirect_step b o dd (seq 0 (num_mixins t)) s1) as (s2 & H1 & H2 & H3 & H4 & H5 & H6 & H7 & H8).
    + intros i Hi. apply in_seq in Hi. unfold num_mixins in Hi. change (s_blk s1) with (s_blk s). rewrite (pa_data _ _ _ _ _ _ _ _ _ _ P).
      assert (Hf : full t i = true) by (apply Nat.ltb_lt; lia). rewrite Hf. split; auto. destruct (Hmine i) as (m & off & Hm); [lia|]. unfold has_blk. eapply part_mine_blk; eauto.
    + rewrite (bnd_ok _ _ _ _ _ H1). destruct (Hfin s2 H2 H3 H4) as (s3 & K1 & K2 & K3 & K4 & K5 & K6 & K7). exists s3. split; auto. constructor; auto; rewrite ?K2; auto.
      * rewrite Hb. exact K7.
      * intros p Hp. rewrite H8. destruct (existsb _ _) eqn:Hex; auto. exfalso. apply Hp. apply existsb_exists in Hex. destruct Hex as (i & Hi & He). apply in_seq in Hi. unfold num_mixins in Hi.
        destruct (addr_eqb_spec p (md_mixin (dd i))) as [->|]; [|discriminate]. apply (foot_fp E s other y b r t dd); auto. destruct (Hmine i) as (m & off & Hm); [lia|]. eapply part_mine_fp; eauto.
      * intros p. rewrite H8. destruct (existsb _ _); auto.
      * intros b' r' t' dd' i B1 B2 B3 P' Hi. assert (b' = b) as -> by congruence. assert (r' = r) as -> by congruence. assert (t' = t) as -> by congruence.
        assert (dd' i = dd i) as ->. { pose proof (pa_data _ _ _ _ _ _ _ _ _ _ P i) as D1. rewrite (pa_data _ _ _ _ _ _ _ _ _ _ P' i) in D1. assert (Hf : full t i = true) by (apply Nat.ltb_lt; lia). rewrite Hf in D1. congruence. }
        rewrite H8. assert (existsb (fun j => addr_eqb (md_mixin (dd i)) (md_mixin (dd j))) (seq 0 (num_mixins t)) = true) as ->; auto.
        apply existsb_exists. exists i. split; [apply in_seq; unfold num_mixins; lia|apply addr_eqb_refl].
  - unfold num_mixins. rewrite (Hem eq_refl). cbn [length Nat.eqb]. rewrite (bnd_ok (ret tt) _ s1 s1 tt eq_refl). destruct (Hfin s1 (same_rest_refl s1) eq_refl eq_refl) as (s3 & K1 & K2 & K3 & K4 & K5 & K6 & K7).
    exists s3. split; auto. constructor; auto; rewrite ?K2; auto. + now rewrite Hb. + rewrite Hb. discriminate.
Qed.

Lemma usurped_other s o x other y d s' : usurped s o x other y d s' -> s_obj s' other = Some {| o_type := Some (TEmpty d); o_data := None; o_alloc := o_alloc y; o_sealed := o_sealed y |}.
Proof. intros W. rewrite (us_obj _ _ _ _ _ _ _ W), Nat.eqb_refl. reflexivity. Qed.
Lemma usurped_this s o x other y d s' : o <> other -> usurped s o x other y d s' -> s_obj s' o = Some {| o_type := o_type y; o_data := o_data y; o_alloc := o_alloc x; o_sealed := o_sealed y |}.
Proof. intros Hne W. rewrite (us_obj _ _ _ _ _ _ _ W), Nat.eqb_refl. destruct (Nat.eqb_spec o other); congruence. Qed.

Lemma usurped_part s o x other y d s' b r t dd : o_alloc x = o_alloc y -> usurped s o x other y d s' -> o_data y = Some b -> o_type y = Some r -> w_type (s_w s) r = Some t ->
  part (s_blk s) other (o_alloc y) t b dd (full t) (full t) (full t) -> part (s_blk s') o (o_alloc x) t b dd (full t) (full t) (full t).
Proof.
  intros Ha W Hb Hr Ht P. pose proof (us_mine _ _ _ _ _ _ _ W b r t dd) as Hm. rewrite Ha. constructor.
  - rewrite (us_attr _ _ _ _ _ _ _ W). apply (pa_blk _ _ _ _ _ _ _ _ _ _ P).
  - apply (pa_range _ _ _ _ _ _ _ _ _ _ P).
  - intros i. rewrite (us_dat _ _ _ _ _ _ _ W). apply (pa_data _ _ _ _ _ _ _ _ _ _ P).
  - intros i m off H1 H2 H3. destruct (pa_int _ _ _ _ _ _ _ _ _ _ P i m off H1 H2 H3) as (A1 & A2). split; auto. specialize (Hm i Hb Hr Ht P). rewrite A1 in Hm. apply Hm. now apply Nat.ltb_lt.
  - intros i m H1 H2. destruct (pa_ext _ _ _ _ _ _ _ _ _ _ P i m H1 H2) as (A1 & e & A2 & A3 & A4 & A5). split; auto. exists e. split; auto. split; auto. rewrite (us_attr _ _ _ _ _ _ _ W). split; auto. apply Hm; auto. now apply Nat.ltb_lt.
  - apply (pa_inj _ _ _ _ _ _ _ _ _ _ P).
  - intros i Hi. destruct (pa_con _ _ _ _ _ _ _ _ _ _ P i Hi) as (m & off & v & A1 & A2 & A3 & A4). exists m, off, v. rewrite (us_inst _ _ _ _ _ _ _ W). auto.
  - intros q z. rewrite (us_inst _ _ _ _ _ _ _ W). apply (pa_live _ _ _ _ _ _ _ _ _ _ P).
Qed.

Lemma usurped_foot s o x other y d s' c : Inv s -> o <> other -> usurped s o x other y d s' -> s_obj s other = Some y -> (foot s' o c <-> foot s other c).
Proof.
  intros I Hne W Hy. pose proof (usurped_this _ _ _ _ _ _ _ Hne W) as Ho. split.
  - intros (z & b & r & t & A1 & A2 & A3 & A4 & A5). rewrite Ho in A1. injection A1 as <-. cbn [o_data o_type] in *. exists y, b, r, t. rewrite (us_w _ _ _ _ _ _ _ W) in A4. split; auto. split; auto. split; auto. split; auto.
    destruct A5 as [->|(i & m & dt & B1 & B2 & B3)]; auto. right. exists i, m, dt. rewrite (us_dat _ _ _ _ _ _ _ W) in B2. auto.
  - intros (z & b & r & t & A1 & A2 & A3 & A4 & A5). assert (z = y) as -> by congruence. eexists _, b, r, t. split; [exact Ho|]. cbn [o_data o_type]. rewrite (us_w _ _ _ _ _ _ _ W). split; auto. split; auto. split; auto.
    destruct A5 as [->|(i & m & dt & B1 & B2 & B3)]; auto. right. exists i, m, dt. rewrite (us_dat _ _ _ _ _ _ _ W). auto.
Qed.

Lemma inv_usurped s o x other y d s' : Inv s -> o <> other -> s_obj s o = Some x -> o_data x = None -> s_obj s other = Some y -> o_alloc x = o_alloc y -> usurped s o x other y d s' -> Inv s'.
Proof.
  intros I Hne Hx Hdx Hy Ha W. pose proof (usurped_this _ _ _ _ _ _ _ Hne W) as Ho. pose proof (usurped_other _ _ _ _ _ _ _ W) as Hot.
  assert (Hnf : forall c, ~ foot s o c) by (intros c (z & b & r & t & A1 & A2 & _); congruence).
  assert (Hnf' : forall c, ~ foot s' other c) by (intros c (z & b & r & t & A1 & A2 & _); rewrite Hot in A1; injection A1 as <-; discriminate).
  pose proof (fun c => usurped_foot s o x other y d s' c I Hne W Hy) as Hfo.
  assert (Hnone : forall c, s_blk s' c = None <-> s_blk s c = None) by (intros c; rewrite <- !battr_none, (us_attr _ _ _ _ _ _ _ W); tauto).
  set (D := fun k => (k =? o) || (k =? other)).
  assert (HD : forall k, D k = true <-> k = o \/ k = other) by (intros k; unfold D; rewrite orb_true_iff, !Nat.eqb_eq; tauto).
  assert (HDf : forall k, D k = false -> k <> o /\ k <> other) by (intros k; unfold D; rewrite orb_false_iff, !Nat.eqb_neq; tauto).
  apply (inv_change E D s s' I).
  - intros k Hk. apply HDf in Hk. rewrite (us_obj _ _ _ _ _ _ _ W). destruct (Nat.eqb_spec k other); [tauto|]. destruct (Nat.eqb_spec k o); tauto.
  - intros q t Hq _. exists (t_nobj t). rewrite (us_w _ _ _ _ _ _ _ W), Hq. now destruct t.
  - intros k c Hk Hf. apply HDf in Hk. split; [apply (us_attr _ _ _ _ _ _ _ W)|]. split; [intros i; apply (us_dat _ _ _ _ _ _ _ W)|]. split; [intros q; apply (us_inst _ _ _ _ _ _ _ W)|].
    intros q. apply (us_back _ _ _ _ _ _ _ W). cbn [fst]. intros Hf2. destruct Hk as [_ Hk]. apply Hk. eapply iv_sep; eauto.
  - rewrite (us_w _ _ _ _ _ _ _ W). apply (iv_reach _ _ I).
  - rewrite (us_w _ _ _ _ _ _ _ W). apply (iv_small _ _ I).
  - intros k z Hk Hz. apply HD in Hk. destruct Hk as [->| ->].
    + rewrite Ho in Hz. injection Hz as <-. unfold obj_ok. cbn [o_data o_type o_alloc]. pose proof (iv_obj _ _ I other y Hy) as Hk. unfold obj_ok in Hk. destruct (o_data y) as [b|] eqn:Hb; auto.
      destruct Hk as (r & t & dd & A1 & A2 & A3 & P). exists r, t, dd. rewrite (us_w _ _ _ _ _ _ _ W). split; auto. split; auto. split; auto. eapply usurped_part; eauto.
    + rewrite Hot in Hz. injection Hz as <-. exact Logic.I.
  - intros k c Hk Hf. apply HD in Hk. right. exists other. split; [apply HD; auto|]. destruct Hk as [->| ->]; [now apply Hfo|]. exfalso. now apply (Hnf' c).
  - intros k k' c Hk Hk' Hf Hf'. apply HD in Hk, Hk'. destruct Hk as [->| ->], Hk' as [->| ->]; auto; exfalso; eapply Hnf'; eauto.
  - intros c Hc. assert (Hc' : s_blk s c <> None) by (rewrite <- Hnone; auto). destruct (iv_own _ _ I c Hc') as (k & Hk). destruct (D k) eqn:Hdk; [|eauto].
    right. apply HD in Hdk. destruct Hdk as [->| ->]; [exfalso; eapply Hnf; eauto|]. exists o. split; [apply HD; auto|]. now apply Hfo.
  - intros c Hc. apply Hnone. rewrite (us_next _ _ _ _ _ _ _ W) in Hc. now apply (iv_next _ _ I).
  - intros r t Ht. rewrite (us_w _ _ _ _ _ _ _ W) in Ht. destruct (iv_cnt _ _ I r t Ht) as (l & L1 & L2 & L3).
    exists (map (fun k => if k =? other then o else k) l).
    assert (Hno : ~ In o l) by (rewrite L3; intros (z & b & A1 & A2 & _); congruence).
    split; [|split].
    + clear - L1 Hno Hne. induction L1 as [|k l Hn Hd IH]; [constructor|]. cbn [map]. constructor.
      * rewrite in_map_iff. intros (k' & He & Hin). simpl in Hno. destruct (Nat.eqb_spec k' other), (Nat.eqb_spec k other); subst; tauto.
      * apply IH. simpl in Hno. tauto.
    + now rewrite map_length.
    + intros k. rewrite in_map_iff. assert (Hof : forall k, of_type s' r k <-> if k =? other then False else if k =? o then of_type s r other else of_type s r k).
      { clear k. intros k. unfold of_type at 1. rewrite (us_obj _ _ _ _ _ _ _ W). destruct (Nat.eqb_spec k other) as [->|Hk1].
        - split; [|tauto]. intros (z & b & [= <-] & B & _). discriminate.
        - destruct (Nat.eqb_spec k o) as [->|Hk2]; [|reflexivity]. unfold of_type. split.
          + intros (z & b & [= <-] & B & C). exists y, b. auto.
          + intros (z & b & B & C & F). assert (z = y) as -> by congruence. eexists _, b. split; [reflexivity|]. auto. }
      rewrite Hof. split.
      * intros (k' & He & Hin). apply L3 in Hin. destruct (Nat.eqb_spec k' other) as [Hk'|Hk'].
        -- subst k k'. destruct (Nat.eqb_spec o other); [congruence|]. now rewrite Nat.eqb_refl.
        -- subst k'. destruct (Nat.eqb_spec k other); [congruence|]. destruct (Nat.eqb_spec k o) as [->|]; auto. exfalso. apply Hno. now apply L3.
      * destruct (Nat.eqb_spec k other) as [->|Hk1]; [tauto|]. destruct (Nat.eqb_spec k o) as [->|Hk2].
        -- intros Hot'. exists other. rewrite Nat.eqb_refl. split; auto. now apply L3.
        -- intros Hk. exists k. destruct (Nat.eqb_spec k other); [congruence|]. split; auto. now apply L3.
Qed.

End Ops.
