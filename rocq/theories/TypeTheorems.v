(** Comparison of types and strings, layout, type mutations, shipped rules. *)
From Coq Require Import List Arith ZArith NArith Lia Bool Permutation Sorted.
From Verif Require Import Base Sv BaseLemmas SvProofs Info Registry RegistryProofs TypeMut Rules TypeBuild TypeBuildProofs LayoutProofs
  MixinInfo TypeQuery Domain ElemProofs TypesProofs SpecReg SpecDom SpecOrd SpecRule SpecLayout CmpProofs HistProofs RegTheorems DomTheorems RuleTheorems RuleTheorems2.
Import ListNotations.

(** ** C30 *)
Fixpoint llex {A} (c : A -> A -> comparison) (a b : list A) : comparison :=
  match a, b with
  | [], [] => Eq
  | [], _ :: _ => Lt
  | _ :: _, [] => Gt
  | x :: a', y :: b' => match c x y with Eq => llex c a' b' | o => o end
  end.
Lemma tcmp_llex {A} (c : A -> A -> comparison) : tcmp c -> tcmp (llex c).
Proof.
  intros H. split.
  - induction a as [|x a IH]; intros [|y b]; simpl; auto. rewrite (tc_opp _ H x y). destruct (c x y); simpl; auto.
  - induction a as [|x a IH]; intros [|y b] [|z d]; simpl; try discriminate; auto.
    destruct (c x y) eqn:E1; try discriminate.
    + rewrite (tc_eq _ H _ _ z E1). destruct (c y z) eqn:E2; try discriminate; eauto.
    + intros _. destruct (c y z) eqn:E2; try discriminate.
      * intros _. rewrite <- (tc_eq_r c y z x H E2), E1. auto.
      * intros _. now rewrite (tc_trans _ H _ _ _ E1 E2).
  - induction a as [|x a IH]; intros [|y b] [|z d]; simpl; try discriminate; auto.
    destruct (c x y) eqn:E1; try discriminate. intros E2. rewrite (tc_eq _ H _ _ z E1). destruct (c y z); auto.
Qed.
Lemma llex_eq {A} (c : A -> A -> comparison) : (forall a b, c a b = Eq -> a = b) -> forall a b, llex c a b = Eq -> a = b.
Proof.
  intros H. induction a as [|x a IH]; intros [|y b]; simpl; try discriminate; auto. destruct (c x y) eqn:E1; try discriminate.
  intros E2. f_equal; auto.
Qed.

Section T.
Variable E : env.

Definition zcmp (c : comparison) : Z := match c with Eq => 0 | Lt => -1 | Gt => 1 end%Z.
Lemma compare_mixins_spec idf a : regular_mixins E -> forall b, a <> b -> compare_mixins E idf a b = Ok (zcmp (llex (mcmp E idf) a b)).
Proof.
  intros Hr. induction a as [|x a IH]; intros [|y b] Hne; simpl; auto; [congruence|].
  destruct (Nat.eqb_spec x y) as [->|Hxy].
  - rewrite (tc_refl _ y (tcmp_mcmp E idf)). apply IH. congruence.
  - rewrite canonical_less_cmp by auto. destruct (mcmp E idf x y) eqn:Hc; auto. apply mcmp_eq in Hc. congruence.
Qed.
Definition tycmp (idf : mptr -> option nat) : type_rec -> type_rec -> comparison :=
  lexi (fun a b => Nat.compare (t_dom a) (t_dom b)) (fun a b => llex (mcmp E idf) (t_mixins a) (t_mixins b)).
Lemma tcmp_tycmp idf : tcmp (tycmp idf).
Proof. apply tcmp_lexi; [apply (tcmp_on t_dom), tcmp_nat|apply (tcmp_on t_mixins), tcmp_llex, tcmp_mcmp]. Qed.
Definition cmp_types (w : world) (r1 r2 : tref) (t1 t2 : type_rec) : res Z := type_compare E (w_mid w) (tref_eqb r1 r2) t1 t2.
Lemma type_compare_spec w d1 r1 t1 d2 r2 t2 : regular_mixins E -> reachable E w -> has_type w d1 r1 t1 -> has_type w d2 r2 t2 ->
  type_compare E (w_mid w) (tref_eqb r1 r2) t1 t2 = Ok (zcmp (tycmp (w_mid w) t1 t2)) /\ (tycmp (w_mid w) t1 t2 = Eq <-> r1 = r2).
Proof.
  intros Hr Hw H1 H2. destruct (has_type_ok E _ _ _ _ Hw H1) as (Hd1 & _). destruct (has_type_ok E _ _ _ _ Hw H2) as (Hd2 & _).
  assert (Heq : r1 = r2 -> tycmp (w_mid w) t1 t2 = Eq).
  { intros ->. assert (t1 = t2) by (destruct H1, H2; congruence). subst. apply tc_refl, tcmp_tycmp. }
  unfold type_compare. destruct (tref_eqb_spec r1 r2) as [Hs|Hs].
  - rewrite (Heq Hs). split; auto. split; auto.
  - unfold tycmp, lexi in *. rewrite Hd1, Hd2 in *. destruct (Nat.eqb_spec d1 d2) as [->|Hne]; simpl negb; cbv iota.
    + rewrite Nat.compare_refl in *.
      assert (Hm : t_mixins t1 <> t_mixins t2). { intros Hm. apply Hs. eapply (has_type_unique E w d2 r1 r2); eauto. }
      rewrite compare_mixins_spec by auto. split; auto. split; auto. intros Hx. apply llex_eq in Hx; [congruence|]. apply mcmp_eq.
    + destruct (Nat.ltb_spec d1 d2) as [Hlt|Hge].
      * rewrite (proj2 (Nat.compare_lt_iff d1 d2) Hlt). split; auto. split; [discriminate|congruence].
      * assert (Hgt : Nat.compare d1 d2 = Gt) by (apply Nat.compare_gt_iff; lia). rewrite Hgt. split; auto. split; [discriminate|congruence].
Qed.
Lemma c30 w d1 r1 t1 d2 r2 t2 d3 r3 t3 : regular_mixins E -> reachable E w ->
  has_type w d1 r1 t1 -> has_type w d2 r2 t2 -> has_type w d3 r3 t3 ->
  let cmp a ta b tb := type_compare E (w_mid w) (tref_eqb a b) ta tb in
  exists z12 z23, cmp r1 t1 r2 t2 = Ok z12 /\ cmp r2 t2 r3 t3 = Ok z23 /\
    (z12 = 0%Z <-> r1 = r2) /\ cmp r2 t2 r1 t1 = Ok (- z12)%Z /\
    ((z12 < 0)%Z -> (z23 < 0)%Z -> exists z13, cmp r1 t1 r3 t3 = Ok z13 /\ (z13 < 0)%Z).
Proof.
  intros Hr Hw H1 H2 H3 cmp. unfold cmp.
  destruct (type_compare_spec w _ _ _ _ _ _ Hr Hw H1 H2) as [-> Hz]. destruct (type_compare_spec w _ _ _ _ _ _ Hr Hw H2 H3) as [-> _].
  destruct (type_compare_spec w _ _ _ _ _ _ Hr Hw H2 H1) as [-> _]. destruct (type_compare_spec w _ _ _ _ _ _ Hr Hw H1 H3) as [-> _].
  do 2 eexists. split; [reflexivity|]. split; [reflexivity|]. split; [|split].
  - rewrite <- Hz. destruct (tycmp (w_mid w) t1 t2); simpl; split; intros; auto; discriminate.
  - rewrite (tc_opp _ (tcmp_tycmp (w_mid w)) t1 t2). destruct (tycmp (w_mid w) t1 t2); auto.
  - intros L1 L2. eexists. split; [reflexivity|]. destruct (tycmp (w_mid w) t1 t2) eqn:A; simpl in L1; try lia.
    destruct (tycmp (w_mid w) t2 t3) eqn:B; simpl in L2; try lia. rewrite (tc_trans _ (tcmp_tycmp _) _ _ _ A B). reflexivity.
Qed.

(** ** C21, C22 *)
Local Open Scope N_scope.
Lemma pow2_le_div a b : pow2 a -> pow2 b -> a <= b -> (a | b).
Proof.
  intros [i ->] [j ->] H. assert (i <= j) by (apply N.pow_le_mono_r_iff in H; lia). exists (2 ^ (j - i)). rewrite <- N.pow_add_r. f_equal. lia.
Qed.
Lemma pow2_8 : pow2 8.
Proof. exists 3. reflexivity. Qed.
Lemma alignment_le a b : alignment a -> pow2 b -> a <= b -> a = 0 \/ (a | b).
Proof. intros [->|H] Hb Hl; auto. right. now apply pow2_le_div. Qed.
Lemma alignment_max a : alignment a -> pow2 (N.max 8 a) /\ (a = 0 \/ (a | N.max 8 a)) /\ (8 | N.max 8 a).
Proof.
  intros [->|H]; [split; [apply pow2_8|split; [auto|exists 1; reflexivity]]|].
  destruct (N.max_spec 8 a) as [[Hl ->]|[Hl ->]]; (split; [auto using pow2_8|]); (split; [right|]); try (exists 1; lia); apply pow2_le_div; auto using pow2_8; lia.
Qed.
Lemma pow2_max a b : pow2 a -> pow2 b -> (a | N.max a b) /\ (b | N.max a b).
Proof. intros Ha Hb. destruct (N.max_spec a b) as [[H ->]|[H ->]]; split; try (apply N.divide_refl); apply pow2_le_div; auto; lia. Qed.
Lemma space_needs l : space E l = 16 * N.of_nat (length l) + needs E l.
Proof.
  induction l as [|m l IH]; [reflexivity|]. cbn [space needs length]. rewrite IH. unfold need. destruct (external (e_mixin E m)); lia.
Qed.
Lemma layout_sound ms offs size align : aligned_mixins E -> space E ms < 4294967296 -> layout E ms = Ok (offs, size, align) ->
  sound_layout E ms offs size align.
Proof.
  intros Ha Hs Hl. rewrite space_needs in Hs. destruct (layout_spec E ms Hs) as (offs' & sz & al & H1 & H2 & H3 & H4 & H5 & H6 & H7).
  rewrite H1 in Hl. injection Hl as -> -> ->.
  assert (Hal : pow2 align). { destruct H5 as [->|(m & _ & _ & Hm)]; [apply pow2_8|]. rewrite Hm. destruct (Ha m) as [H0|H0]; auto. exfalso. lia. }
  split; auto. split; auto. split.
  - intros i m o Hm Ho. specialize (H6 i m o Hm Ho). destruct (external (e_mixin E m)) eqn:Hx.
    + split; [tauto|discriminate].
    + destruct H6 as (A & B & C & D). split; [split; [lia|discriminate]|]. intros _.
      destruct (alignment_max _ (Ha m)) as (_ & M1 & M2). assert (C8 : (8 | o)) by (eapply N.divide_trans; [exact M2|exact C]).
            split; [auto|]. split; [|split; [lia|split; [lia|lia]]]. intros base Hb. split.
      * destruct M1 as [M1|M1]; [now left|]. destruct (alignment_le _ align (Ha m) Hal D) as [M3|M3]; [now left|]. right. apply N.divide_add_r; [exact (N.divide_trans _ _ _ M3 Hb)|exact (N.divide_trans _ _ _ M1 C)].
      * assert (H8 : (8 | base)) by (eapply N.divide_trans; [apply (pow2_le_div 8 align pow2_8 Hal); lia|auto]).
        destruct H8 as [x ->], C8 as [y ->]. exists (x + y - 1). lia.
  - intros i j m m' o o' Hij Hm Hm' Ho Ho' Hx Hx'. assert (A := H6 i m o Hm Ho). assert (A' := H6 j m' o' Hm' Ho'). rewrite Hx in A. rewrite Hx' in A'.
    unfold apart. destruct (Nat.lt_trichotomy i j) as [Hlt|[?|Hlt]]; [|congruence|].
    + left. assert (H8 := H7 i j m m' o o' Hlt Hm Hm' Ho Ho' Hx Hx'). lia.
    + right. assert (H8 := H7 j i m' m o' o Hlt Hm' Hm Ho' Ho Hx' Hx). lia.
Qed.
Lemma c21 w d r t : reachable E w -> aligned_mixins E -> has_type w d r t -> space E (t_mixins t) < 4294967296 ->
  sound_layout E (t_mixins t) (t_offsets t) (t_buf_size t) (t_buf_align t).
Proof.
  intros Hw Ha Ht Hs. destruct (winv_reachable _ _ Hw) as [HE HT]. destruct Ht as [Ht [->|Hin]].
  - destruct (ti_empty _ _ HT d) as [k Hk]. rewrite Hk in Ht. injection Ht as <-. split; [reflexivity|]. split; [simpl; lia|]. simpl. split; intros [|i]; discriminate.
  - destruct (ti_types _ _ HT _ _ Hin) as (n & t' & -> & _ & Ht' & Hok). assert (t' = t) by congruence. subst.
    destruct Hok as (_ & Hne & _ & _ & _ & Hl). apply layout_sound; auto.
Qed.

Lemma c22 d s a : alignment a -> s + N.max 8 a < 4294967296 ->
  let d' := set_size_alignment d s a in
  m_size d' = s /\ m_align d' = a /\
  forall buf, (m_buf_off d' | buf) ->
    let mixin := buf + m_buf_off d' in
    aligned_to a mixin /\ buf <= mixin - 8 /\ 8 <= mixin /\ (8 | mixin - 8) /\ mixin + s <= buf + m_buf_size d'.
Proof.
  intros Ha Hs d'. unfold d', set_size_alignment, sizeof_ptr. destruct (N.ltb_spec a 8) as [Hlt|Hge]; simpl; split; auto; split; auto; intros buf Hb; rewrite u32_small by (unfold W32; lia).
  - destruct (alignment_le a 8 Ha pow2_8) as [H8|H8]; [lia| |].
    { split; [now left|]. split; [lia|]. split; [lia|]. split; [|lia]. replace (buf + 8 - 8) with buf by lia. auto. }
    split; [right; apply N.divide_add_r; auto; eapply N.divide_trans; eauto|]. split; [lia|]. split; [lia|]. split; [|lia].
    replace (buf + 8 - 8) with buf by lia. auto.
  - assert (H8 : (8 | a)) by (destruct Ha as [->|Ha]; [lia|]; apply pow2_le_div; auto; apply pow2_8).
    split; [right; apply N.divide_add_r; auto; apply N.divide_refl|]. split; [lia|]. split; [lia|]. split; [|lia].
    destruct Hb as [x ->], H8 as [y ->]. exists (x * y + y - 1). lia.
Qed.
Local Open Scope nat_scope.

(** ** C60 *)
Lemma c60 a b : view_wf a -> view_wf b -> (sv_begin a = sv_begin b -> sv_bytes a = sv_bytes b) ->
  ((sv_cmp a b < 0)%Z <-> lex_lt (sv_bytes a) (sv_bytes b)) /\
  (sv_cmp a b = 0%Z <-> sv_bytes a = sv_bytes b) /\
  ((0 < sv_cmp a b)%Z <-> lex_lt (sv_bytes b) (sv_bytes a)).
Proof.
  intros Ha Hb Hs.
  assert (H : sv_cmp a b = cmpZ (lexcmp (sv_bytes a) (sv_bytes b))).
  { pose (nm := fun x : bool => if x then a else b). apply (sv_cmp_regular nm true false). split.
    - intros [|]; auto.
    - intros [|] [|]; simpl; auto. intros Hx. symmetry. auto. }
  rewrite H, !lex_lt_cmp, (lexcmp_antisym (sv_bytes a) (sv_bytes b)).
  assert (He : lexcmp (sv_bytes a) (sv_bytes b) = Eq <-> sv_bytes a = sv_bytes b).
  { split; [apply lexcmp_eq|]. intros ->. apply (tc_refl _ _ tcmp_lex). }
  rewrite <- He. destruct (lexcmp (sv_bytes a) (sv_bytes b)); simpl; repeat split; intros; auto; try discriminate; try lia.
Qed.
End T.
