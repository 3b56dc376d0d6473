(** Where mixins are: the theorems *)
From Coq Require Import List Arith ZArith NArith Lia Bool.
From Verif Require Import Base Sv BaseLemmas Info MixinInfo TypeBuild Domain Heap HeapProofs Mutation Object SpecObj SpecLog LogProofs SpecLayout SpecPlace PartProofs ObjProofs ActProofs3 ObjTheorems PlaceProofs PlaceProofs2 PlaceProofs3.
Import ListNotations.

Section Thms.
Variable E : env.
Variable U : user.
Hypothesis SZ : sized_mixins E.
Hypothesis AM : aligned_mixins E.

Lemma legal_cut l v : legal E l v -> forall l1 e l2, l = l1 ++ e :: l2 -> exists v1 v2, legal E l1 v1 /\ step E v1 e v2.
Proof.
  induction 1 as [v H1 H2|l v e0 v' L IH St]; intros l1 e l2 Hl; [destruct l1; discriminate|].
  destruct (@exists_last _ (e :: l2)) as (l3 & e' & He); [discriminate|]. rewrite He, app_assoc in Hl. apply app_inj_tail in Hl. destruct Hl as [Hl <-].
  destruct l3 as [|e1 l3]; cbn in He; injection He as -> Ht; [rewrite app_nil_r in Hl; subst; eauto|]. subst e1 || idtac. eapply IH. exact Hl.
Qed.
Lemma legal_home l v : legal E l v -> forall p m, v_inst v p = Some m -> v_blk v (fst p) <> None.
Proof.
  induction 1 as [v H1 H2|l v e v' L IH St]; intros p m Hp; [congruence|].
  assert (Hs : forall q, q = p \/ q <> p) by (intros q; destruct q as [b n], p as [b' n']; destruct (Nat.eq_dec b b'), (N.eq_dec n n'); subst; auto; right; congruence).
  inversion St as [a b sz al v1 S1 S2 S3 S4 S5|a b sz al v1 S1 S2 S3 S4 S5 S6|f m1 p1 src v1 S1 S2 S3 S4 S5 S6 S7|f m1 p1 src err v1 S1 S2 S3 S4 S5 S6 S7|f m1 p1 src err v1 S1 S2 S3 S4 S5 S6|m1 p1 err v1 S1 S2 S3 S4 S5 S6]; subst.
  - rewrite S5 in Hp. destruct (Nat.eq_dec (fst p) b) as [->|Hn]; [congruence|]. rewrite S4 by auto. eauto.
  - destruct p as [c n]. destruct (Nat.eq_dec c b) as [->|Hn]; [rewrite S5 in Hp; discriminate|]. rewrite S6 in Hp by auto. cbn [fst]. rewrite S4 by auto. exact (IH (c, n) m Hp).
  - rewrite S7. destruct (Hs p1) as [->|Hn]; auto. rewrite S6 in Hp by auto. eauto.
  - rewrite S7. rewrite S6 in Hp. eauto.
  - rewrite S6. rewrite S5 in Hp. eauto.
  - rewrite S6. destruct (Hs p1) as [->|Hn]; auto. rewrite S5 in Hp by auto. eauto.
Qed.
Lemma touch_home v e v' m p : (forall p m, v_inst v p = Some m -> v_blk v (fst p) <> None) -> step E v e v' -> touches e m p -> v_blk v (fst p) <> None.
Proof.
  intros Hh St Ht. inversion St as [a b sz al v1 S1 S2 S3 S4 S5|a b sz al v1 S1 S2 S3 S4 S5 S6|f m1 p1 src v1 S1 S2 S3 S4 S5 S6 S7|f m1 p1 src err v1 S1 S2 S3 S4 S5 S6 S7|f m1 p1 src err v1 S1 S2 S3 S4 S5 S6|m1 p1 err v1 S1 S2 S3 S4 S5 S6]; subst; cbn in Ht; try tauto; destruct Ht as [-> [->|H]]; auto; try discriminate; eauto.
Qed.
Lemma no_free_in b l : times (is_free b) l = 0 -> forall e, In e l -> is_free b e = false.
Proof. unfold times. intros H e He. destruct (is_free b e) eqn:Hf; auto. exfalso. assert (Hi : In e (filter (is_free b) l)) by (apply filter_In; auto). destruct (filter (is_free b) l); [exact Hi|discriminate]. Qed.

Lemma touch_spot mid0 L s e m p : PI E mid0 L s -> In e (s_log s) -> touches e m p -> spot E L m p.
Proof. intros P He Ht. pose proof (pl_log _ _ _ _ P e He) as G. destruct e as [| |f m' q src err]; cbn in *; try tauto. destruct G as [G1 G2], Ht as [-> [->| ->]]; auto. Qed.
(** the size and alignment of an allocation are those of the plan *)
Lemma alloc_plan mid0 L s a b sz al : PI E mid0 L s -> In (EvAlloc a b sz al) (s_log s) -> exists c, L b = Some c /\ sz = c_size E c /\ al = c_align E c.
Proof. intros P H. exact (pl_log _ _ _ _ P _ H). Qed.

Lemma c74_in_bounds tr s l1 e l2 m p : history E U tr s -> s_log s = l1 ++ e :: l2 -> touches e m p ->
  exists size align, allocated l1 (fst p) size align /\ well_placed E size align m (snd p).
Proof.
  intros H Hl Ht. destruct (place_history E U SZ AM tr s H) as (L & P). destruct (c33_legal E U (fair E) tr s H) as (v & Lg & _).
  destruct (legal_cut _ _ Lg _ _ _ Hl) as (v1 & v2 & L1 & St). pose proof (touch_home _ _ _ _ _ (legal_home _ _ L1) St Ht) as Hb. destruct (v_blk v1 (fst p)) as [[[a sz] al]|] eqn:Hv; [|congruence].
  destruct (legal_had E _ _ L1 _ _ _ _ Hv) as (l0 & l3 & -> & Hf). exists sz, al. split; [exists a, l0, l3; split; auto; now apply no_free_in|].
  destruct (alloc_plan _ L s a (fst p) sz al P) as (c & Hc & -> & ->); [rewrite Hl; apply in_or_app; left; apply in_or_app; right; now left|].
  destruct (spot_well E SZ AM L m p (pl_sound _ _ _ _ P)) as (c' & Hc' & W).
  - eapply touch_spot; eauto. rewrite Hl. apply in_or_app. right. now left.
  - assert (c' = c) as -> by congruence. exact W.
Qed.
Lemma c74_apart tr s e e' m m' b off off' : history E U tr s -> In e (s_log s) -> In e' (s_log s) -> touches e m (b, off) -> touches e' m' (b, off') ->
  (m = m' /\ off = off') \/ places_apart E m off m' off'.
Proof.
  intros H He He' Ht Ht'. destruct (place_history E U SZ AM tr s H) as (L & P). exact (spot_apart E L m m' b off off' (pl_sound _ _ _ _ P) (touch_spot _ _ _ _ _ _ P He Ht) (touch_spot _ _ _ _ _ _ P He' Ht')).
Qed.
Lemma c74_array tr s o x b r t e m off : history E U tr s -> s_obj s o = Some x -> o_data x = Some b -> type_of s o r t -> In e (s_log s) -> touches e m (b, off) ->
  (16 * N.of_nat (length (t_mixins t)) <= off - 8)%N.
Proof.
  intros H Ho Hb Hy He Ht. destruct (place_history E U SZ AM tr s H) as (L & P). destruct (history_inv E U AM tr s H) as [I Ty].
  destruct (obj_fits E SZ AM _ L s o x b P I Ho Hb) as (r' & t' & A1 & A2 & A3 & A4). destruct Hy as (x' & B1 & B2 & B3). assert (x' = x) as -> by congruence. assert (r' = r) as -> by congruence. assert (t' = t) as -> by congruence.
  assert (Hn : forall l, exists ms offs sz al, L b = Some (CObj ms offs sz al) /\ forall i m, In i l -> nth_error (t_mixins t) i = Some m -> nth_error ms i = Some m).
  { intros l. destruct (t_mixins t) as [|m0 l0] eqn:Hm; [congruence|]. destruct (A3 0 m0) as (ms & offs & sz & al & o0 & C1 & _); [now rewrite Hm|]. exists ms, offs, sz, al. split; auto. intros i m1 _ Hi. rewrite <- Hm in Hi.
    destruct (A3 i m1 Hi) as (ms' & offs' & sz' & al' & o' & D1 & D2 & _). congruence. }
  destruct (Hn (seq 0 (length (t_mixins t)))) as (ms & offs & sz & al & C1 & C2).
  assert (Hlen : length (t_mixins t) <= length ms).
  { destruct (length (t_mixins t)) as [|k] eqn:Hk; [lia|]. destruct (nth_error (t_mixins t) k) as [mk|] eqn:Hmk; [|apply nth_error_None in Hmk; lia]. specialize (C2 k mk). rewrite Hmk in C2. apply nth_error_lt with (x := mk). apply C2; auto. apply in_seq. lia. }
  pose proof (spot_array E L m b off ms offs sz al (pl_sound _ _ _ _ P) C1 (touch_spot _ _ _ _ _ _ P He Ht)). lia.
Qed.

Lemma holds_spot mid0 L s o i m p v : PI E mid0 L s -> holds s o i m p v -> spot E L m p.
Proof. intros P (_ & _ & H). exact (pl_inst _ _ _ _ P p _ H). Qed.
Lemma allocation_plan tr s L mid0 (p : addr) k : history E U tr s -> PI E mid0 L s -> s_blk s (fst p) = Some k -> exists c, L (fst p) = Some c /\ b_size k = c_size E c /\ b_align k = c_align E c.
Proof.
  intros H P Hk. destruct (c33_legal E U (fair E) tr s H) as (v & Lg & Hb & _). assert (Hv : v_blk v (fst p) = Some (b_alloc k, b_size k, b_align k)) by (rewrite Hb; unfold allocation; now rewrite Hk).
  destruct (legal_had E _ _ Lg _ _ _ _ Hv) as (l0 & l3 & Hl & _). eapply alloc_plan; eauto. rewrite Hl. apply in_or_app. right. now left.
Qed.
Lemma c74_objects tr s o i m p v : history E U tr s -> holds s o i m p v ->
  (exists a size align, allocation s (fst p) = Some (a, size, align) /\ well_placed E size align m (snd p)) /\
  forall o' i' m' p' v', holds s o' i' m' p' v' -> (o', i') <> (o, i) -> fst p' <> fst p \/ places_apart E m (snd p) m' (snd p').
Proof.
  intros H Hh. destruct (place_history E U SZ AM tr s H) as (L & P). destruct (history_inv E U AM tr s H) as [I Ty]. pose proof (holds_spot _ _ _ _ _ _ _ _ P Hh) as Hs. split.
  - pose proof (proj2 (proj2 Hh)) as Hi. unfold instance in Hi. unfold allocation. destruct (s_blk s (fst p)) as [k|] eqn:Hk; [|discriminate].
    exists (b_alloc k), (b_size k), (b_align k). split; auto. destruct (allocation_plan tr s L _ p k H P Hk) as (c & C1 & C2 & C3). destruct (spot_well E SZ AM L m p (pl_sound _ _ _ _ P) Hs) as (c' & C1' & W).
    assert (c' = c) as -> by congruence. rewrite C2, C3. exact W.
  - intros o' i' m' p' v' Hh' Hne. pose proof (holds_spot _ _ _ _ _ _ _ _ P Hh') as Hs'. destruct (Nat.eq_dec (fst p') (fst p)) as [Hb|Hb]; [right|now left].
    destruct p as [b off], p' as [b' off']. cbn [fst snd] in *. subst b'. destruct (spot_apart E L m m' b off off' (pl_sound _ _ _ _ P) Hs Hs') as [[-> ->]|Ha]; auto.
    exfalso. destruct (one_owner E AM s _ _ _ _ _ _ _ _ _ I Ty Hh Hh') as (-> & -> & _). now apply Hne.
Qed.
Lemma c74_pointers tr s p o : history E U tr s -> object_of s p = Some o ->
  exists m a size align, allocation s (fst p) = Some (a, size, align) /\ well_placed E size align m (snd p) /\
    forall o' i m' p' v, holds s o' i m' p' v -> fst p' = fst p -> (p' = p /\ m' = m) \/ places_apart E m (snd p) m' (snd p').
Proof.
  intros H Hp. destruct (place_history E U SZ AM tr s H) as (L & P). pose proof Hp as Hp'. apply (pl_back _ _ _ _ P) in Hp'. destruct Hp' as (m & Hs). exists m.
  unfold object_of in Hp. unfold allocation. destruct (s_blk s (fst p)) as [k|] eqn:Hk; [|discriminate]. exists (b_alloc k), (b_size k), (b_align k). split; auto.
  destruct (allocation_plan tr s L _ p k H P Hk) as (c & C1 & C2 & C3). destruct (spot_well E SZ AM L m p (pl_sound _ _ _ _ P) Hs) as (c' & C1' & W). assert (c' = c) as -> by congruence. split; [rewrite C2, C3; exact W|].
  intros o' i m' p' v Hh Hb. pose proof (holds_spot _ _ _ _ _ _ _ _ P Hh) as Hs'. destruct p as [b off], p' as [b' off']. cbn [fst snd] in *. subst b'.
  destruct (spot_apart E L m m' b off off' (pl_sound _ _ _ _ P) Hs Hs') as [[-> ->]|Ha]; auto.
Qed.
End Thms.
