From Coq Require Import List Arith ZArith NArith Lia Bool.
From Verif Require Import Base Sv Info TypeBuild BaseLemmas.
Import ListNotations.
Local Open Scope N_scope.

Definition W32 : N := 4294967296.

Lemma u32_small n : n < W32 -> u32 n = n.
Proof. intros. unfold u32. now apply N.mod_small. Qed.

Lemma next_multiple_spec s n : 0 < n -> s + n < W32 ->
  exists q, next_multiple s n = q * n /\ s <= q * n /\ q * n < s + n.
Proof.
  intros Hn Hs. unfold next_multiple. rewrite (u32_small (s + n)) by auto.
  replace (u32 (s + n + (4294967296 - 1))) with (s + n - 1).
  2:{ unfold u32. replace (s + n + (4294967296 - 1)) with ((s + n - 1) + 1 * 4294967296) by lia.
      rewrite N.mod_add by lia. symmetry. apply N.mod_small. unfold W32 in Hs. lia. }
  set (q := (s + n - 1) / n).
  assert (Hq : n * q <= s + n - 1 < n * (q + 1)).
  { assert (H1 := N.div_mod (s + n - 1) n ltac:(lia)). assert (H2 := N.mod_lt (s + n - 1) n ltac:(lia)). fold q in H1.
    generalize dependent ((s + n - 1) mod n). intros r H1 H2. lia. }
  exists q. rewrite u32_small by nia. split; auto. split; nia.
Qed.

(** space which one mixin can take in the buffer *)
Definition need (d : mixin_desc) : N :=
  if external d then 0 else m_size d + 2 * N.max 8 (m_align d).
Fixpoint needs (E : env) (l : list mptr) : N :=
  match l with [] => 0 | m :: r => need (e_mixin E m) + needs E r end.

(** alignment actually used *)
Definition ealign (d : mixin_desc) : N := N.max 8 (m_align d).

Section Layout.
Variable E : env.

Lemma layout_loop_spec : forall l sz al,
  8 <= al -> sz + needs E l < W32 ->
  exists offs sz' al',
    layout_loop E l sz al = Ok (offs, sz', al') /\
    length offs = length l /\ sz <= sz' /\ sz' <= sz + needs E l /\ al <= al' /\
    (al' = al \/ exists m, In m l /\ external (e_mixin E m) = false /\ al' = m_align (e_mixin E m)) /\
    (forall i m o, nth_error l i = Some m -> nth_error offs i = Some o ->
       if external (e_mixin E m) then o = 0
       else sz + 8 <= o /\ o + m_size (e_mixin E m) <= sz' /\ (ealign (e_mixin E m) | o) /\ m_align (e_mixin E m) <= al') /\
    (forall i j m m' o o', (i < j)%nat -> nth_error l i = Some m -> nth_error l j = Some m' ->
       nth_error offs i = Some o -> nth_error offs j = Some o' ->
       external (e_mixin E m) = false -> external (e_mixin E m') = false ->
       o + m_size (e_mixin E m) + 8 <= o').
Proof.
  induction l as [|m l IH]; intros sz al Hal Hsz; cbn [needs layout_loop] in *.
  - exists [], sz, al. split; [reflexivity|]. split; [reflexivity|]. split; [lia|]. split; [lia|]. split; [lia|].
    split; [auto|]. split; [intros [|]; discriminate|intros [|]; discriminate].
  - unfold need in *. destruct (external (e_mixin E m)) eqn:Hext.
    + destruct (IH sz al Hal) as (offs & sz' & al' & H1 & H2 & H3 & H4 & H5 & H6 & H7 & H8); [lia|].
      rewrite H1. cbn [bind fst snd]. exists (0 :: offs), sz', al'. split; [reflexivity|]. split; [simpl; lia|].
      split; [lia|]. split; [lia|]. split; [lia|]. split.
      { destruct H6 as [|(m' & ? & ? & ?)]; auto. right. exists m'. simpl; auto. }
      split.
      * intros [|i] m' o; simpl; [intros [= <-] [= <-]; now rewrite Hext|apply H7].
      * intros [|i] [|j] m1 m2 o1 o2 Hij; simpl; try lia.
        -- intros [= <-]. congruence.
        -- apply H8. lia.
    + set (d := e_mixin E m) in *.
      set (al1 := if al <? m_align d then m_align d else al).
      set (ma := if al <? m_align d then m_align d else if m_align d <? sizeof_ptr then sizeof_ptr else m_align d).
      assert (Hma : ma = ealign d).
      { unfold ma, ealign, sizeof_ptr. destruct (N.ltb_spec al (m_align d)); destruct (N.ltb_spec (m_align d) 8); lia. }
      assert (Hma8 : 8 <= ma) by (rewrite Hma; unfold ealign; lia).
      assert (Hal1 : al <= al1 /\ m_align d <= al1 /\ (al1 = al \/ al1 = m_align d)).
      { unfold al1. destruct (N.ltb_spec al (m_align d)); lia. }
      assert (Hneed : ma = N.max 8 (m_align d)) by auto.
      destruct (next_multiple_spec sz ma) as (q & Hq & Hq1 & Hq2); [lia|unfold W32 in *; lia|].
      assert (Hpad : u32 (next_multiple sz ma + (4294967296 - sz)) = q * ma - sz).
      { rewrite Hq. unfold u32. unfold W32 in *.
        replace (q * ma + (4294967296 - sz)) with ((q * ma - sz) + 1 * 4294967296) by lia.
        rewrite N.mod_add by lia. apply N.mod_small. lia. }
      rewrite Hpad.
      set (pad := if q * ma - sz <? sizeof_ptr then u32 (q * ma - sz + ma) else q * ma - sz).
      assert (Hp : exists q', sz + pad = q' * ma /\ 8 <= pad /\ pad <= 2 * ma /\ pad < 2 * ma).
      { unfold pad, sizeof_ptr. destruct (N.ltb_spec (q * ma - sz) 8).
        - rewrite u32_small by (unfold W32 in *; lia). exists (q + 1). repeat split; lia.
        - exists q. repeat split; lia. }
      destruct Hp as (q' & Hp1 & Hp2 & Hp3 & Hp4).
      assert (Hsz1 : u32 (sz + pad) = sz + pad) by (apply u32_small; unfold W32 in *; lia).
      assert (Hmod : (sz + pad) mod ma = 0) by (rewrite Hp1; apply N.mod_mul; lia).
      rewrite Hsz1, Hmod. cbn [N.eqb negb].
      rewrite (u32_small (sz + pad + m_size d)) by (unfold W32 in *; lia).
      destruct (IH (sz + pad + m_size d) al1) as (offs & sz' & al' & H1 & H2 & H3 & H4 & H5 & H6 & H7 & H8); [lia|unfold W32 in *; lia|].
      rewrite H1. cbn [bind fst snd]. exists (sz + pad :: offs), sz', al'. split; [reflexivity|]. split; [simpl; lia|].
      split; [lia|]. split; [lia|]. split; [lia|]. split.
      { destruct H6 as [->|(m' & ? & ? & ?)].
        - destruct Hal1 as (_ & _ & [->| ->]); auto. right. exists m. simpl; auto.
        - right. exists m'. simpl; auto. }
      split.
      * intros [|i] m' o; simpl.
        -- intros [= <-] [= <-]. fold d. rewrite Hext. split; [lia|]. split; [lia|]. split; [|lia].
           rewrite <- Hma. exists q'. lia.
        -- intros Hm Ho. specialize (H7 i m' o Hm Ho). destruct (external (e_mixin E m')); auto.
           destruct H7 as (A & B & C & D). split; [lia|]. auto.
      * intros [|i] [|j] m1 m2 o1 o2 Hij; simpl; try lia.
        -- intros [= <-] Hm2 [= <-] Ho2 _ Hx2. specialize (H7 j m2 o2 Hm2 Ho2). rewrite Hx2 in H7.
           destruct H7 as (A & _). fold d. lia.
        -- apply H8. lia.
Qed.

Lemma layout_spec l : 16 * N.of_nat (length l) + needs E l < W32 ->
  exists offs sz al,
    layout E l = Ok (offs, sz, al) /\
    length offs = length l /\ 16 * N.of_nat (length l) <= sz /\ 8 <= al /\
    (al = 8 \/ exists m, In m l /\ external (e_mixin E m) = false /\ al = m_align (e_mixin E m)) /\
    (forall i m o, nth_error l i = Some m -> nth_error offs i = Some o ->
       if external (e_mixin E m) then o = 0
       else 16 * N.of_nat (length l) + 8 <= o /\ o + m_size (e_mixin E m) <= sz /\ (ealign (e_mixin E m) | o) /\ m_align (e_mixin E m) <= al) /\
    (forall i j m m' o o', (i < j)%nat -> nth_error l i = Some m -> nth_error l j = Some m' ->
       nth_error offs i = Some o -> nth_error offs j = Some o' ->
       external (e_mixin E m) = false -> external (e_mixin E m') = false ->
       o + m_size (e_mixin E m) + 8 <= o').
Proof.
  intros H. unfold layout, sizeof_mixin_data. rewrite u32_small by (unfold W32 in *; lia).
  destruct (layout_loop_spec l (N.of_nat (length l) * 16) sizeof_ptr) as (offs & sz & al & H1 & H2 & H3 & H4 & H5 & H6 & H7 & H8).
  { unfold sizeof_ptr. lia. }
  { unfold W32 in *. lia. }
  unfold sizeof_ptr in *.
  exists offs, sz, al. split; auto. split; auto. split; [lia|]. split; auto. split; auto. split; auto.
  intros i m o Hm Ho. specialize (H7 i m o Hm Ho). destruct (external (e_mixin E m)); auto.
  destruct H7 as (A & B). split; [lia|]. auto.
Qed.

(** lengths without any hypothesis *)
Lemma layout_loop_length : forall l sz al x, layout_loop E l sz al = Ok x -> length (fst (fst x)) = length l.
Proof.
  induction l as [|m l IH]; simpl; intros sz al x H.
  - now injection H as <-.
  - destruct (external (e_mixin E m)).
    + destruct (layout_loop E l sz al) eqn:Hl; try discriminate. injection H as <-. simpl. f_equal. eapply IH; eauto.
    + match type of H with (if ?c then _ else _) = _ => destruct c end; try discriminate.
      match type of H with bind ?c _ = _ => destruct c eqn:Hl end; try discriminate. injection H as <-. simpl. f_equal. eapply IH; eauto.
Qed.
End Layout.

Section Sparse.
Variable mid : mptr -> option nat.
Local Open Scope nat_scope.

Lemma enumerate_nth {A} (l : list A) k i x : nth_error (enumerate k l) i = Some x -> fst x = k + i /\ nth_error l i = Some (snd x).
Proof.
  revert k i; induction l as [|y l IH]; intros k [|i]; simpl; try discriminate.
  - intros [= <-]. simpl. auto.
  - intros H. apply IH in H. split; [lia|tauto].
Qed.
Lemma enumerate_in {A} (l : list A) k j x : In (j, x) (enumerate k l) <-> exists i, j = k + i /\ nth_error l i = Some x.
Proof.
  revert k; induction l as [|y l IH]; intros k; simpl.
  - split; [tauto|]. intros (i & _ & H). now destruct i.
  - rewrite IH. split.
    + intros [[= <- <-]|(i & -> & H)]; [exists 0; auto|exists (S i); split; auto; lia].
    + intros ([|i] & -> & H); simpl in H.
      * injection H as <-. left. f_equal. lia.
      * right. exists i. split; auto. lia.
Qed.

Lemma num_sparse_acc (l : list mptr) : forall s, s <= fold_left (fun s m => Nat.max s (match mid m with Some i => S i | None => 0 end)) l s /\
  forall m k, In m l -> mid m = Some k -> k < fold_left (fun s m => Nat.max s (match mid m with Some i => S i | None => 0 end)) l s.
Proof.
  induction l as [|m l IH]; simpl; intros s.
  - split; auto; tauto.
  - destruct (IH (Nat.max s match mid m with Some i => S i | None => 0 end)) as [H1 H2]. split; [lia|].
    intros m' k [<-|Hin] Hk; eauto. rewrite Hk in H1. rewrite Hk. lia.
Qed.
Lemma num_sparse_bound l m k : In m l -> mid m = Some k -> k < num_sparse mid l.
Proof. intros. eapply num_sparse_acc; eauto. Qed.

Lemma fill_sparse_spec : forall l i0 sp, 
  (forall m, In m l -> exists k, mid m = Some k /\ k < length sp) ->
  (forall i j m m', nth_error l i = Some m -> nth_error l j = Some m' -> mid m = mid m' -> i = j) ->
  exists sp', fill_sparse mid (enumerate i0 l) sp = Ok sp' /\ length sp' = length sp /\
  (forall i m k, nth_error l i = Some m -> mid m = Some k -> nth_error sp' k = Some (Some (i0 + i))) /\
  (forall k, (forall m, In m l -> mid m <> Some k) -> nth_error sp' k = nth_error sp k).
Proof.
  induction l as [|m l IH]; simpl; intros i0 sp Hv Hinj.
  - exists sp. repeat split; auto. intros [|]; discriminate.
  - destruct (Hv m (or_introl eq_refl)) as (k & Hk & Hlt). rewrite Hk.
    apply Nat.ltb_lt in Hlt. rewrite Hlt. apply Nat.ltb_lt in Hlt.
    destruct (IH (S i0) (set_nth k (Some i0) sp)) as (sp' & H1 & H2 & H3 & H4).
    + intros m' Hin. rewrite length_set_nth. auto.
    + intros i j m1 m2 Hi Hj He. assert (S i = S j) by (eapply Hinj; simpl; eauto). lia.
    + rewrite length_set_nth in H2. exists sp'. split; auto. split; auto. split.
      * intros [|i] m' k'; simpl.
        -- intros [= <-] Hk'. rewrite Hk in Hk'. injection Hk' as <-. rewrite H4.
           ++ rewrite nth_error_set_nth_same by auto. do 2 f_equal. lia.
           ++ intros m' Hin He. apply In_nth_error in Hin. destruct Hin as [j Hj].
              assert (0 = S j) by (apply (Hinj 0 (S j) m m'); simpl; auto; congruence). lia.
        -- intros Hi Hk'. rewrite (H3 i m' k'); auto. do 2 f_equal. lia.
      * intros k' Hno. rewrite H4; [|auto]. apply nth_error_set_nth_other. intros <-. apply (Hno m); auto.
Qed.

Lemma build_sparse_spec l :
  (forall m, In m l -> mid m <> None) ->
  (forall i j m m', nth_error l i = Some m -> nth_error l j = Some m' -> mid m = mid m' -> i = j) ->
  exists sp, build_sparse mid l = Ok sp /\
  (forall i m k, nth_error l i = Some m -> mid m = Some k -> nth_error sp k = Some (Some i)) /\
  (forall k, (forall m, In m l -> mid m <> Some k) -> nth_error sp k = Some None \/ nth_error sp k = None).
Proof.
  intros Hv Hinj. unfold build_sparse.
  destruct (fill_sparse_spec l 0 (repeat None (num_sparse mid l))) as (sp & H1 & H2 & H3 & H4); auto.
  { intros m Hin. specialize (Hv m Hin). destruct (mid m) as [k|] eqn:Hk; [|congruence].
    exists k. split; auto. rewrite repeat_length. eapply num_sparse_bound; eauto. }
  exists sp. split; auto. split; auto.
  intros k Hno. rewrite H4 by auto. destruct (Nat.lt_ge_cases k (num_sparse mid l)).
  - left. now apply nth_error_repeat.
  - right. apply nth_error_None. now rewrite repeat_length.
Qed.
End Sparse.
