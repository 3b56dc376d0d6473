(** What functions of mixins see: the statements about a call during an operation *)
From Coq Require Import List Arith ZArith NArith Lia Bool.
From Verif Require Import Base Sv BaseLemmas Info MixinInfo TypeMut TypeBuild TypeQuery Domain TypesProofs ElemProofs WorldProofs Heap HeapProofs RollProofs Mutation Object SpecDom SpecObj SpecLog PartProofs ObjProofs ActProofs ActProofs2 MatchProofs ActProofs3 FinProofs PlaceProofs SeenProofs SeenProofs2 SeenProofs3 SeenProofs4 SpecSeen.
Import ListNotations.

Section Calls.
Variable E : env.
Variable U : user.
Hypothesis AM : SpecLayout.aligned_mixins E.
Notation Inv := (Inv E).

Lemma during_good s s' op o f m p src err k : op_seen s op o s' -> during s s' (EvCall f m p src err) k ->
  exists s0 so own, like s s0 op o so own /\ good s0 o so own (EvCall f m p src err, k).
Proof.
  intros (s0 & so & own & L & l & H1 & H2) (l1 & l2 & H3). exists s0, so, own. split; auto. rewrite H3, (lk_seen _ _ _ _ _ _ L) in H1. apply app_inv_head in H1. rewrite <- H1 in H2.
  apply Forall_app in H2. destruct H2 as [_ H2]. now inversion H2.
Qed.
Lemma during_target s s' op r e k : op_run E U op s = (s', r) -> during s s' e k -> exists o, target op = Some o.
Proof.
  intros Hr (l1 & l2 & H). destruct op; cbn [target]; eauto. exfalso. cbn [op_run] in Hr. unfold bnd, on_world in Hr.
  destruct (dstep E (s_w s) op) as [w1 [x|x|x]]; cbn in Hr; injection Hr as <- <-; cbn in H; apply (f_equal (@length _)) in H; rewrite !app_length in H; cbn in H; lia.
Qed.

Lemma seen_grows s s' op r : Inv s -> typed s -> fair E s op -> op_run E U op s = (s', r) -> ~ is_ub r -> exists l, s_seen s' = s_seen s ++ l.
Proof.
  intros I Ty Fr Hr Hu. destruct (target op) as [o|] eqn:Ho.
  - destruct (seen_op E U AM s op o s' r) as (s0 & so & own & L & l & H & _); auto. exists l. now rewrite H, (lk_seen _ _ _ _ _ _ L).
  - destruct op; try discriminate. exists []. cbn [op_run] in Hr. unfold bnd, on_world in Hr. rewrite app_nil_r. destruct (dstep E (s_w s) op) as [w1 [x|x|x]]; cbn in Hr; injection Hr as <- <-; reflexivity.
Qed.

Section One.
Variables (s s' : st) (op : oop) (r : res unit).
Hypothesis I : Inv s.
Hypothesis Ty : typed s.
Hypothesis Fr : fair E s op.
Hypothesis Hr : op_run E U op s = (s', r).
Hypothesis Hu : ~ is_ub r.
Variables (f : fn) (m : mptr) (p : addr) (src : option addr) (err : Z) (k : snap).
Hypothesis D : during s s' (EvCall f m p src err) k.

Lemma call_good : exists o s0 so own, target op = Some o /\ like s s0 op o so own /\ good s0 o so own (EvCall f m p src err, k).
Proof.
  destruct (during_target s s' op r _ _ Hr D) as (o & Ho). exists o. destruct (during_good s s' op o f m p src err k) as (s0 & so & own & A & B); auto; [|eauto 6].
  eapply seen_op; eauto.
Qed.
Lemma bback_of B q o : bback B q = Some o -> forall w ob, object_of (at_time {| sn_w := w; sn_blk := B; sn_obj := ob |}) q = Some o.
Proof. unfold bback, object_of. cbn. intros H _ _. destruct q as [b off]. cbn in *. destruct (B b); auto. Qed.

Lemma call_object : exists o x, target op = Some o /\ object_of (at_time k) p = Some o /\ s_obj (at_time k) o = Some x /\ o_type x = type_before s o /\
  forall q, src = Some q -> object_of (at_time k) q = source op f.
Proof.
  destruct call_good as (o & s0 & so & own & H1 & L & G1 & G2 & G3 & _). cbn [fst snd] in *. destruct (lk_it _ _ _ _ _ _ L) as (x & X1 & X2). exists o, x. split; auto. destruct k as [w B ob]. cbn in *. split; [now apply bback_of|].
  split; [congruence|]. split; auto. intros q Hq. rewrite (lk_src _ _ _ _ _ _ L). apply bback_of. auto.
Qed.
Lemma call_records o x : s_obj s o = Some x -> s_obj (at_time k) o = Some x.
Proof. destruct call_good as (c & s0 & so & own & H1 & L & G1 & _). intros H. cbn in *. rewrite G1. eapply lk_obj; eauto. Qed.
Lemma call_types o q t : type_of s o q t -> exists n, type_of (at_time k) o q (set_nobj t n).
Proof.
  intros (x & X1 & X2 & X3). destruct call_good as (c & s0 & so & own & H1 & L & G1 & _ & _ & G4 & _). destruct (G4 q t) as (n & Hn); [eapply lk_ty; eauto|]. exists n, x. split; [now apply call_records|]. auto.
Qed.
Lemma call_has o i m' : has_mixin s o i m' -> has_mixin (at_time k) o i m'.
Proof. intros (q & t & H1 & H2). destruct (call_types o q t H1) as (n & Hn). exists q, (set_nobj t n). split; auto. Qed.

Lemma call_asks o id : with_type_set s o -> has (at_time k) o id = has s o id /\ is_empty (at_time k) o = is_empty s o.
Proof.
  intros (x & X1 & X2). destruct (o_type x) as [q|] eqn:Hq; [|congruence]. pose proof (call_records o x X1) as Y.
  assert (exists t, w_type (s_w s) q = Some t) as (t & Ht).
  { pose proof (iv_obj E s I o x X1) as Hk. unfold obj_ok in Hk. destruct (o_data x) eqn:Hd; [destruct Hk as (r' & t & dd & A1 & A2 & _); exists t; congruence|].
    pose proof (Ty o x X1 Hd) as HT. rewrite Hq in HT. destruct q as [d|]; [|destruct HT]. destruct (winv_reachable _ _ (iv_reach E s I)) as [_ T]. destruct (ti_empty _ _ T d) as (n & Hn). eauto. }
  destruct (call_types o q t) as (n & y & Y1 & Y2 & Y3); [exists x; auto|]. split.
  - unfold has, bnd, get_obj. rewrite X1, Y. cbn [fst snd]. unfold the_type. rewrite Hq. unfold bnd, get_ty. rewrite Ht, Y3. reflexivity.
  - unfold is_empty, bnd, get_obj. now rewrite X1, Y.
Qed.

(** the place of a mixin *)
Lemma place_of o i m' q v : holds s o i m' q v -> exists x b d rt t, s_obj s o = Some x /\ o_data x = Some b /\ bdat (s_blk s) b i = Some d /\ q = md_mixin d /\ o_type x = Some rt /\
  w_type (s_w s) rt = Some t /\ nth_error (t_mixins t) i = Some m' /\ binst (s_blk s) q = Some {| i_mixin := m'; i_val := v |} /\ has_b (s_blk s) b.
Proof.
  intros ((rt & t & (x & X1 & X2 & X3) & N) & Hg & Hi). unfold get_at, bnd, get_obj in Hg. rewrite X1 in Hg. cbn [fst snd] in Hg. unfold the_type, bnd, get_ty in Hg. rewrite X2, X3 in Hg. cbn [fst snd ret] in Hg.
  assert (Hlt : i < num_mixins t) by (apply nth_error_Some; congruence). apply Nat.ltb_lt in Hlt. rewrite Hlt in Hg. unfold data_at, bnd, read_data, get_blk in Hg. destruct (o_data x) as [b|] eqn:Hd; [|cbn in Hg; discriminate Hg].
  unfold bnd in Hg. destruct (s_blk s b) as [kb|] eqn:Hb; cbn in Hg; [|discriminate]. destruct (b_data kb i) as [d|] eqn:Hdd; cbn in Hg; [|discriminate]. injection Hg as <-.
  exists x, b, d, rt, t. repeat (split; [first [assumption|reflexivity|unfold bdat; rewrite Hb; assumption]|]). unfold has_b, battr. rewrite Hb. discriminate.
Qed.
Lemma place_at o i m' v v' x b d rt t : s_obj s o = Some x -> o_data x = Some b -> bdat (s_blk s) b i = Some d -> o_type x = Some rt -> w_type (s_w s) rt = Some t -> nth_error (t_mixins t) i = Some m' ->
  has_b (sn_blk k) b -> bdat (sn_blk k) b i = Some d -> binst (sn_blk k) (md_mixin d) = Some {| i_mixin := m'; i_val := v' |} -> holds s o i m' (md_mixin d) v -> holds (at_time k) o i m' (md_mixin d) v'.
Proof.
  intros X1 X2 X3 X4 X5 X6 Hb Hd Hi (Hh & _). split; [now apply call_has|]. split; [|exact Hi].
  destruct (call_types o rt t) as (n & y & Y1 & Y2 & Y3); [now exists x|]. pose proof (call_records o x X1) as Y. assert (y = x) as -> by congruence.
  unfold get_at, bnd, get_obj. rewrite Y. cbn [fst snd]. unfold the_type, bnd, get_ty. rewrite Y2, Y3. cbn [fst snd ret].
  assert (Hlt : i < num_mixins (set_nobj t n)) by (apply nth_error_Some; cbn; congruence). apply Nat.ltb_lt in Hlt. rewrite Hlt. unfold data_at, bnd, read_data, get_blk. rewrite X2. unfold bnd. cbn [at_time s_blk]. unfold has_b, battr in Hb. unfold bdat in Hd.
  destruct (sn_blk k b) as [kb|]; [|congruence]. cbn. now rewrite Hd.
Qed.

Lemma call_others o i m' q v : target op <> Some o -> (forall fb t, op <> OMoveMatching fb t o) -> holds s o i m' q v -> holds (at_time k) o i m' q v.
Proof.
  intros Hn Hm Hh. destruct (place_of o i m' q v Hh) as (x & b & d & rt & t & X1 & X2 & X3 & -> & X4 & X5 & X6 & X7 & X8).
  destruct call_good as (c & s0 & so & own & H1 & L & G1 & _ & _ & G4 & G5 & _ & G7 & G8). cbn [fst snd] in *. unfold frame in G5. rewrite (lk_blk _ _ _ _ _ _ L), (lk_next _ _ _ _ _ _ L) in *.
  destruct (obj_had E s o x b I X1 X2) as ((F1 & _) & F2 & F3). destruct (F3 i d X3) as [F4 _].
  assert (Hown : forall z, foot s o z -> ~ own z).
  { intros z Hz Ho. destruct (lk_own _ _ _ _ _ _ L z Ho) as [Hf|(fb & sr & He & Hf)].
    - apply Hn. rewrite H1. f_equal. symmetry. eapply (iv_sep E s I); eauto.
    - apply (Hm fb c). rewrite He. f_equal. symmetry. eapply (iv_sep E s I); eauto. }
  pose proof (G7 b F1 (Hown b F2) X8) as Hb. destruct (G5 b F1 Hb) as [Hd _]. eapply place_at; eauto; [now rewrite Hd|].
  apply G8; auto. eapply foot_next; eauto.
Qed.
Lemma call_building o i m' q v : building f = true -> holds s o i m' q v -> exists v', holds (at_time k) o i m' q v' /\ (target op <> Some o -> v' = v).
Proof.
  intros Hf Hh. destruct (place_of o i m' q v Hh) as (x & b & d & rt & t & X1 & X2 & X3 & -> & X4 & X5 & X6 & X7 & X8).
  destruct call_good as (c & s0 & so & own & H1 & L & G1 & _ & _ & G4 & G5 & G6 & _). cbn [fst snd] in *. destruct (G6 Hf) as [G7 G8]. unfold frame in G5. rewrite (lk_blk _ _ _ _ _ _ L), (lk_next _ _ _ _ _ _ L) in *.
  destruct (obj_had E s o x b I X1 X2) as ((F1 & F0) & F2 & F3). destruct (F3 i d X3) as [F4 _]. destruct (F0 i d X3) as [F5 F6].
  pose proof (G7 b F1 X8) as Hb. destruct (G5 b F1 Hb) as [Hd _]. destruct (G8 (md_mixin d) _ F5 X7) as ([mm v'] & Z1 & Z2 & Z3). cbn in Z2. subst mm. exists v'. split.
  - eapply place_at; eauto. now rewrite Hd.
  - intros Hn. assert (Hx : {| i_mixin := m'; i_val := v' |} = {| i_mixin := m'; i_val := v |}) by (apply Z3; congruence). congruence.
Qed.
End One.
End Calls.
