(** What creating, copying, moving and clearing an object does *)
From Coq Require Import List Arith ZArith NArith Lia Bool.
From Verif Require Import Base Sv SvProofs BaseLemmas Info TypeBuild TypeQuery Domain ElemProofs TypesProofs SpecReg SpecDom HistProofs DomTheorems SpecLayout Heap HeapProofs Mutation Object SpecObj SpecMut SpecAct
  PartProofs RollProofs AllocProofs UpdProofs FinProofs PerfProofs WorldProofs ObjProofs OpProofs PlanProofs ActProofs ActProofs2 MatchProofs ActProofs3 MutProofs MutProofs2 MutTheorems ObjTheorems.
Import ListNotations.

Section OT2.
Variable E : env.
Variable U : user.
Hypothesis AM : aligned_mixins E.
Notation Inv := (Inv E).
Notation none := PlanProofs.none.

(** ** What an object holds depends on its own memory only *)
Lemma get_at_eq s o x b r t i p : s_obj s o = Some x -> o_data x = Some b -> type_of s o r t -> i < length (t_mixins t) ->
  (get_at s o i = Ok (Some p) <-> exists d, data_slot s b i = Some d /\ md_mixin d = p).
Proof.
  intros Ho Hd (x' & A1 & A2 & A3) Hl. assert (x' = x) as -> by congruence. unfold get_at. rewrite (type_eval s o x r t _ Ho A2 A3). cbv beta. cbn [fst snd]. unfold num_mixins.
  apply Nat.ltb_lt in Hl. rewrite Hl. unfold data_at. rewrite Hd. unfold bnd, read_data, get_blk, bnd, data_slot. destruct (s_blk s b) as [k|]; [|split; [discriminate|intros (d & A & _); discriminate]].
  destruct (b_data k i) as [d|]; cbn; [|split; [discriminate|intros (d & A & _); discriminate]]. split; [intros [= <-]; eauto|]. intros (d' & [= ->] & ->). auto.
Qed.
Lemma holds_iff s o i m p v : holds s o i m p v <-> exists x b d, s_obj s o = Some x /\ o_data x = Some b /\ has_mixin s o i m /\ data_slot s b i = Some d /\ md_mixin d = p /\ instance s p = Some {| i_mixin := m; i_val := v |}.
Proof.
  split.
  - intros (H1 & H2 & H3). pose proof H1 as (r & t & Hy & Hm). pose proof Hy as (x & A1 & A2 & A3). destruct (o_data x) as [b|] eqn:Hb.
    + apply (get_at_eq s o x b r t i p A1 Hb Hy) in H2; [|now apply nth_error_lt in Hm]. destruct H2 as (d & B1 & B2). exists x, b, d. repeat (split; auto).
    + exfalso. unfold get_at in H2. rewrite (type_eval s o x r t _ A1 A2 A3) in H2. cbv beta in H2. cbn [fst snd] in H2. unfold num_mixins in H2. apply nth_error_lt in Hm. apply Nat.ltb_lt in Hm. rewrite Hm in H2. unfold data_at in H2. rewrite Hb in H2. discriminate.
  - intros (x & b & d & A1 & A2 & A3 & A4 & A5 & A6). split; auto. split; auto. destruct A3 as (r & t & Hy & Hm). apply (get_at_eq s o x b r t i p A1 A2 Hy); [now apply nth_error_lt in Hm|eauto].
Qed.
Definition like (s s' : st) (o o' : nat) : Prop :=
  (forall x, s_obj s o = Some x -> exists x', s_obj s' o' = Some x' /\ o_type x' = o_type x /\ o_data x' = o_data x) /\
  (forall q t, type_of s o q t -> exists n, type_of s' o' q (set_nobj t n)) /\
  (forall b, owns E s o b -> (forall i, data_slot s' b i = data_slot s b i) /\ forall q, instance s' (b, q) = instance s (b, q)).
Lemma like_mixin s s' o o' i m : Inv s -> typed s -> s_obj s o <> None -> like s s' o o' -> (has_mixin s' o' i m <-> has_mixin s o i m).
Proof.
  intros I Ty Hn (L1 & L2 & _). split.
  - intros (r & t & (x & A1 & A2 & A3) & Hm). destruct (s_obj s o) as [y|] eqn:Hy; [|congruence]. destruct (L1 y eq_refl) as (x' & B1 & B2 & B3). assert (x' = x) as -> by congruence.
    rewrite A2 in B2. destruct (w_type (s_w s) r) as [t0|] eqn:Ht0; [|exfalso; apply (type_alive E s o y r I Ty Hy (eq_sym B2) Ht0)].
    assert (Hty : type_of s o r t0) by (exists y; auto). destruct (L2 r t0 Hty) as (n & x' & C1 & C2 & C3). exists r, t0. split; auto. assert (t = set_nobj t0 n) as -> by congruence. exact Hm.
  - intros (r & t & Hy & Hm). destruct (L2 r t Hy) as (n & Hn'). exists r, (set_nobj t n). auto.
Qed.
Lemma like_holds s s' o o' i m p v : Inv s -> typed s -> s_obj s o <> None -> like s s' o o' -> (holds s' o' i m p v <-> holds s o i m p v).
Proof.
  intros I Ty Hn L. pose proof (like_mixin s s' o o' i m I Ty Hn L) as Hmm. destruct L as (L1 & L2 & L3).
  assert (Hf : forall p v, holds s o i m p v -> holds s' o' i m p v).
  { intros p' v' H. pose proof (holds_owns E AM s o i m p' v' I Ty H) as Hw. pose proof H as H0. apply holds_iff in H. destruct H as (x & b & d & A1 & A2 & A3 & A4 & A5 & A6). destruct (L1 x A1) as (x' & B1 & B2 & B3).
    apply holds_iff. exists x', b, d. split; auto. split; [congruence|]. split; [now apply Hmm|]. assert (Hb : owns E s o b) by (exists x, b; auto).
    split; [now rewrite (proj1 (L3 b Hb))|]. split; auto. rewrite <- A6. destruct p'. now apply (proj2 (L3 _ Hw)). }
  split; [|apply Hf]. intros H. pose proof (proj1 H) as Hm. apply Hmm in Hm. destruct (mixin_holds E s o i m I Ty Hm) as (p0 & v0 & H0). pose proof (Hf _ _ H0) as H1. destruct (holds_fun s' o' i m _ _ _ _ H1 H) as [-> ->]. auto.
Qed.
Lemma like_owns s s' o o' b : Inv s -> typed s -> s_obj s o <> None -> like s s' o o' -> (owns E s' o' b <-> owns E s o b).
Proof.
  intros I Ty Hn L. pose proof (fun i m => like_mixin s s' o o' i m I Ty Hn L) as Hmm. destruct L as (L1 & L2 & L3). destruct (s_obj s o) as [x|] eqn:Hx; [|congruence]. destruct (L1 x eq_refl) as (x' & B1 & B2 & B3). split.
  - intros (y & c & C1 & C2 & C3). assert (y = x') as -> by congruence. exists x, c. split; auto. split; [congruence|]. destruct C3 as [->|(i & m & d & D1 & D2 & D3 & D4)]; auto. right. exists i, m, d. rewrite <- Hmm. repeat (split; auto).
    rewrite <- (proj1 (L3 c ltac:(exists x, c; split; [auto|split; [congruence|auto]]))). auto.
  - intros (y & c & C1 & C2 & C3). assert (y = x) as -> by congruence. exists x', c. split; auto. split; [congruence|]. destruct C3 as [->|(i & m & d & D1 & D2 & D3 & D4)]; auto. right. exists i, m, d. rewrite Hmm. repeat (split; auto).
    rewrite (proj1 (L3 c ltac:(exists x, c; split; [auto|split; [congruence|auto]]))). auto.
Qed.
Lemma set_nobj_id t : set_nobj t (t_nobj t) = t.
Proof. now destruct t. Qed.
Lemma same_like s s' o : s_obj s' o = s_obj s o -> (forall q t, type_of s o q t -> exists n, type_of s' o q (set_nobj t n)) -> (forall b, owns E s o b -> same_block s s' b) -> like s s' o o.
Proof. intros H1 H2 H3. split; [intros x Hx; exists x; rewrite H1; auto|]. split; auto. intros b Hb. destruct (H3 b Hb) as (_ & A & B & _). auto. Qed.

(** Other objects keep what they hold. *)
Lemma mutated_other s s' o r mk up l o' i m p v : Inv s -> typed s -> mutated E s s' o r mk up l -> o' <> o -> s_obj s o' <> None -> (holds s' o' i m p v <-> holds s o' i m p v).
Proof.
  intros I Ty M Hne Hn. apply like_holds; auto. apply same_like; [now apply (mt_objects _ _ _ _ _ _ _ _ M)|intros q t; now apply (mt_types _ _ _ _ _ _ _ _ M)|].
  intros b Hb. apply (mt_frame _ _ _ _ _ _ _ _ M); [eapply owns_alive; eauto|]. intros Hw. apply Hne. eapply owns_one; eauto.
Qed.
Lemma wiped_other s s' o l o' i m p v : Inv s -> typed s -> wiped E s s' o l -> o' <> o -> s_obj s o' <> None -> (holds s' o' i m p v <-> holds s o' i m p v).
Proof.
  intros I Ty M Hne Hn. apply like_holds; auto. apply same_like; [now apply (wp_objects _ _ _ _ _ M)|intros q t; now apply (wp_types _ _ _ _ _ M)|].
  intros b Hb. apply (wp_frame _ _ _ _ _ M). intros Hw. apply Hne. eapply owns_one; eauto.
Qed.
Lemma failed_other s s' o ms mk up l o' i m p v : Inv s -> typed s -> failed E s s' o ms mk up l -> o' <> o -> s_obj s o' <> None -> (holds s' o' i m p v <-> holds s o' i m p v).
Proof.
  intros I Ty M Hne Hn. apply like_holds; auto. split; [intros x Hx; exists x; rewrite (fd_objects _ _ _ _ _ _ _ _ M); auto|]. split.
  - intros q t Ht. exists (t_nobj t). rewrite set_nobj_id. now apply (fd_types _ _ _ _ _ _ _ _ M).
  - intros b Hb. split; [intros j; apply (fd_data _ _ _ _ _ _ _ _ M)|]. intros q. apply (fd_other _ _ _ _ _ _ _ _ M). intros j m' v' Hh. apply Hne. apply (holds_owns E AM) in Hh; auto. eapply owns_one; eauto.
Qed.
Lemma unchanged_holds s s' o i m p v : Inv s -> typed s -> unchanged s s' -> types_kept s s' -> (holds s' o i m p v <-> holds s o i m p v).
Proof.
  intros I Ty (H1 & H2) K. destruct (s_obj s o) as [x|] eqn:Hx.
  - apply like_holds; auto; [congruence|]. apply same_like; auto. intros q t Ht. exists (t_nobj t). rewrite set_nobj_id. auto.
  - split; intros ((r & t & (y & A & _) & _) & _); [rewrite H1 in A|]; congruence.
Qed.

(** ** New objects *)
Lemma blank_type s o a o' r t : s_obj s o = None -> (type_of (blank_st s o a) o' r t <-> type_of s o' r t).
Proof.
  intros Hn. unfold type_of, blank_st, set_obj. cbn. split; intros (x & A & B & C); exists x; (split; [|auto]).
  - destruct (Nat.eq_dec o' o) as [->|N]; [rewrite upd_same in A; injection A as <-; discriminate|]. now rewrite upd_other in A.
  - destruct (Nat.eq_dec o' o) as [->|N]; [congruence|]. now rewrite upd_other.
Qed.
Lemma blank_none s o a m : s_obj s o = None -> ~ has_some (blank_st s o a) o m.
Proof. intros Hn (i & r & t & Hy & _). apply (blank_type s o a o r t Hn) in Hy. destruct Hy as (x & A & _). congruence. Qed.
Lemma blank_owns s o a b : ~ owns E (blank_st s o a) o b.
Proof. intros (x & c & A & B & _). unfold blank_st, set_obj in A. cbn in A. rewrite upd_same in A. injection A as <-. discriminate. Qed.
Lemma blank_like s o a o' : s_obj s o = None -> o' <> o -> like s (blank_st s o a) o' o'.
Proof.
  intros Hn Hne. split; [|split].
  - intros x Hx. exists x. unfold blank_st, set_obj. cbn. rewrite upd_other by auto. auto.
  - intros q t Ht. exists (t_nobj t). rewrite set_nobj_id. now apply blank_type.
  - intros b _. split; reflexivity.
Qed.
Lemma blank_holds s o a o' i m p v : Inv s -> typed s -> s_obj s o = None -> (holds (blank_st s o a) o' i m p v <-> holds s o' i m p v).
Proof.
  intros I Ty Hn. destruct (Nat.eq_dec o' o) as [->|N].
  - split; intros H; exfalso; [apply (blank_none s o a m Hn), (holds_mixin _ _ _ _ _ _ H)|]. destruct H as ((r & t & (x & A & _) & _) & _). congruence.
  - destruct (s_obj s o') eqn:Ho'; [apply like_holds; auto; [congruence|now apply blank_like]|].
    split; intros ((r & t & (x & A & _) & _) & _); [|congruence]. unfold blank_st, set_obj in A. cbn in A. rewrite upd_other in A by auto. congruence.
Qed.
Lemma mutated_created s s' o a r mk (up : updates) l : Inv s -> typed s -> s_obj s o = None -> mutated E (blank_st s o a) s' o r mk up l ->
  (exists x, s_obj s' o = Some x /\ o_alloc x = a /\ o_sealed x = false) -> created E s s' o a false (Some r) mk l.
Proof.
  intros I Ty Hn M (x & X1 & X2 & X3). destruct (mt_type _ _ _ _ _ _ _ _ M) as (t & x' & T1 & T2 & T3). assert (x' = x) as -> by congruence. constructor.
  - exact (mt_did _ _ _ _ _ _ _ _ M).
  - exists x. auto.
  - intros q [= <-]. exists t, x. auto.
  - intros i m Hm. destruct (mt_new _ _ _ _ _ _ _ _ M i m Hm (blank_none s o a m Hn)) as (p & v & f & src & H1 & H2 & H3 & H4 & H5). exists p, v, f, src. auto.
  - intros m Hm. apply (mt_quiet _ _ _ _ _ _ _ _ M); auto. now apply blank_none.
  - intros o' Hne. rewrite (mt_objects _ _ _ _ _ _ _ _ M) by auto. unfold blank_st, set_obj. cbn. now rewrite upd_other.
  - intros o' q t' Hne Ht. apply (mt_types _ _ _ _ _ _ _ _ M); auto. now apply blank_type.
  - intros b Hb. apply (mt_frame _ _ _ _ _ _ _ _ M b Hb). apply blank_owns.
  - intros b Hb. destruct (mt_memory _ _ _ _ _ _ _ _ M b Hb) as [[A _]|A]; auto.
  - intros b Hb. destruct (mt_fresh _ _ _ _ _ _ _ _ M b Hb) as [A|A]; [auto|]. now apply blank_owns in A.
Qed.
Lemma seal_like s o x b : s_obj s o = Some x -> forall o', like s (set_obj s o (Some (with_sealed x b))) o' o'.
Proof.
  intros Ho o'. split; [|split].
  - intros y Hy. unfold set_obj. cbn. destruct (Nat.eq_dec o' o) as [->|N]; [rewrite upd_same; exists (with_sealed x b); assert (y = x) as -> by congruence; auto|rewrite upd_other by auto; eauto].
  - intros q t (y & A & B & C). exists (t_nobj t). rewrite set_nobj_id. unfold type_of, set_obj. cbn. destruct (Nat.eq_dec o' o) as [->|N]; [rewrite upd_same; exists (with_sealed x b); assert (y = x) as -> by congruence; auto|rewrite upd_other by auto; eauto].
  - intros c _. split; reflexivity.
Qed.
Lemma sealed_created s s' o a r mk l x sl : Inv s' -> typed s' -> created E s s' o a false r mk l -> s_obj s' o = Some x -> created E s (set_obj s' o (Some (with_sealed x sl))) o a sl r mk l.
Proof.
  intros I' Ty' C Hx. assert (L := fun o' => seal_like s' o x sl Hx o'). set (s2 := set_obj s' o (Some (with_sealed x sl))) in *.
  assert (Hn : s_obj s' o <> None) by congruence. assert (Hm : forall i m, has_mixin s2 o i m <-> has_mixin s' o i m) by (intros; now apply like_mixin).
  assert (Hs : forall m, has_some s2 o m <-> has_some s' o m) by (intros; unfold has_some; split; intros (i & Hi); exists i; now apply Hm).
  assert (Hh : forall i m p v, holds s2 o i m p v <-> holds s' o i m p v) by (intros; now apply like_holds).
  assert (Hw : forall b, owns E s2 o b <-> owns E s' o b) by (intros; now apply like_owns).
  constructor.
  - exact (cr_did _ _ _ _ _ _ _ _ _ C).
  - destruct (cr_obj _ _ _ _ _ _ _ _ _ C) as (y & A1 & A2 & A3 & A4). assert (y = x) as -> by congruence. exists (with_sealed x sl). unfold s2, set_obj. cbn. rewrite upd_same. auto.
  - intros q Hq. destruct (cr_type _ _ _ _ _ _ _ _ _ C q Hq) as (t & Ht). destruct (proj1 (proj2 (L o)) q t Ht) as (n & Hn'). eauto.
  - intros i m Hi. apply Hm in Hi. destruct (cr_new _ _ _ _ _ _ _ _ _ C i m Hi) as (p & v & f & src & H1 & H2 & H3 & H4 & H5). exists p, v, f, src. rewrite Hh. auto.
  - intros m Hi. apply (cr_quiet _ _ _ _ _ _ _ _ _ C). now rewrite <- Hs.
  - intros o' Hne. unfold s2, set_obj. cbn. rewrite upd_other by auto. now apply (cr_objects _ _ _ _ _ _ _ _ _ C).
  - intros o' q t Hne Ht. destruct (cr_types _ _ _ _ _ _ _ _ _ C o' q t Hne Ht) as (n & Ht'). destruct (proj1 (proj2 (L o')) q _ Ht') as (k & Hk). rewrite set_nobj_set in Hk. eauto.
  - exact (cr_frame _ _ _ _ _ _ _ _ _ C).
  - intros b Hb. rewrite Hw. apply (cr_memory _ _ _ _ _ _ _ _ _ C b Hb).
  - intros b Hb. apply (cr_fresh _ _ _ _ _ _ _ _ _ C). now apply Hw.
Qed.
Lemma killed_unchanged s s2 o a : s_obj s o = None -> unchanged (blank_st s o a) s2 -> types_kept (blank_st s o a) s2 -> unchanged s (set_obj s2 o None) /\ types_kept s (set_obj s2 o None).
Proof.
  intros Hn (H1 & H2) K. split; [split|].
  - intros o'. unfold set_obj. cbn. destruct (Nat.eq_dec o' o) as [->|N]; [now rewrite upd_same|]. rewrite upd_other, H1 by auto. unfold blank_st, set_obj. cbn. now rewrite upd_other.
  - exact H2.
  - intros o' q t Ht. pose proof Ht as (y & A & _). apply (blank_type s o a o' q t Hn) in Ht. apply K in Ht. destruct Ht as (z & B1 & B2 & B3). exists z. unfold set_obj. cbn. rewrite upd_other by congruence. auto.
Qed.
Lemma nothing_else s o a o' m : s_obj s o = None -> (has_some (blank_st s o a) o' m <-> has_some s o' m).
Proof. intros Hn. unfold has_some, has_mixin. split; intros (i & r & t & A & B); exists i, r, t; (split; [|auto]); now apply (blank_type s o a o' r t Hn). Qed.

Lemma blank_reset s o a r unw s2 res : Inv s -> typed s -> s_obj s o = None -> reset_out E U (blank_st s o a) o (blank a) r unw s2 res -> Inv s2 -> typed s2 ->
  match res with
  | Ok _ => (exists l, created E s s2 o a false (Some r) (default_made E) l) \/ unw = true /\ unchanged (blank_st s o a) s2 /\ types_kept (blank_st s o a) s2
  | Throw e => unchanged (blank_st s o a) s2 /\ types_kept (blank_st s o a) s2 /\ may_throw E (blank_st s o a) s2 o r (fun _ _ => False) e
  | Ub _ => False
  end.
Proof.
  intros I Ty Hn H I2 Ty2. destruct (blank_inv E s o a I Ty Hn) as (Ib & Tyb & Hb). inversion H as [Hs He|Hs Hr He|t Hs Hr Ht Hm Hrr Hem|t res' Hs Hr Ht Hm Hf Hout]; subst; try discriminate.
  - left. destruct (emptied_wiped E AM _ o _ _ s2 Ib Tyb Hb Hem) as (l & W). exists l. assert (Hy : s_obj s2 o = Some (with_otype (with_odata (blank a) None) (Some (TEmpty (t_dom t))))) by (destruct Hem as (s1 & _ & ->); cbn; now rewrite upd_same).
    destruct Hem as (s1 & C & ->). destruct (cl_type2 E _ o _ s1 _ t C Ht) as (n & Hn1). eapply (mutated_created s _ o a _ _ no_updates); auto; [|exists (with_otype (with_odata (blank a) None) (Some (TEmpty (t_dom t)))); rewrite Hy; auto].
    eapply (wiped_mutated E AM (blank_st s o a) _ o _ _ (set_nobj t n)); eauto; reflexivity.
  - assert (Hov : forall i m k, nth_error (t_mixins t) i = Some m -> (none i = Some k <-> (fun (_ : mptr) (_ : nat) => False) m k)) by (intros; unfold none; split; [discriminate|intros []]).
    pose proof (ov_spec E U AM (blank_st s o a) o (blank a) r t none none (fun _ _ => False) (fun _ _ => False) unw s2 res False Ib Tyb I2 Ty2 Hout Hov Hov) as Hsp.
    pose proof (outcome_obj E U (blank_st s o a) o (blank a) r t _ _ False unw s2 res Hb Hout) as Hob. destruct res as [[]|e|u]; auto.
    + destruct Hsp as [_ Hsp]. destruct unw.
      { right. split; auto. destruct Hsp as (l & Hl). assert (Hf' : failed E (blank_st s o a) s2 o (t_mixins t) (default_made E) no_updates l) by (eapply failed_weak; [| |exact Hl]; [apply made_default|apply updated_none]).
        split; [eapply (failed_unchanged E AM _ _ _ _ _ no_updates); eauto; auto|]. exact (fd_types _ _ _ _ _ _ _ _ Hf'). }
      left. destruct Hsp as (l & Hl). exists l. destruct Hob as (x' & X1 & [(_ & X2 & X3 & X4 & X5)|[[=] _]]).
      eapply (mutated_created s s2 o a r (default_made E) no_updates); auto; [|exists x'; auto]. eapply mutated_weak; [| |exact Hl]; [apply made_default|apply updated_none].
    + destruct Hsp as (l & Hl). assert (Hf' : failed E (blank_st s o a) s2 o (t_mixins t) (default_made E) no_updates l) by (eapply failed_weak; [| |exact Hl]; [apply made_default|apply updated_none]).
      split; [eapply (failed_unchanged E AM _ _ _ _ _ no_updates); eauto; auto|]. split; [exact (fd_types _ _ _ _ _ _ _ _ Hf')|]. eapply outcome_reason; eauto.
Qed.
Lemma blank_stillborn s o a s2 : s_obj s o = None -> unchanged (blank_st s o a) s2 -> types_kept (blank_st s o a) s2 -> stillborn s s2 o.
Proof.
  intros Hn [A B] T. constructor.
  - exists (blank a). rewrite A. unfold blank_st, set_obj. cbn. rewrite upd_same. auto.
  - intros o' Hne. rewrite A. unfold blank_st, set_obj. cbn. now rewrite upd_other.
  - intros o' q t Hne H. apply T. now apply blank_type.
  - exact B.
Qed.
Lemma sealed_stillborn s s2 o x sl : s_obj s2 o = Some x -> stillborn s s2 o -> stillborn s (set_obj s2 o (Some (with_sealed x sl))) o.
Proof.
  intros Hx [(y & A1 & A2 & A3) B C D]. assert (y = x) as -> by congruence. constructor.
  - exists (with_sealed x sl). unfold set_obj. cbn. rewrite upd_same. auto.
  - intros o' Hne. unfold set_obj. cbn. rewrite upd_other by auto. auto.
  - intros o' q t Hne H. destruct (C o' q t Hne H) as (z & C1 & C2 & C3). exists z. unfold set_obj. cbn. rewrite upd_other by auto. auto.
  - exact D.
Qed.
Lemma new_spec s o r a sl unw s' res : Inv s -> typed s -> fair E s (ONew unw o r a sl) -> op_run E U (ONew unw o r a sl) s = (s', res) ->
  match res with
  | Ok _ => (exists l, created E s s' o a sl (Some r) (default_made E) l) \/ unw = true /\ stillborn s s' o
  | Throw e => unchanged s s' /\ types_kept s s' /\
      match e with EMissingFunc => exists t m, w_type (s_w s) r = Some t /\ In m (t_mixins t) /\ m_init (e_mixin E m) = false | EUserFunc _ | EBadAlloc => True | _ => False end
  | Ub _ => False
  end.
Proof.
  intros I Ty (F1 & F2) Hr. destruct (act_new E U AM s o r a sl unw I Ty F1 F2) as (s0 & res0 & H0 & Hout & I' & Ty'). cbn in Hr. rewrite H0 in Hr. injection Hr as <- <-.
  inversion Hout as [s2 x2 I2 Ty2 Hro Hx Hs'|s2 e I2 Ty2 Hro Hs']; subst; pose proof (blank_reset s o a r unw s2 _ I Ty F1 Hro I2 Ty2) as H.
  - destruct H as [(l & H)|(H1 & H2 & H3)]; [left; exists l; now apply sealed_created|]. right. split; auto. apply sealed_stillborn; auto. eapply blank_stillborn; eauto.
  - destruct H as (A & B & C). destruct (killed_unchanged s s2 o a F1 A B) as [D1 D2]. split; auto. split; auto. destruct e; auto.
    + destruct C as (x & C1 & C2). unfold blank_st, set_obj in C1. cbn in C1. rewrite upd_same in C1. injection C1 as <-. discriminate.
    + destruct C as (t & m & C1 & C2 & C3 & C4 & C5). destruct (w_type (s_w s) r) as [t0|] eqn:Ht0; [|congruence]. exists t0, m. split; auto.
      inversion Hro as [| | |t' res' Hs Hr Ht Hm Hf Ho]; subst; try discriminate. assert (t' = t0) by (cbn in Ht; congruence). subst t'.
      inversion Ho as [| | |old r0 t1 ddo e' SU H1 G R]; subst. destruct G as (oldv & k & tb & dd & u' & lx & K & _). rewrite (wl_type _ _ (kp_w _ _ _ _ _ _ _ _ _ K)) in C1. cbn in C1. assert (t = t0) by congruence. now subst.
Qed.

(** ** Copies *)
Lemma copy_plan s o src y a b r t dy : Inv s -> typed s -> s_obj s o = None -> whole E s src y b r t dy ->
  (forall t0 i m f q, nth_error (t_mixins t) i = Some m -> cp_new E (blank_st s o a) t None t0 dy i = Some (f, q) -> copies_made E s src i m f q /\ (forall q', q = Some q' -> exists v, instance (blank_st s o a) q' = Some {| i_mixin := m; i_val := v |})).
Proof.
  intros I Ty Hn W t0 i m f q Hm Hc. unfold cp_new in Hc. destruct (nw _ _ _ _ i); [|discriminate]. rewrite Hm in Hc. destruct (m_copy_init (e_mixin E m)) eqn:Hci; [|discriminate]. injection Hc as <- <-.
  destruct (whole_inst E s src y b r t dy i m I W Hm) as (v & Hv). split.
  - split; auto. split; auto. exists (md_mixin (dy i)), v. split; auto. eapply whole_holds; eauto.
  - intros q' [= <-]. exists v. exact Hv.
Qed.
Lemma copy_spec s o src a unw s' res : Inv s -> typed s -> fair E s (OCopy unw o src a) -> op_run E U (OCopy unw o src a) s = (s', res) ->
  match res with
  | Ok _ => (exists l, created E s s' o a false (otype s src) (copies_made E s src) l) \/ unw = true /\ stillborn s s' o
  | Throw e => unchanged s s' /\ types_kept s s' /\ match e with EMissingFunc => exists m, has_some s src m /\ m_copy_init (e_mixin E m) = false | EUserFunc _ | EBadAlloc => True | _ => False end
  | Ub _ => False
  end.
Proof.
  intros I Ty (F1 & F2) Hr. destruct (s_obj s src) as [y|] eqn:Hy; [|congruence]. destruct (act_copy E U AM s o src y a unw I Ty F1 Hy) as (s0 & res0 & H0 & Hout & I' & Ty'). cbn in Hr. rewrite H0 in Hr. injection Hr as <- <-.
  destruct (blank_inv E s o a I Ty F1) as (Ib & Tyb & Hb). unfold otype. rewrite Hy.
  inversion Hout as [Hd Hs'|b r t dy W Ho|b r t dy s2 e I2 Ty2 W Ho Hs']; subst.
  - left. exists []. assert (Hobj : s_obj (set_obj (blank_st s o a) o (Some (with_otype (blank a) (o_type y)))) o = Some (with_otype (blank a) (o_type y))) by (unfold set_obj; cbn; now rewrite upd_same).
    assert (Hdn : forall m, ~ has_some (set_obj (blank_st s o a) o (Some (with_otype (blank a) (o_type y)))) o m).
    { intros m. eapply has_nothing; eauto. }
    constructor.
    + unfold did. cbn. now rewrite app_nil_r.
    + exists (with_otype (blank a) (o_type y)). auto.
    + intros q Hq. pose proof (type_alive E s src y q I Ty Hy Hq) as Ha. destruct (w_type (s_w s) q) as [t|] eqn:Ht; [|congruence]. exists t, (with_otype (blank a) (o_type y)). cbn. auto.
    + intros i m Hm. exfalso. apply (Hdn m). now exists i.
    + auto.
    + intros o' Hne. unfold set_obj. cbn. now rewrite !upd_other.
    + intros o' q t Hne (z & A1 & A2 & A3). exists (t_nobj t), z. rewrite set_nobj_id. unfold set_obj. cbn. rewrite !upd_other; auto.
    + intros c _. repeat split.
    + auto.
    + intros c (z & b & A1 & A2 & _). rewrite Hobj in A1. injection A1 as <-. discriminate.
  - pose proof (outcome_spec E U AM (blank_st s o a) o (blank a) r t _ _ False unw s0 (Ok tt) (copies_made E s src) no_updates Ib Tyb I' Ty' Ho) as Hsp.
    destruct Hsp as [_ Hsp]; [intros old r0 t0 ddo SU H1; split; [intros i m f q; now apply (copy_plan s o src y a b r t dy)|intros i m Hm; split; [reflexivity|discriminate]]|].
    destruct unw.
    { right. split; auto. destruct Hsp as (l & Hl). eapply (blank_stillborn s o a); auto; [eapply (failed_unchanged E AM _ _ _ _ _ no_updates); eauto; auto|exact (fd_types _ _ _ _ _ _ _ _ Hl)]. }
    left. destruct Hsp as (l & Hl). exists l. destruct W as (_ & _ & W3 & _). rewrite W3. pose proof (outcome_obj E U (blank_st s o a) o (blank a) r t _ _ False false s0 (Ok tt) Hb Ho) as (x' & X1 & [(_ & X2 & X3 & X4 & X5)|[[=] _]]).
    eapply (mutated_created s s0 o a r _ no_updates); eauto.
  - pose proof (outcome_spec E U AM (blank_st s o a) o (blank a) r t _ _ False unw s2 (Throw e) (copies_made E s src) no_updates Ib Tyb I2 Ty2 Ho) as Hsp.
    destruct Hsp as (l & Hl); [intros old r0 t0 ddo SU H1; split; [intros i m f q; now apply (copy_plan s o src y a b r t dy)|intros i m Hm; split; [reflexivity|discriminate]]|].
    assert (Hu : unchanged (blank_st s o a) s2) by (eapply (failed_unchanged E AM _ _ _ _ _ no_updates); eauto; auto).
    destruct (killed_unchanged s s2 o a F1 Hu (fd_types _ _ _ _ _ _ _ _ Hl)) as [D1 D2]. split; auto. split; auto.
    inversion Ho as [| | |old r0 t1 ddo e' SU H1 G R]; subst. destruct R as [Hs ->|k -> Hk|u Hu' Hnw Hp ->|k u Hu' _ _ Hk ->|[]]; auto; [discriminate|].
    destruct (nth_error (t_mixins t) u) as [m|] eqn:Hm; [|apply nth_error_None in Hm; lia]. exists m. split; [apply (has_whole E s src y b r t dy m W); eapply nth_error_In; eauto|].
    cbn [o_data blank] in Hnw. unfold cp_new in Hp. rewrite Hnw, Hm in Hp. destruct (m_copy_init (e_mixin E m)); [discriminate|auto].
Qed.
End OT2.
