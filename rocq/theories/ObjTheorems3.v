(** What copy_from, moving, sealing and clearing do *)
From Coq Require Import List Arith ZArith NArith Lia Bool.
From Verif Require Import Base Sv SvProofs BaseLemmas Info TypeBuild TypeQuery Domain ElemProofs TypesProofs SpecReg SpecDom HistProofs DomTheorems SpecLayout Heap HeapProofs Mutation Object SpecObj SpecMut SpecAct
  PartProofs RollProofs AllocProofs UpdProofs FinProofs PerfProofs WorldProofs ObjProofs OpProofs PlanProofs ActProofs ActProofs2 MatchProofs ActProofs3 MutProofs MutProofs2 MutTheorems ObjTheorems ObjTheorems2.
Import ListNotations.

Section OT3.
Variable E : env.
Variable U : user.
Hypothesis AM : aligned_mixins E.
Notation Inv := (Inv E).
Notation none := PlanProofs.none.

(** Updates concern the mixins the object has. *)
Lemma mutated_common s s' o r mk (up up' : updates) l : (forall i m c, has_some s o m -> up i m c -> up' i m c) -> mutated E s s' o r mk up l -> mutated E s s' o r mk up' l.
Proof.
  intros H M. destruct M. constructor; auto.
  - intros i j m p v A B C. destruct (mt_stay i j m p v A B C) as (v' & c & D1 & D2 & D3 & D4). exists v', c. split; auto. split; auto. apply H; auto. eapply holds_mixin; eauto.
  - intros i j m p v A B C D. destruct (mt_moved i j m p v A B C D) as (p' & v' & c & D1 & D2 & D3 & D4 & D5 & D6). exists p', v', c. repeat (split; auto). apply H; auto. eapply holds_mixin; eauto.
Qed.
Lemma failed_common s s' o ms mk (up up' : updates) l : (forall i m c, has_some s o m -> up i m c -> up' i m c) -> failed E s s' o ms mk up l -> failed E s s' o ms mk up' l.
Proof.
  intros H M. destruct M. constructor; auto. intros i j m p v A B. destruct (fd_common i j m p v A B) as [C|(f & src & err & C1 & C2)]; auto. right. exists f, src, err. split; auto. apply H; auto. eapply holds_mixin; eauto.
Qed.

Definition copied_calls (s : st) (src : nat) : updates := fun i m c => exists q v, c = Some (FCopyAsgn, Some q) /\ holds s src i m q v.
Lemma from_plan s x src y b r t dy : Inv s -> typed s -> whole E s src y b r t dy ->
  forall t0, (forall i m f q, nth_error (t_mixins t) i = Some m -> cp_new E s t (o_data x) t0 dy i = Some (f, q) -> copies_made E s src i m f q /\ (forall q', q = Some q' -> exists v, instance s q' = Some {| i_mixin := m; i_val := v |})) /\
   (forall i m, nth_error (t_mixins t) i = Some m -> copied_calls s src i m (act_of (cp_com dy i)) /\ (forall q, cp_com dy i = CCopy q -> exists v, instance s q = Some {| i_mixin := m; i_val := v |})).
Proof.
  intros I Ty W t0. split.
  - intros i m f q Hm Hc. unfold cp_new in Hc. destruct (nw _ _ _ _ i); [|discriminate]. rewrite Hm in Hc. destruct (m_copy_init (e_mixin E m)) eqn:Hci; [|discriminate]. injection Hc as <- <-.
    destruct (whole_inst E s src y b r t dy i m I W Hm) as (v & Hv). split.
    + split; auto. split; auto. exists (md_mixin (dy i)), v. split; auto. eapply whole_holds; eauto.
    + intros q' [= <-]. exists v. exact Hv.
  - intros i m Hm. destruct (whole_inst E s src y b r t dy i m I W Hm) as (v & Hv). split.
    + exists (md_mixin (dy i)), v. split; [reflexivity|]. eapply whole_holds; eauto.
    + intros q [= <-]. exists v. exact Hv.
Qed.
Definition no_copy_function (s : st) (o src : nat) : Prop :=
  exists m, has_some s src m /\ (has_some s o m /\ m_copy_asgn (e_mixin E m) = false \/ ~ has_some s o m /\ m_copy_init (e_mixin E m) = false).
Lemma has_own s o x q t0 b r t dy src y m : Inv s -> typed s -> s_obj s o = Some x -> o_type x = Some q -> w_type (s_w s) q = Some t0 -> whole E s src y b r t dy -> same_domain s o src -> In m (t_mixins t) ->
  (type_has_id t0 (w_mid (s_w s) m) = true <-> has_some s o m).
Proof.
  intros I Ty Ho Hq Ht0 W SD Hm. rewrite has_id_index. assert (H : type_of s o q t0) by (exists x; auto). split.
  - intros (i & Hi). destruct (o_data x) as [c|] eqn:Hd; [|destruct (empty_index E s o x q t0 (w_mid (s_w s) m) I Ty Ho Hd Hq Ht0) as [_ Z]; congruence].
    destruct (whole_of E s o x c I Ho Hd) as (q' & t' & dx & W0). pose proof W0 as (_ & _ & B1 & B2 & B3 & _). assert (q' = q) as -> by congruence. assert (t' = t0) as -> by congruence.
    destruct W as (C0 & _ & C1 & C2 & C3 & _). assert (In m (t_mixins t0)) by (apply (shared_mixin E s q t0 r t m i); auto; apply (SD x y q r); auto).
    apply (has_whole E s o x c q t0 dx m W0). auto.
  - intros (i & q' & t' & Hy & Hi). destruct (type_of_fun s o q t0 q' t' H Hy) as [-> ->]. eapply (mixin_has E AM); eauto. eapply nth_error_In; eauto.
Qed.
Lemma from_spec s o src unw s' res : Inv s -> typed s -> fair E s (OCopyFrom unw o src) -> op_run E U (OCopyFrom unw o src) s = (s', res) ->
  match res with
  | Ok _ => ~ sealed s o /\
      ((is_nonempty s src /\ exists r l, otype s src = Some r /\ mutated E s s' o r (copies_made E s src) (copies_assigned E s src) l) \/
       (~ is_nonempty s src /\ (exists l, wiped E s s' o l) /\ exists x y, s_obj s o = Some x /\ s_obj s src = Some y /\ s_obj s' o = Some (with_otype (with_odata x None) (o_type y))) \/
       (unw = true /\ is_nonempty s src /\ exists ms l, failed E s s' o ms (copies_made E s src) (copies_assigned E s src) l))
  | Throw e => (exists ms l, failed E s s' o ms (copies_made E s src) (copies_assigned E s src) l) /\
      match e with ESealed => sealed s o | EMissingFunc => no_copy_function s o src | EUserFunc _ | EBadAlloc => True | _ => False end
  | Ub _ => False
  end.
Proof.
  intros I Ty ((x & Ho & Hxt) & Hn & SD) Hr. destruct (s_obj s src) as [y|] eqn:Hy; [|congruence]. destruct (act_from E U AM s o x src y unw I Ty Ho Hxt Hy SD) as (s0 & res0 & H0 & Hout & I' & Ty'). cbn in Hr. rewrite H0 in Hr. injection Hr as <- <-.
  inversion Hout as [Hd Hse Hs'|Hd Hse Hem|b r t dy q t0 m W Hq Ht0 Hm Hc Hs'|b r t dy q t0 res' W Hq Ht0 Hc Hf Ho']; subst.
  - split; [exists [], []; apply failed_refl|exists x; auto].
  - split; [intros (x' & A & B); congruence|]. right. left. split; [intros (y' & A & B); congruence|]. destruct (emptied_wiped E AM s o x _ s0 I Ty Ho Hem) as (l & Hl). split; [eauto|]. exists x, y. split; auto. split; auto.
    destruct Hem as (s1 & _ & ->). cbn. now rewrite upd_same.
  - split; [exists [], []; apply failed_refl|]. exists m. split; [apply (has_whole E s src y b r t dy m W); auto|]. pose proof (has_own s o x q t0 b r t dy src y m I Ty Ho Hq Ht0 W SD Hm) as Hh. destruct (type_has_id t0 (w_mid (s_w s) m)); [left; split; auto; now apply Hh|right; split; auto].
    intros Z. apply Hh in Z. discriminate.
  - pose proof (outcome_spec E U AM s o x r t _ _ False unw s0 res0 (copies_made E s src) (copied_calls s src) I Ty I' Ty' Ho') as Hsp.
    specialize (Hsp ltac:(intros old r0 t1 ddo _ _; apply (from_plan s x src y b r t dy I Ty W))).
    assert (Hcm : forall i m c, has_some s o m -> copied_calls s src i m c -> copies_assigned E s src i m c).
    { intros i m c Hs (p & v & -> & Hh). exists p, v. split; auto. split; auto. apply (holds_whole E s src i m p v y b r t dy W) in Hh. destruct Hh as [Hh _]. apply nth_error_In in Hh. specialize (Hc m Hh).
      now rewrite (proj2 (has_own s o x q t0 b r t dy src y m I Ty Ho Hq Ht0 W SD Hh) Hs) in Hc. }
    assert (Hne : is_nonempty s src) by (destruct W as (A & B & _); exists y; split; auto; congruence).
    destruct res0 as [[]|e|u]; auto.
    + destruct Hsp as [Hse Hsp]. split; [intros (x' & A & B); congruence|]. destruct unw.
      * right. right. split; auto. split; auto. destruct Hsp as (l & Hl). exists (t_mixins t), l. eapply failed_common; eauto.
      * left. split; auto. destruct Hsp as (l & Hl). exists r, l. destruct W as (A & B & C & _). split; [unfold otype; now rewrite A|]. eapply mutated_common; eauto.
    + split; [destruct Hsp as (l & Hl); exists (t_mixins t), l; eapply failed_common; eauto|].
      inversion Ho' as [| | |old r0 t1 ddo e' SU H1 G R]; subst. destruct R as [Hs ->|k -> Hk|u Hu' Hnw Hp ->|k u Hu' _ _ Hk ->|[]]; auto; [exists x; auto|].
      destruct (nth_error (t_mixins t) u) as [m|] eqn:Hm; [|apply nth_error_None in Hm; lia]. exists m. split; [apply (has_whole E s src y b r t dy m W); eapply nth_error_In; eauto|].
      right. pose proof (nw_has E s o x old r t r0 t1 ddo I Ty SU H1 u m Hm) as Hnh. split; [now apply Hnh|]. unfold cp_new in Hp. rewrite Hnw, Hm in Hp. destruct (m_copy_init (e_mixin E m)); [discriminate|auto].
Qed.

(** ** Moving *)
Lemma usurped_took s s1 s' o x1 src y d : Inv s -> typed s -> o <> src -> s_obj s src = Some y -> object_domain s src d -> o_alloc x1 = o_alloc y ->
  (forall o', o' <> o -> s_obj s1 o' = s_obj s o') -> (forall o' q t, o' <> o -> type_of s o' q t -> exists n, type_of s1 o' q (set_nobj t n)) ->
  (forall b, owns E s o b -> allocation s1 b = None) -> (forall b, ~ owns E s o b -> same_block s s1 b) ->
  usurped E s1 o x1 src y d s' -> took E s s' o src.
Proof.
  intros I Ty Hne Hy Hd Ha Ho1 Ht1 Hf1 Hk1 W. assert (W1 := us_obj _ _ _ _ _ _ _ _ W).
  assert (Hal : forall b, allocation s' b = allocation s1 b).
  { intros b. pose proof (us_attr _ _ _ _ _ _ _ _ W b) as A. unfold battr in A. unfold allocation. destruct (s_blk s' b), (s_blk s1 b); cbn in A; congruence. }
  assert (Hin : forall p, instance s' p = instance s1 p) by (intros p; exact (us_inst _ _ _ _ _ _ _ _ W p)).
  assert (Hda : forall b i, data_slot s' b i = data_slot s1 b i) by (intros b i; exact (us_dat _ _ _ _ _ _ _ _ W b i)).
  assert (Hsrc : s_obj s' src = Some {| o_type := Some (TEmpty d); o_data := None; o_alloc := o_alloc y; o_sealed := o_sealed y |}) by (rewrite W1, Nat.eqb_refl; auto).
  assert (Hob : s_obj s' o = Some {| o_type := o_type y; o_data := o_data y; o_alloc := o_alloc x1; o_sealed := o_sealed y |}).
  { rewrite W1, Nat.eqb_refl. apply Nat.eqb_neq in Hne. now rewrite Hne. }
  assert (Hoth : forall o', o' <> o -> o' <> src -> s_obj s' o' = s_obj s o').
  { intros o' A B. rewrite W1. apply Nat.eqb_neq in A as A', B as B'. rewrite A', B'. now apply Ho1. }
  assert (Hwt : s_w s' = s_w s1) by (exact (us_w _ _ _ _ _ _ _ _ W)).
  assert (Hnw : forall o' b, o' <> o -> owns E s o' b -> ~ owns E s o b) by (intros o' b A B C; apply A; eapply owns_one; eauto).
  constructor; auto.
  - intros y' Hy'. assert (y' = y) as -> by congruence. rewrite Hob. eexists. split; [reflexivity|]. cbn. auto.
  - intros q t Ht. destruct (Ht1 src q t (not_eq_sym Hne) Ht) as (n & x' & A1 & A2 & A3). exists n. eexists. split; [exact Hob|]. cbn. destruct Ht as (y' & B1 & B2 & B3). assert (y' = y) as -> by congruence. split; auto. now rewrite Hwt.
  - intros i m p v. apply (like_holds E AM); auto; [congruence|]. split; [intros y' Hy'; assert (y' = y) as -> by congruence; rewrite Hob; eauto|]. split.
    + intros q t Ht. destruct (Ht1 src q t (not_eq_sym Hne) Ht) as (n & x' & A1 & A2 & A3). exists n. eexists. split; [exact Hob|]. cbn. destruct Ht as (y' & B1 & B2 & B3). assert (y' = y) as -> by congruence. split; auto. now rewrite Hwt.
    + intros b Hb. destruct (Hk1 b (Hnw src b (not_eq_sym Hne) Hb)) as (_ & D1 & D2 & _). split; [intros j; now rewrite Hda|intros p'; now rewrite Hin].
  - intros y' d' Hy' Hd'. assert (y' = y) as -> by congruence. destruct Hd as (r1 & t1 & A1 & <-), Hd' as (r2 & t2 & B1 & <-). destruct (type_of_fun s src r1 t1 r2 t2 A1 B1) as [-> ->]. auto.
  - intros o' i m p v A B. destruct (s_obj s o') as [z|] eqn:Hz.
    + apply (like_holds E AM); auto; [congruence|]. split; [intros z' Hz'; exists z'; rewrite Hoth; auto|]. split.
      * intros q t Ht. destruct (Ht1 o' q t A Ht) as (n & x' & A1 & A2 & A3). exists n, x'. rewrite Hoth by auto. rewrite Ho1 in A1 by auto. rewrite Hwt. auto.
      * intros b Hb. destruct (Hk1 b (Hnw o' b A Hb)) as (_ & D1 & D2 & _). split; [intros j; now rewrite Hda|intros p'; now rewrite Hin].
    + specialize (Hoth o' A B). split; intros ((r & t & (z & C & _) & _) & _); congruence.
  - intros b Hb. rewrite Hal. auto.
  - intros b Hb. destruct (Hk1 b Hb) as (D0 & D1 & D2 & _). split; [now rewrite Hal|]. intros q. now rewrite Hin.
Qed.
Lemma type_domain s o x : Inv s -> typed s -> s_obj s o = Some x -> o_type x <> None -> exists d, object_domain s o d.
Proof. intros I Ty Ho Hn. destruct (the_type_ok E s o x I Ty Ho Hn) as (r & t & A & B & _). exists (t_dom t), r, t. split; auto. exists x. auto. Qed.
Lemma moved_spec s o src s' res : Inv s -> typed s -> fair E s (OMoved o src) -> op_run E U (OMoved o src) s = (s', res) -> res = Ok tt /\ took E s s' o src /\ did s s' [].
Proof.
  intros I Ty (F1 & y & Hy & Hn) Hr. destruct (the_type_ok E s src y I Ty Hy Hn) as (r & t & A & B & _). destruct (act_moved E AM s o src y r t I Ty F1 Hy A B) as (s0 & H0 & W & I' & Ty'). cbn in Hr. rewrite H0 in Hr. injection Hr as <- <-.
  assert (Hne : o <> src) by congruence. split; auto. split.
  - eapply (usurped_took s (blank_st s o (o_alloc y)) s0 o (blank (o_alloc y)) src y (t_dom t)); auto.
    + exists r, t. split; auto. exists y. auto.
    + intros o' Hne'. unfold blank_st, set_obj. cbn. now rewrite upd_other.
    + intros o' q t' Hne' Ht. exists (t_nobj t'). rewrite set_nobj_id. now apply blank_type.
    + intros b (x & c & C & _). congruence.
    + intros b _. apply same_block_eq. reflexivity.
  - unfold did. rewrite (us_log _ _ _ _ _ _ _ _ W), app_nil_r. reflexivity.
Qed.
Lemma move_spec s o src s' res : Inv s -> typed s -> fair E s (OMoveAssign o src) -> op_run E U (OMoveAssign o src) s = (s', res) ->
  match res with
  | Ok _ => o = src /\ s' = s \/ o <> src /\ ~ sealed s o /\ took E s s' o src /\ exists l, did s s' l /\ only_destroys E s o l
  | Throw e => s' = s /\ o <> src /\ match e with ESealed => sealed s o | EMismatchedAllocators => exists x y, s_obj s o = Some x /\ s_obj s src = Some y /\ o_alloc x <> o_alloc y | _ => False end
  | Ub _ => False
  end.
Proof.
  intros I Ty ((x & Ho & Hxt) & y & Hy & Hyt) Hr. destruct (act_move E AM s o x src y I Ty Ho Hxt Hy Hyt) as (s0 & res0 & H0 & Hout & I' & Ty'). cbn in Hr. rewrite H0 in Hr. injection Hr as <- <-.
  inversion Hout as [Hs Hs'|Hne Ha Hs'|Hne Ha Hse Hs'|s1 d Hne Ha Hse Hd C W]; subst; auto.
  - split; auto. split; auto. exists x, y. auto.
  - split; auto. split; auto. exists x. auto.
  - right. split; auto. split; [intros (x' & A & B); congruence|]. destruct (cleared_wiped E AM s o x s1 I Ty Ho C) as (l & Hl). split.
    + eapply (usurped_took s s1 s0 o (with_odata x None) src y d); auto.
      * apply (wp_objects _ _ _ _ _ Hl).
      * apply (wp_types _ _ _ _ _ Hl).
      * intros b Hb. apply (wp_freed _ _ _ _ _ Hl b Hb).
      * apply (wp_frame _ _ _ _ _ Hl).
    + exists l. split; [unfold did; rewrite (us_log _ _ _ _ _ _ _ _ W); apply (wp_did _ _ _ _ _ Hl)|]. split; [apply (wp_calls _ _ _ _ _ Hl)|apply (wp_quiet _ _ _ _ _ Hl)].
Qed.

(** ** Clearing and destroying *)
Lemma clear_spec s o s' res : Inv s -> typed s -> fair E s (OClear o) -> op_run E U (OClear o) s = (s', res) ->
  match res with
  | Ok _ => ~ sealed s o /\ (exists l, wiped E s s' o l) /\ exists x d, object_domain s o d /\ s_obj s o = Some x /\ s_obj s' o = Some (with_otype (with_odata x None) (Some (TEmpty d)))
  | Throw e => s' = s /\ e = ESealed /\ sealed s o
  | Ub _ => False
  end.
Proof.
  intros I Ty (x & Ho & Hn) Hr. destruct (the_type_ok E s o x I Ty Ho Hn) as (r & t & A & B & _). cbn in Hr. destruct (act_clear E AM s o x r t I Ty Ho A B) as [[Hse H]|(Hse & s0 & H & Hem & _)]; rewrite H in Hr; injection Hr as <- <-.
  - split; auto. split; auto. exists x. auto.
  - split; [intros (x' & C & D); congruence|]. split; [now apply (emptied_wiped E AM s o x _ s0 I Ty Ho Hem)|]. exists x, (t_dom t). split; [exists r, t; split; auto; exists x; auto|]. split; auto. destruct Hem as (s1 & _ & ->). cbn. now rewrite upd_same.
Qed.
Lemma dtor_spec s o s' res : Inv s -> typed s -> fair E s (ODtor o) -> op_run E U (ODtor o) s = (s', res) -> res = Ok tt /\ (exists l, wiped E s s' o l) /\ s_obj s' o = None.
Proof.
  intros I Ty F Hr. cbn in F. destruct (s_obj s o) as [x|] eqn:Ho; [|congruence]. cbn in Hr. destruct (act_dtor E AM s o x I Ty Ho) as (s0 & H & Hem & _). rewrite H in Hr. injection Hr as <- <-.
  split; auto. split; [now apply (emptied_wiped E AM s o x _ s0 I Ty Ho Hem)|]. destruct Hem as (s1 & _ & ->). cbn. now rewrite upd_same.
Qed.
End OT3.
