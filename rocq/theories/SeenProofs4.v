(** What functions of mixins see: histories *)
From Coq Require Import List Arith ZArith NArith Lia Bool.
From Verif Require Import Base Sv BaseLemmas Info MixinInfo TypeMut TypeBuild TypeQuery Domain TypesProofs ElemProofs WorldProofs Heap HeapProofs RollProofs Mutation Object SpecDom SpecObj SpecLog PartProofs ObjProofs ActProofs ActProofs2 MatchProofs ActProofs3 FinProofs PlaceProofs SeenProofs SeenProofs2 SeenProofs3 SpecSeen.
Import ListNotations.

Section Hist.
Variable E : env.
Variable U : user.
Hypothesis AM : SpecLayout.aligned_mixins E.
Notation Inv := (Inv E).

Record like (s s0 : st) (op : oop) (o : nat) (so : fn -> nat) (own : nat -> Prop) : Prop := {
  lk_seen : s_seen s0 = s_seen s;
  lk_blk : s_blk s0 = s_blk s;
  lk_next : s_next s0 = s_next s;
  lk_own : forall c, own c -> foot s o c \/ exists fb src, op = OMoveMatching fb o src /\ foot s src c;
  lk_src : forall f, source op f = Some (so f);
  lk_obj : forall o' x, s_obj s o' = Some x -> s_obj s0 o' = Some x;
  lk_it : exists x, s_obj s0 o = Some x /\ o_type x = type_before s o;
  lk_ty : forall o' x q t, s_obj s o' = Some x -> o_type x = Some q -> w_type (s_w s) q = Some t -> w_type (s_w s0) q = Some t
}.
Definition op_seen (s : st) (op : oop) (o : nat) (s' : st) : Prop := exists s0 so own, like s s0 op o so own /\ seen_ok s0 o so own s'.

Lemma like_same s op o so x : s_obj s o = Some x -> (forall f, source op f = Some (so f)) -> like s s op o so (foot s o).
Proof. intros Ho Hs. constructor; auto. exists x. split; auto. unfold type_before. now rewrite Ho. Qed.
Lemma like_blank s op o so a : s_obj s o = None -> (forall f, source op f = Some (so f)) -> like s (blank_st s o a) op o so (fun _ => False).
Proof.
  intros Ho Hs. constructor; auto; try tauto.
  - intros o' x Hx. unfold blank_st. cbn. rewrite upd_other; auto. intros ->. congruence.
  - exists (blank a). split; [unfold blank_st; cbn; apply upd_same|]. unfold type_before. now rewrite Ho.
Qed.
Lemma like_made s s1 op o so x q t res : s_obj s o = Some x -> o_type x = Some q -> w_type (s_w s) q = Some t -> Inv s -> typed s -> made s (t_dom t) s1 res -> (forall f, source op f = Some (so f)) -> like s s1 op o so (foot s1 o).
Proof.
  intros Ho Hq Ht I Ty Hm Hs. assert (Hx : s1 = set_w s (s_w s1)) by (destruct Hm as [e ->|]; auto; now destruct s).
  assert (HT : forall o' x q t, s_obj s o' = Some x -> o_type x = Some q -> w_type (s_w s) q = Some t -> w_type (s_w s1) q = Some t) by (intros o' x' q' t' A1 A2 A3; eapply (made_type E s _ s1 _ o' x' q' t'); eauto).
  constructor; auto.
  - now rewrite Hx.
  - now rewrite Hx.
  - now rewrite Hx.
  - intros c (x' & b & r & t' & A1 & A2 & A3 & A4 & A5). left. rewrite Hx in A1. cbn in A1. assert (x' = x) as -> by congruence. assert (r = q) as -> by congruence. assert (t' = t) as -> by (rewrite (HT o x q t Ho Hq Ht) in A4; congruence).
    exists x, b, q, t. repeat (split; [assumption|]). rewrite Hx in A5. exact A5.
  - rewrite Hx. auto.
  - exists x. rewrite Hx. split; auto. unfold type_before. now rewrite Ho.
Qed.
Lemma seen_none s0 o so own s s' : s_seen s0 = s_seen s -> s_seen s' = s_seen s -> seen_ok s0 o so own s'.
Proof. intros H1 H2. exists []. rewrite app_nil_r. split; [congruence|auto]. Qed.

Lemma ends_seen s0 o so own A (x : M st A) s' r : ends s0 o so own s0 x -> x s0 = (s', r) -> ~ is_ub r -> seen_ok s0 o so own s'.
Proof. intros H Hr Hu. specialize (H _ _ Hr). destruct r; auto; [apply H|]. destruct Hu. exact Logic.I. Qed.
Lemma ends_new s o a so own body s' r : s_obj s o = None -> ends (blank_st s o a) o so own (blank_st s o a) body -> with_new E o a body s = (s', r) -> ~ is_ub r -> seen_ok (blank_st s o a) o so own s'.
Proof.
  intros Ho Hb Hr Hu. rewrite with_new_step in Hr by auto. destruct (body (blank_st s o a)) as [s1 r1] eqn:Hs. specialize (Hb _ _ Hs). destruct r1 as [[]|e|u].
  - injection Hr as <- <-. exact Hb.
  - destruct Hb as [Hb1 Hb2]. unfold obj_dtor, clear_mixin_data, bnd, get_obj in Hr. rewrite Hb1 in Hr. unfold blank_st in Hr. cbn [set_obj s_obj] in Hr. rewrite upd_same in Hr. cbn in Hr. injection Hr as <- <-. exact Hb2.
  - injection Hr as <- <-. destruct Hu. exact Logic.I.
Qed.
Lemma blank_becomes s o a r : w_type (s_w s) r <> None -> may_become (blank_st s o a) o r.
Proof. intros H. destruct (w_type (s_w s) r) as [t|] eqn:Ht; [|congruence]. exists (blank a), t. split; [cbn; apply upd_same|]. split; auto. now intros []. Qed.
Lemma blank_foot s o a c : ~ foot (blank_st s o a) o c.
Proof. intros (x & b & r & t & A1 & A2 & _). unfold blank_st in A1. cbn [set_obj s_obj] in A1. rewrite upd_same in A1. injection A1 as <-. discriminate. Qed.

Ltac look := apply ends_look; [apply (base_start E); auto|first [apply looks_obj|apply looks_type|apply looks_ty|apply looks_fresh|apply looks_const]|].

Lemma tr_copy_loop s0 o so own common mid x y d l : so FCopyAsgn = d -> (forall b, o_data x = Some b -> own_old s0 own o b) -> (forall b, o_data y = Some b -> had s0 d b) ->
  forall ms s, K s0 o so own common true s -> tr s0 o so own common true s (copy_matching_loop E U mid x y l ms) T.
Proof.
  intros Hs HX HY. induction ms as [|[i m] ms IH]; intros s P; cbn [copy_matching_loop]; [apply tr_ret; auto; exact Logic.I|]. eapply tr_bnd; [instantiate (1 := T)|intros ? ? P' _; now apply IH].
  destruct (index_of l (mid m)) as [oi|]; [|apply tr_ret; auto; exact Logic.I]. eapply tr_bnd; [apply tr_data_at with (c := o); auto; intros b Hb; apply HX; auto|]. intros p ? _ ((b & dd & B1 & B2 & ->) & H1 & H2 & ->).
  eapply tr_bnd; [apply tr_data_at with (c := d); auto|]. intros q ? _ (_ & H3 & H4 & ->). destruct (m_copy_asgn (e_mixin E m)); [|apply tr_ub]. destruct (HX b B1) as (_ & _ & X). apply tr_copy_asgn; auto.
  - left. split; auto. split; auto. exact (proj1 (X _ _ B2)).
  - eapply from_src; eauto.
Qed.
Lemma tr_move_loop s0 o so own common fb mid x y d l : (forall f, so f = d) -> (forall b, o_data x = Some b -> own_old s0 own o b) -> (forall b, o_data y = Some b -> own_old s0 own d b) ->
  forall ms s, K s0 o so own common false s -> tr s0 o so own common false s (move_matching_loop E U fb mid x y l ms) T.
Proof.
  intros Hs HX HY. induction ms as [|[i m] ms IH]; intros s P; cbn [move_matching_loop]; [apply tr_ret; auto; exact Logic.I|]. eapply tr_bnd; [instantiate (1 := T)|intros ? ? P' _; now apply IH].
  destruct (index_of l (mid m)) as [oi|]; [|apply tr_ret; auto; exact Logic.I]. eapply tr_bnd; [apply tr_data_at with (c := o); auto; intros b Hb; apply HX; auto|]. intros p ? _ ((b & dd & B1 & B2 & ->) & H1 & H2 & ->).
  eapply tr_bnd; [apply tr_data_at with (c := d); auto; intros b' Hb'; apply HY; auto|]. intros q ? _ ((b' & dd' & C1 & C2 & ->) & H3 & H4 & ->). destruct (HX b B1) as (_ & _ & X). destruct (HY b' C1) as (_ & _ & Y).
  assert (Hm : forall s, mine s0 o own s (md_mixin dd)) by (intros s1; left; split; auto; split; auto; exact (proj1 (X _ _ B2))). assert (Hf : forall s1 f, K s0 o so own common false s1 -> from_ok so s1 f (Some (md_mixin dd'))) by (intros; eapply from_src; eauto).
  assert (Ho : s_next s0 <= fst (md_mixin dd') \/ own (fst (md_mixin dd'))) by (right; exact (proj1 (Y _ _ C2))).
  destruct (m_move_asgn (e_mixin E m)); [apply tr_move_asgn; auto|]. destruct (negb fb); [apply tr_ub|]. eapply tr_bnd; [apply tr_destroy; auto|]. intros ? s1 P1 _. destruct (m_move_init (e_mixin E m)); [apply tr_move_init; auto|apply tr_ub].
Qed.

Lemma seen_op s op o s' r : Inv s -> typed s -> fair E s op -> op_run E U op s = (s', r) -> ~ is_ub r -> target op = Some o -> op_seen s op o s'.
Proof.
  intros I Ty F Hr Hu Ht. destruct op; cbn [op_run fair target] in *; try discriminate; injection Ht as ->.
  - exists (blank_st s o 0), (fun _ => o), (fun _ => False). split; [apply like_blank; auto; now intros []|]. apply (seen_none _ _ _ _ s); auto. refine (proj1 (calm_bnd _ _ (fresh_obj o) _ (calm_fresh o) _ _ _ _ Hr)). intros; apply calm_put.
  - destruct F as [F1 F2]. exists (blank_st s o a), (fun _ => o), (fun _ => False). split; [apply like_blank; auto; now intros []|]. destruct (blank_inv E s o a I Ty F1) as (I1 & Ty1 & Ho1).
    eapply ends_new; [exact F1| |exact Hr|exact Hu]. apply ends_calm; [|intros; apply calm_mod]. eapply ends_reset; eauto; [intros c Hc; now apply blank_foot in Hc|now apply blank_becomes].
  - destruct F as [F1 F2]. exists (blank_st s o 0), (fun _ => o), (fun _ => False). split; [apply like_blank; auto; now intros []|]. apply (seen_none _ _ _ _ s); auto.
    refine (proj1 (calm_bnd _ _ (get_obj src) _ (calm_obj src) _ _ _ _ Hr)). intros y. cbn beta. eapply calm_bnd; [apply calm_fresh|]. intros _. eapply calm_bnd; [apply calm_put|]. intros _. apply calm_usurp.
  - destruct (s_obj s o) as [x|] eqn:Ho; [|congruence]. exists s, (fun _ => o), (foot s o). split; [eapply like_same; eauto; now intros []|]. eapply ends_seen; [|exact Hr|exact Hu]. unfold obj_dtor. apply ends_calm; [apply ends_clear; auto|intros; apply calm_put].
  - destruct F as [(x & F1 & F2) (y & F3 & F4)]. exists s, (fun _ => o), (foot s o). split; [eapply like_same; eauto; now intros []|]. eapply ends_seen; [|exact Hr|exact Hu]. unfold move_assign. look. intros x' _. look. intros y' _.
    destruct (o =? src); [apply ends_looks; [now apply (base_start E)|apply looks_ret]|]. destruct (o_alloc x' =? o_alloc y'); [destruct (o_sealed x')|].
    + apply ends_looks; [now apply (base_start E)|apply looks_bnd; [apply looks_type|intros; apply looks_raise]].
    + apply ends_calm; [apply ends_clear; auto|intros; apply calm_usurp].
    + apply ends_looks; [now apply (base_start E)|apply looks_bnd; [apply looks_type|intros; apply looks_raise]].
  - destruct F as [F1 F2]. set (so := fun f => match f with FMoveInit => o | _ => src end). exists (blank_st s o a), so, (fun _ => False). split; [apply like_blank; auto; now intros []|]. destruct (blank_inv E s o a I Ty F1) as (I1 & Ty1 & Ho1).
    unfold copy in Hr. destruct (s_obj s src) as [y|] eqn:Hy; [|congruence]. rewrite (bnd_ok (get_obj src) _ s s y) in Hr by (unfold get_obj; now rewrite Hy). eapply ends_new; [exact F1| |exact Hr|exact Hu].
    destruct (o_data y) as [b|] eqn:Hb; [|apply ends_of_calm; [apply (base_start E); auto|apply calm_mod]]. look. intros [q t] Hq. apply type_of_ok in Hq. destruct Hq as [Hq Hqt]. cbn [fst snd] in *.
    eapply ends_perform; eauto; [intros c Hc; now apply blank_foot in Hc|]. apply body_copy with (src := src); auto. intros b' Hb'. destruct (obj_had E s src y b' I Hy Hb') as (H1 & _). exact H1.
  - destruct F as [(x & F1 & F2) (F3 & F4)]. set (so := fun f => match f with FMoveInit => o | _ => src end). exists s, so, (foot s o). split; [eapply like_same; eauto; now intros []|]. eapply ends_seen; [|exact Hr|exact Hu]. unfold copy_from. look. intros x' Hx. apply obj_of in Hx. look. intros y Hy. apply obj_of in Hy.
    destruct (o_data y) as [b|] eqn:Hb.
    + look. intros [q t] Hq. apply type_of_ok in Hq. destruct Hq as [Hq Hqt]. look. intros xt _. apply ends_look; [apply (base_start E); auto|apply (looks_const _ (fun s => Ok (w_mid (s_w s))))|]. intros mid _. apply ends_look; [apply (base_start E); auto|apply (looks_const _ (fun _ => check_copy E mid (snd xt) (t_mixins (snd (q, t)))))|]. intros _ _.
      cbn [fst snd] in *. eapply ends_perform; eauto. apply body_copy_from with (src := src); auto. intros b' Hb'. apply (obj_had E s src y b' I Hy Hb').
    + destruct (o_sealed x'); [apply ends_looks; [now apply (base_start E)|apply looks_bnd; [apply looks_type|intros; apply looks_raise]]|]. apply ends_calm; [apply ends_clear; auto|intros; apply calm_mod].
  - destruct F as [(x & F1 & F2) ((y & F3 & F4) & F5)]. set (so := fun f => match f with FMoveInit => o | _ => src end). exists s, so, (foot s o). split; [eapply like_same; eauto; now intros []|]. eapply ends_seen; [|exact Hr|exact Hu]. unfold copy_matching_from.
    look. intros x' Hx. apply obj_of in Hx. look. intros y' Hy. apply obj_of in Hy. look. intros yt _. look. intros xt _. apply ends_look; [apply (base_start E); auto|apply (looks_const _ (fun s => Ok (w_mid (s_w s))))|]. intros mid _.
    apply ends_look; [apply (base_start E); auto|apply (looks_const _ (fun _ => check_copy_matching E mid (snd xt) (t_mixins (snd yt))))|]. intros _ _.
    eapply (ends_tr s o so (foot s o) _ (fun _ => False) true). apply tr_copy_loop with (d := src); auto.
    + intros b Hb. eapply own_obj; eauto.
    + intros b Hb. apply (obj_had E s src y' b I Hy Hb).
    + apply (k_start E); auto.
  - destruct F as [(x & F1 & F2) ((y & F3 & F4) & F5)]. exists s, (fun _ => src), (fun c => foot s o c \/ foot s src c). split.
    { destruct (like_same s (OMoveMatching fb o src) o (fun _ => src) x F1 ltac:(now intros [])) as [A1 A2 A3 A4 A5 A6 A7 A8]. constructor; auto. intros c [Hc|Hc]; eauto. }
    eapply ends_seen; [|exact Hr|exact Hu]. unfold move_matching_from. look. intros x' Hx. apply obj_of in Hx. look. intros y' Hy. apply obj_of in Hy. look. intros yt _. look. intros xt _. apply ends_look; [apply (base_start E); auto|apply (looks_const _ (fun s => Ok (w_mid (s_w s))))|]. intros mid _.
    apply ends_look; [apply (base_start E); auto|apply (looks_const _ (fun _ => check_move_matching E fb mid (snd xt) (t_mixins (snd yt))))|]. intros _ _.
    eapply (ends_tr s o (fun _ => src) (fun c => foot s o c \/ foot s src c) _ (fun _ => False) false). apply tr_move_loop with (d := src); auto.
    + intros b Hb. eapply own_obj; eauto.
    + intros b Hb. destruct (obj_had E s src y' b I Hy Hb) as (H1 & H2 & H3). split; auto. split; auto. intros i dd Hd. destruct (H3 i dd Hd) as [X1 X2]. split; auto.
    + apply (k_start E); auto.
  - destruct F as (x & F1 & F2). exists s, (fun _ => o), (foot s o). split; [eapply like_same; eauto; now intros []|]. eapply ends_seen; [|exact Hr|exact Hu]. unfold clear. look. intros x' _. look. intros rt _. destruct (o_sealed x'); [apply ends_looks; [now apply (base_start E)|apply looks_raise]|].
    apply ends_calm; [apply ends_clear; auto|intros; apply calm_mod].
  - destruct F as [(x & F1 & F2) F3]. exists s, (fun _ => o), (foot s o). split; [eapply like_same; eauto; now intros []|]. eapply ends_seen; [|exact Hr|exact Hu]. eapply ends_reset; eauto.
  - destruct (s_obj s o) as [x|] eqn:Ho; [|congruence]. exists s, (fun _ => o), (foot s o). split; [eapply like_same; eauto; now intros []|]. eapply ends_seen; [|exact Hr|exact Hu]. apply ends_of_calm; [now apply (base_start E)|apply calm_mod].
  - destruct F as [(x & F1 & F2) (F3 & F4)]. exists s, (fun _ => o), (foot s o). split; [eapply like_same; eauto; now intros []|]. eapply ends_seen; [|exact Hr|exact Hu]. eapply ends_mutate_to; eauto.
  - destruct F as [(x & F1 & F2) (F3 & F4 & F5)]. unfold mutate in Hr. rewrite (bnd_ok (get_obj o) _ s s x) in Hr by (unfold get_obj; now rewrite F1).
    destruct (the_type x s) as [s1 [[q t]|e|u]] eqn:Hq; pose proof (looks_type x _ _ _ Hq) as ->.
    2:{ exfalso. destruct (calm_type x _ _ _ Hq) as [_ He]. eapply He; eauto. }
    2:{ exfalso. unfold bnd at 1 in Hr. rewrite Hq in Hr. injection Hr as <- <-. apply Hu. exact Logic.I. }
    rewrite (bnd_ok (the_type x) _ s s (q, t) Hq) in Hr. apply type_of_ok in Hq. destruct Hq as [Hq Hqt]. cbn [fst snd] in *. assert (Hto : type_of s o q t) by (exists x; auto).
    destruct (act_made E s o aok false _ q t I Ty Hto F4) as (s1 & tres & H1 & Hub & Hm & I1 & Ty1 & Hem & _). exists s1, (fun _ => o), (foot s1 o). split; [eapply like_made; eauto; now intros []|].
    unfold bnd in Hr. rewrite H1 in Hr. destruct tres as [r1|e|u]; [|injection Hr as <- <-; now apply (seen_none _ _ _ _ s1)|destruct Hub; exact Logic.I].
    destruct (made_type E s _ s1 _ o x q t Hm I Ty F1 Hq Hqt) as [Ho1 Ht1]. eapply ends_seen; [|exact Hr|exact Hu]. eapply ends_mutate_to; eauto. eapply made_becomes; eauto.
  - destruct F as [(x & F1 & F2) F3]. unfold gradual in Hr. rewrite (bnd_ok (get_obj o) _ s s x) in Hr by (unfold get_obj; now rewrite F1).
    destruct (the_type x s) as [s1 [[q t]|e|u]] eqn:Hq; pose proof (looks_type x _ _ _ Hq) as ->.
    2:{ exfalso. destruct (calm_type x _ _ _ Hq) as [_ He]. eapply He; eauto. }
    2:{ exfalso. unfold bnd at 1 in Hr. rewrite Hq in Hr. injection Hr as <- <-. apply Hu. exact Logic.I. }
    rewrite (bnd_ok (the_type x) _ s s (q, t) Hq) in Hr. apply type_of_ok in Hq. destruct Hq as [Hq Hqt]. cbn [fst snd] in *. assert (Hto : type_of s o q t) by (exists x; auto).
    destruct unw; [exists s, (fun _ => o), (foot s o); split; [eapply like_same; eauto; now intros []|]; injection Hr as <- <-; now apply (seen_none _ _ _ _ s)|].
    destruct (act_made E s o aok true _ q t I Ty Hto F3) as (s1 & tres & H1 & Hub & Hm & I1 & Ty1 & Hem & _). exists s1, (fun _ => o), (foot s1 o). split; [eapply like_made; eauto; now intros []|].
    unfold bnd in Hr. rewrite H1 in Hr. destruct tres as [r1|e|u]; [|injection Hr as <- <-; now apply (seen_none _ _ _ _ s1)|destruct Hub; exact Logic.I].
    destruct (made_type E s _ s1 _ o x q t Hm I Ty F1 Hq Hqt) as [Ho1 Ht1]. eapply ends_seen; [|exact Hr|exact Hu]. eapply ends_reset; eauto. eapply made_becomes; eauto.
  - destruct F as [(x & F1 & F2) (F3 & F4)]. exists s, (fun _ => o), (foot s o). split; [eapply like_same; eauto; now intros []|]. eapply ends_seen; [|exact Hr|exact Hu]. unfold c_mutate_to. look. intros t Ht. apply ty_of in Ht. eapply ends_perform; eauto. now apply body_cover.
  - destruct F as [(x & F1 & F2) F3]. unfold c_mutate in Hr. rewrite (bnd_ok (get_obj o) _ s s x) in Hr by (unfold get_obj; now rewrite F1).
    destruct (the_type x s) as [s1 [[q t]|e|u]] eqn:Hq; pose proof (looks_type x _ _ _ Hq) as ->.
    2:{ exfalso. destruct (calm_type x _ _ _ Hq) as [_ He]. eapply He; eauto. }
    2:{ exfalso. unfold bnd at 1 in Hr. rewrite Hq in Hr. injection Hr as <- <-. apply Hu. exact Logic.I. }
    rewrite (bnd_ok (the_type x) _ s s (q, t) Hq) in Hr. apply type_of_ok in Hq. destruct Hq as [Hq Hqt]. cbn [fst snd] in *. assert (Hto : type_of s o q t) by (exists x; auto).
    destruct (act_made E s o aok false _ q t I Ty Hto F3) as (s1 & tres & H1 & Hub & Hm & I1 & Ty1 & Hem & _). exists s1, (fun _ => o), (foot s1 o). split; [eapply like_made; eauto; now intros []|].
    unfold bnd at 1 in Hr. rewrite H1 in Hr. destruct tres as [r1|e|u]; [|injection Hr as <- <-; now apply (seen_none _ _ _ _ s1)|destruct Hub; exact Logic.I].
    destruct (made_type E s _ s1 _ o x q t Hm I Ty F1 Hq Hqt) as [Ho1 Ht1]. eapply ends_seen; [|exact Hr|exact Hu]. look. intros t1 Ht1'. apply ty_of in Ht1'. eapply ends_perform; eauto. now apply body_cop.
  - destruct F as [(x & F1 & F2) (F3 & F4 & F5)]. exists s, (fun _ => o), (foot s o). split; [eapply like_same; eauto; now intros []|]. eapply ends_seen; [|exact Hr|exact Hu]. unfold piecewise. destruct F3 as (x' & t & G1 & G2 & G3). eapply ends_perform; eauto. eapply body_psteps; eauto.
  - destruct F as (x & F1 & F2). exists s, (fun _ => o), (foot s o). split; [eapply like_same; eauto; now intros []|]. eapply ends_seen; [|exact Hr|exact Hu]. unfold use_mixin.
    look. intros x' Hx. apply obj_of in Hx. look. intros xt _. destruct (nth_error (t_mixins (snd xt)) i) as [m|]; [|apply ends_looks; [now apply (base_start E)|apply looks_ret]].
    eapply (ends_tr s o (fun _ => o) (foot s o) _ (fun _ => False) true). eapply tr_bnd; [apply tr_data_at with (c := o); [|apply (k_start E); auto]|].
    + intros b Hb. apply (obj_had E s o x' b I Hx Hb).
    + intros p ? P ((b & dd & B1 & B2 & ->) & H1 & H2 & ->). apply tr_update; auto. left. destruct (own_obj E s o (foot s o) I (fun _ H => H) x' b Hx B1) as (_ & _ & X). split; auto. split; auto. exact (proj1 (X _ _ B2)).
Qed.
End Hist.
