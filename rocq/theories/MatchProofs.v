(** copy_matching_from and move_matching_from *)
From Coq Require Import List Arith ZArith NArith Lia Bool.
From Verif Require Import Base Sv BaseLemmas Info TypeBuild TypeQuery Domain TypesProofs SpecDom HistProofs DomTheorems SpecLayout LayoutProofs Heap HeapProofs Mutation Object
  PartProofs RollProofs AllocProofs UpdProofs FinProofs PerfProofs WorldProofs ObjProofs OpProofs PlanProofs SpecObj ActProofs ActProofs2.
Import ListNotations.

(** Only values of mixins were changed *)
Record revalued (s s' : st) : Prop := {
  rv_rest : same_rest s s';
  rv_attr : forall c, battr (s_blk s') c = battr (s_blk s) c;
  rv_dat : forall c i, bdat (s_blk s') c i = bdat (s_blk s) c i;
  rv_back : forall p, bback (s_blk s') p = bback (s_blk s) p;
  rv_inst : forall p, option_map i_mixin (binst (s_blk s') p) = option_map i_mixin (binst (s_blk s) p)
}.
Lemma revalued_refl s : revalued s s.
Proof. constructor; auto. apply same_rest_refl. Qed.
Lemma revalued_trans a b c : revalued a b -> revalued b c -> revalued a c.
Proof.
  intros A B. constructor.
  - eapply same_rest_trans; [apply A|apply B].
  - intros x. rewrite (rv_attr _ _ B). apply A.
  - intros x i. rewrite (rv_dat _ _ B). apply A.
  - intros p. rewrite (rv_back _ _ B). apply A.
  - intros p. rewrite (rv_inst _ _ B). apply A.
Qed.
Lemma rv_live s s' p m v : revalued s s' -> binst (s_blk s) p = Some {| i_mixin := m; i_val := v |} -> exists v', binst (s_blk s') p = Some {| i_mixin := m; i_val := v' |}.
Proof. intros R H. pose proof (rv_inst _ _ R p) as Hp. rewrite H in Hp. destruct (binst (s_blk s') p) as [[m' v']|]; [|discriminate]. injection Hp as ->. eauto. Qed.
Lemma rv_live2 s s' p x : revalued s s' -> binst (s_blk s') p = Some x -> exists y, binst (s_blk s) p = Some y /\ i_mixin y = i_mixin x.
Proof. intros R H. pose proof (rv_inst _ _ R p) as Hp. rewrite H in Hp. destruct (binst (s_blk s) p) as [y|]; [|discriminate]. injection Hp as Hp. eauto. Qed.
Lemma rv_call s f m p src e : revalued s (st_call s f m p src e).
Proof. constructor; auto. repeat split. Qed.
Lemma rv_set s p m x v : binst (s_blk s) p = Some x -> i_mixin x = m -> revalued s (st_inst s p {| i_mixin := m; i_val := v |}).
Proof.
  intros Hx Hm. destruct (st_inst_views s p {| i_mixin := m; i_val := v |} (binst_has _ _ _ Hx)) as (V1 & V2 & V3 & V4). constructor; auto.
  - apply (in_blk_rest s (fst p)).
  - intros q. rewrite V4. destruct (addr_eqb_spec q p) as [->|]; auto. rewrite Hx. cbn. now rewrite Hm.
Qed.
Lemma st_inst_at s p x q : has_blk s (fst p) -> binst (s_blk (st_inst s p x)) q = if addr_eqb q p then Some x else binst (s_blk s) q.
Proof. intros H. apply (st_inst_views s p x H). Qed.
Lemma call_inst s f m p src e q : binst (s_blk (st_call s f m p src e)) q = binst (s_blk s) q.
Proof. reflexivity. Qed.
Lemma inst_log s p x : s_log (st_inst s p x) = s_log s.
Proof. apply (in_blk_rest s (fst p)). Qed.

Section Match.
Variable E : env.
Variable U : user.
Hypothesis AM : aligned_mixins E.
Notation Inv := (Inv E).

Lemma inv_vals s s' : Inv s -> revalued s s' -> Inv s'.
Proof.
  intros I R. destruct (rv_rest _ _ R) as (R1 & R2 & R3).
  assert (Hf : forall o c, foot s' o c <-> foot s o c).
  { intros o c. unfold foot. rewrite R2, R1. split; intros (x & b & r & t & A1 & A2 & A3 & A4 & A5); exists x, b, r, t; repeat (split; [assumption|]); (destruct A5 as [->|(i & m & d & B1 & B2 & B3)]; [now left|right; exists i, m, d; split; [auto|split; auto]]).
    - now rewrite <- (rv_dat _ _ R).
    - now rewrite (rv_dat _ _ R). }
  constructor.
  - rewrite R1. apply (iv_reach _ _ I).
  - rewrite R1. apply (iv_small _ _ I).
  - intros o x Ho. rewrite R2 in Ho. pose proof (iv_obj _ _ I o x Ho) as Hk. unfold obj_ok in *. destruct (o_data x) as [b|]; auto. destruct Hk as (r & t & dd & A1 & A2 & A3 & P).
    exists r, t, dd. rewrite R1. split; auto. split; auto. split; auto. constructor.
    + rewrite (rv_attr _ _ R). apply P.
    + apply P.
    + intros i. rewrite (rv_dat _ _ R). apply P.
    + intros i m off H1 H2 H3. rewrite (rv_back _ _ R). eapply pa_int; eauto.
    + intros i m H1 H2. destruct (pa_ext _ _ _ _ _ _ _ _ _ _ P i m H1 H2) as (B1 & e & B2 & B3 & B4 & B5). split; auto. exists e. rewrite (rv_attr _ _ R), (rv_back _ _ R). auto.
    + apply P.
    + intros i Hi. destruct (pa_con _ _ _ _ _ _ _ _ _ _ P i Hi) as (m & off & v & B1 & B2 & B3 & B4). destruct (rv_live _ _ _ _ _ R B4) as (v' & Hv'). exists m, off, v'. auto.
    + intros p z Hp Hz Hn. destruct (rv_live2 _ _ _ _ R Hz) as (z' & Hz' & Hm). apply (pa_live _ _ _ _ _ _ _ _ _ _ P p z' Hp Hz'). unfold needs_destroy in *. now rewrite Hm.
  - intros o o' c. rewrite !Hf. apply (iv_sep _ _ I).
  - intros c Hc. destruct (iv_own _ _ I c) as (o & Ho); [|exists o; now apply Hf]. rewrite <- battr_none in *. now rewrite <- (rv_attr _ _ R).
  - intros c Hc. rewrite R3 in Hc. rewrite <- battr_none, (rv_attr _ _ R), battr_none. now apply (iv_next _ _ I).
  - intros r t Hr. rewrite R1 in Hr. eapply cnt_same; [exact (iv_cnt _ _ I r t Hr)| |auto]. intros o. unfold of_type. now rewrite R2.
Qed.
Lemma typed_rest s s' : typed s -> same_rest s s' -> typed s'.
Proof. intros Ty (_ & R2 & _) o x. rewrite R2. apply Ty. Qed.

(** ** The calls of a matching copy *)
Fixpoint copy_all (L : list (mptr * addr * addr)) : M st unit :=
  match L with [] => ret tt | (m, p, q) :: r => copy_asgn U m p q;; copy_all r end.
Definition copy_evs (L : list (mptr * addr * addr)) : list ev := map (fun x => EvCall FCopyAsgn (fst (fst x)) (snd (fst x)) (Some (snd x)) 0) L.
Definition target (x : mptr * addr * addr) : addr := snd (fst x).

Lemma copy_all_step L : forall s, NoDup (map target L) ->
  (forall m p q, In (m, p, q) L -> (exists v, binst (s_blk s) p = Some {| i_mixin := m; i_val := v |}) /\ exists v, binst (s_blk s) q = Some {| i_mixin := m; i_val := v |}) ->
  (forall m p q m' p' q', In (m, p, q) L -> In (m', p', q') L -> p = q' -> p' = p) ->
  exists s' res, copy_all L s = (s', res) /\ revalued s s' /\ (forall p, ~ In p (map target L) -> binst (s_blk s') p = binst (s_blk s) p) /\
    (res = Ok tt /\ s_log s' = s_log s ++ copy_evs L /\ (forall m p q, In (m, p, q) L -> binst (s_blk s') p = binst (s_blk s) q) \/
     exists L1 m p q L2 e, L = L1 ++ (m, p, q) :: L2 /\ e <> 0%Z /\ res = Throw (EUserFunc e) /\ s_log s' = s_log s ++ copy_evs L1 ++ [EvCall FCopyAsgn m p (Some q) e] /\
       (forall m p q, In (m, p, q) L1 -> binst (s_blk s') p = binst (s_blk s) q) /\ (forall m p q, In (m, p, q) L2 -> binst (s_blk s') p = binst (s_blk s) p)).
Proof.
  induction L as [|[[m p] q] L IH]; intros s Hnd Hlive Hself; cbn [copy_all].
  { exists s, (Ok tt). split; [reflexivity|]. split; [apply revalued_refl|]. split; auto. left. rewrite app_nil_r. split; auto. split; auto. intros ? ? ? []. }
  inversion Hnd as [|? ? Hni Hnd']; subst. destruct (Hlive m p q) as [(v & Hv) (w & Hw)]; [now left|].
  assert (Hneq : forall m' p' q', In (m', p', q') L -> p' <> p /\ q' <> p).
  { intros m' p' q' Hin. assert (p' <> p) by (intros ->; apply Hni; now apply (in_map target) in Hin). split; auto. intros Hq. apply H. apply (Hself m p q m' p' q'); auto; [now left|now right]. }
  unfold bnd at 1. rewrite (copy_asgn_step U s m p q _ _ Hv eq_refl Hw eq_refl). cbn [i_val].
  destruct (Z.eqb_spec (an_err (cur_ans U s)) 0) as [He|He].
  - set (s1 := st_inst (st_call s FCopyAsgn m p (Some q) 0) p {| i_mixin := m; i_val := w |}).
    assert (R1 : revalued s s1) by (eapply revalued_trans; [apply rv_call|eapply rv_set; eauto]).
    assert (V1 : forall z, binst (s_blk s1) z = if addr_eqb z p then Some {| i_mixin := m; i_val := w |} else binst (s_blk s) z) by (intros z; unfold s1; rewrite st_inst_at; [reflexivity|eapply binst_has; exact Hv]).
    assert (Hne1 : forall z, z <> p -> binst (s_blk s1) z = binst (s_blk s) z) by (intros z Hz; rewrite V1; destruct (addr_eqb_spec z p); congruence).
    destruct (IH s1 Hnd') as (s' & res & H1 & R2 & Hout & Hres).
    + intros m' p' q' Hin. destruct (Hlive m' p' q') as [(v1 & Hv1) (w1 & Hw1)]; [now right|]. split; eapply rv_live; eauto.
    + intros m1 p1 q1 m2 p2 q2 I1 I2. apply (Hself m1 p1 q1 m2 p2 q2); now right.
    + exists s', res. split; auto. split; [eapply revalued_trans; eauto|]. split.
      * intros z Hz. rewrite Hout by (intros Hz'; apply Hz; now right). apply Hne1. intros ->. apply Hz. now left.
      * assert (Hp' : forall m' p' q', In (m', p', q') L -> binst (s_blk s1) q' = binst (s_blk s) q' /\ binst (s_blk s1) p' = binst (s_blk s) p') by (intros m' p' q' Hin; destruct (Hneq m' p' q' Hin); split; apply Hne1; auto).
        assert (Hp : binst (s_blk s') p = binst (s_blk s) q) by (rewrite (Hout p Hni), V1, addr_eqb_refl; auto).
        destruct Hres as [(-> & Hl & Hall)|(L1 & m1 & p1 & q1 & L2 & e & -> & He1 & -> & Hl & Hall1 & Hall2)].
        -- left. split; auto. split; [rewrite Hl; unfold s1; rewrite inst_log; cbn; now rewrite <- app_assoc|]. intros m' p' q' [[= <- <- <-]|Hin]; auto. rewrite (Hall m' p' q' Hin). now apply (Hp' m' p' q').
        -- right. exists ((m, p, q) :: L1), m1, p1, q1, L2, e. split; auto. split; auto. split; auto. split; [rewrite Hl; unfold s1; rewrite inst_log; cbn; now rewrite <- app_assoc|]. split.
           ++ intros m' p' q' [[= <- <- <-]|Hin]; auto. rewrite (Hall1 m' p' q' Hin). apply (Hp' m' p' q'). apply in_or_app. now left.
           ++ intros m' p' q' Hin. rewrite (Hall2 m' p' q' Hin). apply (Hp' m' p' q'). apply in_or_app. right. now right.
  - set (s1 := st_inst (st_call s FCopyAsgn m p (Some q) (an_err (cur_ans U s))) p {| i_mixin := m; i_val := an_val (cur_ans U s) |}).
    assert (R1 : revalued s s1) by (eapply revalued_trans; [apply rv_call|eapply rv_set; eauto]).
    assert (Hne1 : forall z, z <> p -> binst (s_blk s1) z = binst (s_blk s) z) by (intros z Hz; unfold s1; rewrite st_inst_at by (eapply binst_has; exact Hv); destruct (addr_eqb_spec z p); [congruence|reflexivity]).
    exists s1, (Throw (EUserFunc (an_err (cur_ans U s)))). split; auto. split; auto. split; [intros z Hz; apply Hne1; intros ->; apply Hz; now left|].
    right. exists [], m, p, q, L, (an_err (cur_ans U s)). split; auto. split; auto. split; auto. split; [unfold s1; now rewrite inst_log|]. split; [intros ? ? ? []|].
    intros m' p' q' Hin. apply Hne1. now apply (Hneq m' p' q').
Qed.

(** ** The calls of a matching move *)
Definition move_one (m : mptr) (p q : addr) : M st unit :=
  if m_move_asgn (e_mixin E m) then move_asgn U m p q else destroy E m p;; move_init E U m p q.
Fixpoint move_all (L : list (mptr * addr * addr)) : M st unit :=
  match L with [] => ret tt | (m, p, q) :: r => move_one m p q;; move_all r end.
Definition move_ev (x : mptr * addr * addr) : list ev :=
  let '(m, p, q) := x in
  if m_move_asgn (e_mixin E m) then [EvCall FMoveAsgn m p (Some q) 0]
  else (if m_destroy (e_mixin E m) then [EvCall FDestroy m p None 0] else []) ++ [EvCall FMoveInit m p (Some q) 0].
Definition move_evs (L : list (mptr * addr * addr)) : list ev := concat (map move_ev L).

Lemma move_one_step s m p q v w : binst (s_blk s) p = Some {| i_mixin := m; i_val := v |} -> binst (s_blk s) q = Some {| i_mixin := m; i_val := w |} -> (m_move_asgn (e_mixin E m) = false -> p <> q) ->
  exists s' z, move_one m p q s = (s', Ok tt) /\ revalued s s' /\ s_log s' = s_log s ++ move_ev (m, p, q) /\
    forall a, binst (s_blk s') a = if addr_eqb a q then Some {| i_mixin := m; i_val := z |} else if addr_eqb a p then Some {| i_mixin := m; i_val := w |} else binst (s_blk s) a.
Proof.
  intros Hp Hq Hne. unfold move_one, move_ev. pose proof (binst_has _ _ _ Hp) as Bp. pose proof (binst_has _ _ _ Hq) as Bq. destruct (m_move_asgn (e_mixin E m)) eqn:Hma.
  - rewrite (move_asgn_step U s m p q _ _ Hp eq_refl Hq eq_refl). cbn [i_val]. eexists. exists (an_val (cur_ans U s)). split; [reflexivity|].
    set (s1 := st_inst (st_call s FMoveAsgn m p (Some q) 0) p {| i_mixin := m; i_val := w |}).
    assert (R1 : revalued s s1) by (eapply revalued_trans; [apply rv_call|eapply rv_set; eauto]).
    destruct (rv_live _ _ _ _ _ R1 Hq) as (w1 & Hw1). split; [eapply revalued_trans; [exact R1|eapply rv_set; eauto]|]. split; [rewrite inst_log; unfold s1; now rewrite inst_log|].
    intros a. rewrite st_inst_at by (eapply binst_has; exact Hw1). destruct (addr_eqb a q); auto. unfold s1. rewrite st_inst_at by exact Bp. reflexivity.
  - specialize (Hne eq_refl).
    assert (Hgen : forall s0, (forall c, battr (s_blk s0) c = battr (s_blk s) c) -> (forall c i, bdat (s_blk s0) c i = bdat (s_blk s) c i) -> (forall a, bback (s_blk s0) a = bback (s_blk s) a) ->
       (forall a, a <> p -> binst (s_blk s0) a = binst (s_blk s) a) -> vacant_at E s0 p -> same_rest s s0 ->
       exists s' z, move_init E U m p q s0 = (s', Ok tt) /\ revalued s s' /\ s_log s' = s_log s0 ++ [EvCall FMoveInit m p (Some q) 0] /\
         forall a, binst (s_blk s') a = if addr_eqb a q then Some {| i_mixin := m; i_val := z |} else if addr_eqb a p then Some {| i_mixin := m; i_val := w |} else binst (s_blk s) a).
    { intros s0 B1 B2 B3 B4 Hv Hsr. assert (Bp0 : has_blk s0 (fst p)) by (unfold has_blk; now rewrite B1). assert (Hq0 : binst (s_blk s0) q = Some {| i_mixin := m; i_val := w |}) by (rewrite B4; auto).
      rewrite (move_init_step E U s0 m p q _ Bp0 Hv Hq0 eq_refl). cbn [i_val]. eexists. exists (an_val (cur_ans U s0)). split; [reflexivity|].
      set (s1 := st_inst (st_call s0 FMoveInit m p (Some q) 0) p {| i_mixin := m; i_val := w |}).
      destruct (st_inst_views (st_call s0 FMoveInit m p (Some q) 0) p {| i_mixin := m; i_val := w |} Bp0) as (C1 & C2 & C3 & C4). fold s1 in C1, C2, C3, C4.
      assert (Bq1 : has_blk s1 (fst q)) by (apply has_blk_inst; unfold has_blk; cbn; now rewrite B1).
      destruct (st_inst_views s1 q {| i_mixin := m; i_val := an_val (cur_ans U s0) |} Bq1) as (D1 & D2 & D3 & D4).
      assert (Hfin : forall a, binst (s_blk (st_inst s1 q {| i_mixin := m; i_val := an_val (cur_ans U s0) |})) a = if addr_eqb a q then Some {| i_mixin := m; i_val := an_val (cur_ans U s0) |} else if addr_eqb a p then Some {| i_mixin := m; i_val := w |} else binst (s_blk s) a).
      { intros a. rewrite D4, C4. destruct (addr_eqb_spec a q); auto. destruct (addr_eqb_spec a p); auto. }
      split; [|split; [rewrite inst_log; unfold s1; now rewrite inst_log|exact Hfin]]. constructor.
      - eapply same_rest_trans; [exact Hsr|]. eapply same_rest_trans; [|apply (in_blk_rest s1 (fst q))]. apply (in_blk_rest (st_call s0 FMoveInit m p (Some q) 0) (fst p)).
      - intros c. now rewrite D1, C1, <- B1.
      - intros c i. now rewrite D2, C2, <- B2.
      - intros a. now rewrite D3, C3, <- B3.
      - intros a. rewrite Hfin. destruct (addr_eqb_spec a q) as [->|]; [now rewrite Hq|]. destruct (addr_eqb_spec a p) as [->|]; [now rewrite Hp|auto]. }
    destruct (m_destroy (e_mixin E m)) eqn:Hd.
    + set (s0 := st_del (add_log s (EvCall FDestroy m p None 0)) p). destruct (st_del_views (add_log s (EvCall FDestroy m p None 0)) p Bp) as (V1 & V2 & V3 & V4). fold s0 in V1, V2, V3, V4.
      destruct (Hgen s0) as (s' & z & H1 & H2 & H3 & H4); auto.
      * intros a Ha. rewrite V4. destruct (addr_eqb_spec a p); [congruence|reflexivity].
      * intros y Hy. rewrite V4, addr_eqb_refl in Hy. discriminate.
      * apply (in_blk_rest (add_log s (EvCall FDestroy m p None 0)) (fst p)).
      * exists s', z. rewrite (bnd_ok _ _ _ _ _ (destroy_step E s m p _ Hp eq_refl Hd)). split; auto. split; auto. split; auto. rewrite H3. unfold s0, st_del.
        destruct (in_blk_rest (add_log s (EvCall FDestroy m p None 0)) (fst p) (fun k => with_inst k (adel (snd p) (b_inst k)))) as (_ & _ & ->). cbn. now rewrite <- app_assoc.
    + destruct (Hgen s) as (s' & z & H1 & H2 & H3 & H4); auto.
      * intros y Hy. rewrite Hp in Hy. injection Hy as <-. exact Hd.
      * apply same_rest_refl.
      * exists s', z. rewrite (bnd_ok _ _ _ _ _ (destroy_null E s m p Hd)). auto.
Qed.

Definition source (x : mptr * addr * addr) : addr := snd x.
Lemma move_all_step L : forall s, NoDup (map target L) -> NoDup (map source L) ->
  (forall m p q, In (m, p, q) L -> (exists v, binst (s_blk s) p = Some {| i_mixin := m; i_val := v |}) /\ exists v, binst (s_blk s) q = Some {| i_mixin := m; i_val := v |}) ->
  (forall m p q m' p' q', In (m, p, q) L -> In (m', p', q') L -> p = q' -> p' = p) ->
  (forall m p q, In (m, p, q) L -> m_move_asgn (e_mixin E m) = false -> p <> q) ->
  exists s', move_all L s = (s', Ok tt) /\ revalued s s' /\ (forall p, ~ In p (map target L) -> ~ In p (map source L) -> binst (s_blk s') p = binst (s_blk s) p) /\
    s_log s' = s_log s ++ move_evs L /\ (forall m p q, In (m, p, q) L -> p <> q -> binst (s_blk s') p = binst (s_blk s) q).
Proof.
  induction L as [|[[m p] q] L IH]; intros s Hnt Hns Hlive Hself Hdiff; cbn [move_all].
  { exists s. split; [reflexivity|]. split; [apply revalued_refl|]. split; auto. split; [now rewrite app_nil_r|]. intros ? ? ? []. }
  inversion Hnt as [|? ? Hni Hnt']; subst. inversion Hns as [|? ? Hnj Hns']; subst. destruct (Hlive m p q) as [(v & Hv) (w & Hw)]; [now left|].
  assert (Hneq : forall m' p' q', In (m', p', q') L -> p' <> p /\ q' <> p /\ q' <> q /\ p' <> q).
  { intros m' p' q' Hin. assert (p' <> p) by (intros ->; apply Hni; now apply (in_map target) in Hin). assert (q' <> q) by (intros ->; apply Hnj; now apply (in_map source) in Hin).
    split; auto. split; [|split; auto]. - intros Hq. apply H. apply (Hself m p q m' p' q'); auto; [now left|now right].
    - intros Hq. apply H. symmetry. apply (Hself m' p' q' m p q); auto; [now right|now left]. }
  destruct (move_one_step s m p q v w Hv Hw) as (s1 & z & H1 & R1 & L1 & V1); [intros Ha; apply (Hdiff m p q); auto; now left|].
  rewrite (bnd_ok _ _ _ _ _ H1). assert (Hne1 : forall a, a <> p -> a <> q -> binst (s_blk s1) a = binst (s_blk s) a) by (intros a Ha Hb; rewrite V1; destruct (addr_eqb_spec a q); [congruence|]; destruct (addr_eqb_spec a p); congruence).
  destruct (IH s1 Hnt' Hns') as (s' & H2 & R2 & Hout & Hl & Hall).
  - intros m' p' q' Hin. destruct (Hlive m' p' q') as [(v1 & Hv1) (w1 & Hw1)]; [now right|]. split; eapply rv_live; eauto.
  - intros m1 p1 q1 m2 p2 q2 I1 I2. apply (Hself m1 p1 q1 m2 p2 q2); now right.
  - intros m' p' q' Hin. apply (Hdiff m' p' q'). now right.
  - exists s'. split; auto. split; [eapply revalued_trans; eauto|]. split; [|split].
    + intros a Ha Hb. rewrite Hout; [|intros Hx; apply Ha; now right|intros Hx; apply Hb; now right]. apply Hne1; intros ->; [apply Ha|apply Hb]; now left.
    + rewrite Hl, L1. unfold move_evs. cbn [map concat]. now rewrite <- app_assoc.
    + intros m' p' q' [[= <- <- <-]|Hin] Hpq.
      * rewrite Hout; [|exact Hni|]. { rewrite V1. destruct (addr_eqb_spec p q); [congruence|]. now rewrite addr_eqb_refl. }
        intros Hx. apply in_map_iff in Hx. destruct Hx as ([[m' p'] q'] & Hq & Hin). cbn in Hq. destruct (Hneq m' p' q' Hin) as (_ & H & _). congruence.
      * rewrite (Hall m' p' q' Hin Hpq). destruct (Hneq m' p' q' Hin) as (A & B & C & D). apply Hne1; auto.
Qed.

(** ** The loops are these calls *)
Definition dat_kept {A} (a : M st A) : Prop := forall s s' x, a s = (s', x) -> forall c i, bdat (s_blk s') c i = bdat (s_blk s) c i.
Lemma dk_bnd {A B} (a : M st A) (f : A -> M st B) : dat_kept a -> (forall x, dat_kept (f x)) -> dat_kept (bnd a f).
Proof.
  intros Ha Hf s s' x H. unfold bnd in H. destruct (a s) as [s1 [y|e|u]] eqn:H1.
  - intros c i. now rewrite (Hf y _ _ _ H), (Ha _ _ _ H1).
  - injection H as <- <-. eapply Ha; eauto.
  - injection H as <- <-. eapply Ha; eauto.
Qed.
Lemma dk_same {A} (a : M st A) : (forall s s' x, a s = (s', x) -> s_blk s' = s_blk s) -> dat_kept a.
Proof. intros H s s' x H1 c i. now rewrite (H _ _ _ H1). Qed.
Lemma dk_ret {A} (x : A) : dat_kept (ret x).
Proof. intros s s' y [= <- _] c i. reflexivity. Qed.
Lemma dk_raise {A} e : dat_kept (@raise st A e).
Proof. intros s s' y [= <- _] c i. reflexivity. Qed.
Lemma dk_ub {A} u : dat_kept (@ub st A u).
Proof. intros s s' y [= <- _] c i. reflexivity. Qed.
Lemma dk_tick : dat_kept (tick U).
Proof. intros s s' y [= <- _] c i. reflexivity. Qed.
Lemma dk_emit e : dat_kept (emit e).
Proof. intros s s' y [= <- _] c i. reflexivity. Qed.
Lemma dk_get_blk b : dat_kept (get_blk b).
Proof. intros s s' y H c i. unfold get_blk in H. destruct (s_blk s b); injection H as <- _; reflexivity. Qed.
Lemma dk_live m p : dat_kept (live m p).
Proof. apply dk_bnd; [apply dk_get_blk|]. intros k. destruct (aget _ _) as [z|]; [destruct (_ =? _); [apply dk_ret|apply dk_ub]|apply dk_ub]. Qed.
Lemma dk_vacant p : dat_kept (vacant E p).
Proof. apply dk_bnd; [apply dk_get_blk|]. intros k. destruct (aget _ _) as [z|]; [destruct (needs_destroy _ _); [apply dk_ub|apply dk_ret]|apply dk_ret]. Qed.
Lemma dk_put_inst p z : dat_kept (put_inst p z).
Proof.
  intros s s' y H c i. unfold put_inst, bnd, get_blk in H. destruct (s_blk s (fst p)) as [k|] eqn:Hk; injection H as <- _; auto. cbn. exact (bdat_inst _ _ _ Hk _ c i).
Qed.
Lemma dk_del_inst p : dat_kept (del_inst p).
Proof.
  intros s s' y H c i. unfold del_inst, bnd, get_blk in H. destruct (s_blk s (fst p)) as [k|] eqn:Hk; injection H as <- _; auto. cbn. exact (bdat_inst _ _ _ Hk _ c i).
Qed.
Lemma dk_copy_asgn m p q : dat_kept (copy_asgn U m p q).
Proof.
  apply dk_bnd; [apply dk_tick|intros a]. apply dk_bnd; [apply dk_live|intros _]. apply dk_bnd; [apply dk_live|intros y]. apply dk_bnd; [apply dk_emit|intros _].
  destruct (_ =? _)%Z; [apply dk_put_inst|apply dk_bnd; [apply dk_put_inst|intros _; apply dk_raise]].
Qed.
Lemma dk_move_one m p q : dat_kept (move_one m p q).
Proof.
  unfold move_one. destruct (m_move_asgn _).
  - apply dk_bnd; [apply dk_tick|intros a]. apply dk_bnd; [apply dk_live|intros _]. apply dk_bnd; [apply dk_live|intros y]. apply dk_bnd; [apply dk_emit|intros _].
    apply dk_bnd; [apply dk_put_inst|intros _; apply dk_put_inst].
  - apply dk_bnd; [|intros _].
    + unfold destroy. destruct (m_destroy _); [|apply dk_ret]. apply dk_bnd; [apply dk_live|intros _]. apply dk_bnd; [apply dk_emit|intros _]. apply dk_del_inst.
    + apply dk_bnd; [apply dk_tick|intros a]. apply dk_bnd; [apply dk_vacant|intros _]. apply dk_bnd; [apply dk_live|intros y]. apply dk_bnd; [apply dk_emit|intros _].
      apply dk_bnd; [apply dk_put_inst|intros _; apply dk_put_inst].
Qed.
Lemma bnd_ext {S A B} (a : M S A) (f g : A -> M S B) s : (forall s1 x, a s = (s1, Ok x) -> f x s1 = g x s1) -> bnd a f s = bnd a g s.
Proof. intros H. unfold bnd. destruct (a s) as [s1 [x|e|u]]; auto. Qed.

Definition shared (mid : mptr -> option nat) (own : type_rec) (dx dy : nat -> mdata) (ms : list (nat * mptr)) : list (mptr * addr * addr) :=
  concat (map (fun im => match index_of own (mid (snd im)) with Some oi => [(snd im, md_mixin (dx oi), md_mixin (dy (fst im)))] | None => [] end) ms).
Lemma shared_in mid own dx dy ms m p q : In (m, p, q) (shared mid own dx dy ms) <-> exists i oi, In (i, m) ms /\ index_of own (mid m) = Some oi /\ p = md_mixin (dx oi) /\ q = md_mixin (dy i).
Proof.
  unfold shared. rewrite in_concat. split.
  - intros (l & Hl & Hin). apply in_map_iff in Hl. destruct Hl as ([i m'] & <- & Him). cbn [fst snd] in Hin. destruct (index_of own (mid m')) as [oi|] eqn:Hoi; [|destruct Hin].
    destruct Hin as [[= -> <- <-]|[]]. exists i, oi. auto.
  - intros (i & oi & Him & Hoi & -> & ->). eexists. split; [apply in_map_iff; exists (i, m); split; [reflexivity|exact Him]|]. cbn [fst snd]. rewrite Hoi. now left.
Qed.

Section Loops.
Variables (x y : obj) (bx yb : nat) (own : type_rec) (dx dy : nat -> mdata) (mid : mptr -> option nat).
Hypothesis Hbx : o_data x = Some bx.
Hypothesis Hby : o_data y = Some yb.
Definition rows (s : st) (ms : list (nat * mptr)) : Prop := forall i m oi, In (i, m) ms -> index_of own (mid m) = Some oi -> bdat (s_blk s) bx oi = Some (dx oi) /\ bdat (s_blk s) yb i = Some (dy i).
Lemma data_at_row s z b i d : o_data z = Some b -> bdat (s_blk s) b i = Some d -> data_at z i s = (s, Ok (md_mixin d)).
Proof. intros Hb Hd. unfold data_at. rewrite Hb, (bnd_ok _ _ _ _ _ (read_data_step s b i d Hd)). reflexivity. Qed.

Lemma copy_loop_all ms : forall s, rows s ms -> (forall i m oi, In (i, m) ms -> index_of own (mid m) = Some oi -> m_copy_asgn (e_mixin E m) = true) ->
  copy_matching_loop E U mid x y own ms s = copy_all (shared mid own dx dy ms) s.
Proof.
  induction ms as [|[i m] ms IH]; intros s Hr Hc; [reflexivity|]. cbn [copy_matching_loop]. unfold shared. cbn [map concat fst snd]. fold (shared mid own dx dy ms).
  destruct (index_of own (mid m)) as [oi|] eqn:Hoi.
  - destruct (Hr i m oi (or_introl eq_refl) Hoi) as [D1 D2]. cbn [app copy_all]. unfold bnd at 1. rewrite (bnd_ok _ _ _ _ _ (data_at_row s x bx oi _ Hbx D1)), (bnd_ok _ _ _ _ _ (data_at_row s y yb i _ Hby D2)).
    rewrite (Hc i m oi (or_introl eq_refl) Hoi). unfold bnd. destruct (copy_asgn U m (md_mixin (dx oi)) (md_mixin (dy i)) s) as [s1 [[]|e|u]] eqn:H1; auto. apply IH.
    + intros i' m' oi' Hin Hoi'. rewrite !(dk_copy_asgn _ _ _ _ _ _ H1). apply (Hr i' m' oi'); auto. now right.
    + intros i' m' oi' Hin. apply (Hc i' m' oi'). now right.
  - rewrite (bnd_ok (ret tt) _ s s tt eq_refl). cbn [app]. apply IH; [intros i' m' oi' Hin; apply Hr; now right|intros i' m' oi' Hin; apply (Hc i' m' oi'); now right].
Qed.
Lemma move_loop_all fb ms : forall s, rows s ms ->
  (forall i m oi, In (i, m) ms -> index_of own (mid m) = Some oi -> m_move_asgn (e_mixin E m) || (fb && m_move_init (e_mixin E m)) = true) ->
  move_matching_loop E U fb mid x y own ms s = move_all (shared mid own dx dy ms) s.
Proof.
  induction ms as [|[i m] ms IH]; intros s Hr Hc; [reflexivity|]. cbn [move_matching_loop]. unfold shared. cbn [map concat fst snd]. fold (shared mid own dx dy ms).
  destruct (index_of own (mid m)) as [oi|] eqn:Hoi.
  - destruct (Hr i m oi (or_introl eq_refl) Hoi) as [D1 D2]. cbn [app move_all]. unfold bnd at 1. rewrite (bnd_ok _ _ _ _ _ (data_at_row s x bx oi _ Hbx D1)), (bnd_ok _ _ _ _ _ (data_at_row s y yb i _ Hby D2)).
    assert (He : (if m_move_asgn (e_mixin E m) then move_asgn U m (md_mixin (dx oi)) (md_mixin (dy i)) else if negb fb then ub UbAssert
      else destroy E m (md_mixin (dx oi));; (if m_move_init (e_mixin E m) then move_init E U m (md_mixin (dx oi)) (md_mixin (dy i)) else ub UbAssert)) = move_one m (md_mixin (dx oi)) (md_mixin (dy i))).
    { unfold move_one. specialize (Hc i m oi (or_introl eq_refl) Hoi). destruct (m_move_asgn (e_mixin E m)); auto. destruct fb; [|discriminate]. cbn in Hc. rewrite Hc. reflexivity. }
    rewrite He. unfold bnd. destruct (move_one m (md_mixin (dx oi)) (md_mixin (dy i)) s) as [s1 [[]|e|u]] eqn:H1; auto. apply IH.
    + intros i' m' oi' Hin Hoi'. rewrite !(dk_move_one _ _ _ _ _ _ H1). apply (Hr i' m' oi'); auto. now right.
    + intros i' m' oi' Hin. apply (Hc i' m' oi'). now right.
  - rewrite (bnd_ok (ret tt) _ s s tt eq_refl). cbn [app]. apply IH; [intros i' m' oi' Hin; apply Hr; now right|intros i' m' oi' Hin; apply (Hc i' m' oi'); now right].
Qed.
End Loops.

Lemma copy_loop_none x y mid own ms s : (forall i m, In (i, m) ms -> index_of own (mid m) = None) -> copy_matching_loop E U mid x y own ms s = (s, Ok tt).
Proof. induction ms as [|[i m] ms IH]; intros H; [reflexivity|]. cbn [copy_matching_loop]. rewrite (H i m (or_introl eq_refl)), (bnd_ok (ret tt) _ s s tt eq_refl). apply IH. intros i' m' Hin. apply (H i'). now right. Qed.
Lemma move_loop_none fb x y mid own ms s : (forall i m, In (i, m) ms -> index_of own (mid m) = None) -> move_matching_loop E U fb mid x y own ms s = (s, Ok tt).
Proof. induction ms as [|[i m] ms IH]; intros H; [reflexivity|]. cbn [move_matching_loop]. rewrite (H i m (or_introl eq_refl)), (bnd_ok (ret tt) _ s s tt eq_refl). apply IH. intros i' m' Hin. apply (H i'). now right. Qed.
Lemma shared_none mid own dx dy ms : (forall i m, In (i, m) ms -> index_of own (mid m) = None) -> shared mid own dx dy ms = [].
Proof. induction ms as [|[i m] ms IH]; intros H; [reflexivity|]. unfold shared. cbn [map concat fst snd]. rewrite (H i m (or_introl eq_refl)). apply IH. intros i' m' Hin. apply (H i'). now right. Qed.

Lemma check_copy_matching_cases mid own ms : (check_copy_matching E mid own ms = Ok tt /\ forall m, In m ms -> type_has_id own (mid m) = true -> m_copy_asgn (e_mixin E m) = true) \/
  (check_copy_matching E mid own ms = Throw EMissingFunc /\ exists m, In m ms /\ type_has_id own (mid m) = true /\ m_copy_asgn (e_mixin E m) = false).
Proof.
  induction ms as [|a ms IH]; [left; split; auto; intros m []|]. cbn. destruct (type_has_id own (mid a)) eqn:Hh.
  - destruct (m_copy_asgn (e_mixin E a)) eqn:Hc; [|right; split; auto; exists a; auto]. destruct IH as [(IH & Hx)|(IH & m & Hm & Hx)]; [left|right]; split; auto; [|exists m; auto]. intros m [<-|Hm]; auto.
  - destruct IH as [(IH & Hx)|(IH & m & Hm & Hx)]; [left|right]; split; auto; [|exists m; auto]. intros m [<-|Hm]; auto. congruence.
Qed.
Lemma check_move_matching_cases fb mid own ms : (check_move_matching E fb mid own ms = Ok tt /\ forall m, In m ms -> type_has_id own (mid m) = true -> m_move_asgn (e_mixin E m) || (fb && m_move_init (e_mixin E m)) = true) \/
  (check_move_matching E fb mid own ms = Throw EMissingFunc /\ exists m, In m ms /\ type_has_id own (mid m) = true /\ m_move_asgn (e_mixin E m) || (fb && m_move_init (e_mixin E m)) = false).
Proof.
  induction ms as [|a ms IH]; [left; split; auto; intros m []|]. cbn. destruct (type_has_id own (mid a)) eqn:Hh.
  - destruct (m_move_asgn (e_mixin E a) || (fb && m_move_init (e_mixin E a))) eqn:Hc; [|right; split; auto; exists a; auto]. destruct IH as [(IH & Hx)|(IH & m & Hm & Hx)]; [left|right]; split; auto; [|exists m; auto]. intros m [<-|Hm]; auto.
  - destruct IH as [(IH & Hx)|(IH & m & Hm & Hx)]; [left|right]; split; auto; [|exists m; auto]. intros m [<-|Hm]; auto. congruence.
Qed.
Lemma has_id_index own id : type_has_id own id = true <-> exists i, index_of own id = Some i.
Proof. unfold type_has_id. destruct (index_of own id); split; eauto; try discriminate. intros (i & H). discriminate. Qed.

Lemma enum_nth {A} (l : list A) i x : In (i, x) (enumerate 0 l) <-> nth_error l i = Some x.
Proof.
  rewrite (enumerate_in (fun _ => None)). split.
  - intros (j & -> & H). exact H.
  - intros H. exists i. split; [reflexivity|exact H].
Qed.

(** ** The shared mixins of two objects *)
Section Two.
Variables (s : st) (o : nat) (x : obj) (bx : nat) (rx : tref) (tx : type_rec) (dx : nat -> mdata) (src : nat) (y : obj) (yb : nat) (ry : tref) (ty : type_rec) (dy : nat -> mdata).
Hypothesis I : Inv s.
Hypothesis WX : whole E s o x bx rx tx dx.
Hypothesis WY : whole E s src y yb ry ty dy.
Hypothesis HD : t_dom tx = t_dom ty.
Notation mid := (w_mid (s_w s)).
Notation L := (shared mid tx dx dy (enumerate 0 (t_mixins ty))).

Lemma two_in m p q : In (m, p, q) L <-> exists i oi, nth_error (t_mixins ty) i = Some m /\ nth_error (t_mixins tx) oi = Some m /\ p = md_mixin (dx oi) /\ q = md_mixin (dy i).
Proof.
  rewrite shared_in. pose proof WX as (_ & _ & _ & A4 & _). pose proof WY as (_ & _ & _ & B4 & _). split; intros (i & oi & H1 & H2 & H3 & H4); exists i, oi.
  - apply enum_nth in H1. split; auto. split; auto. eapply (type_idx E (s_w s) ry ty rx tx); eauto; [apply (iv_reach _ _ I)|eapply nth_error_In; eauto].
  - rewrite enum_nth. split; auto. split; auto. eapply tg_idx; [apply (inv_good E AM s rx tx I A4)|exact H2].
Qed.
Lemma whole_inj o' x' b' r' t' d' i j : whole E s o' x' b' r' t' d' -> i < length (t_mixins t') -> j < length (t_mixins t') -> md_mixin (d' i) = md_mixin (d' j) -> i = j.
Proof.
  intros (_ & _ & _ & Ht' & _ & P) Hi Hj He. assert (Fi : full t' i = true) by (now apply Nat.ltb_lt). assert (Fj : full t' j = true) by (now apply Nat.ltb_lt).
  destruct (part_con_mine E _ _ _ _ _ _ _ _ _ i P Fi) as (m & off & v & Hm & _). destruct (part_con_mine E _ _ _ _ _ _ _ _ _ j P Fj) as (m' & off' & v' & Hm' & _).
  eapply part_addr_inj; eauto. exact (inv_good E AM s r' t' I Ht').
Qed.
Lemma two_live m p q : In (m, p, q) L -> (exists v, binst (s_blk s) p = Some {| i_mixin := m; i_val := v |}) /\ exists v, binst (s_blk s) q = Some {| i_mixin := m; i_val := v |}.
Proof. intros H. apply two_in in H. destruct H as (i & oi & H1 & H2 & -> & ->). split; eapply whole_inst; eauto. Qed.
Lemma two_nodup_ty m i j : nth_error (t_mixins ty) i = Some m -> nth_error (t_mixins ty) j = Some m -> i = j.
Proof.
  intros H1 H2. pose proof WY as (_ & _ & _ & B4 & _). pose proof (inv_good E AM s ry ty I B4) as G. pose proof (tg_idx _ _ _ G m i H1). pose proof (tg_idx _ _ _ G m j H2). congruence.
Qed.
Lemma two_nodup_tx m i j : nth_error (t_mixins tx) i = Some m -> nth_error (t_mixins tx) j = Some m -> i = j.
Proof.
  intros H1 H2. pose proof WX as (_ & _ & _ & B4 & _). pose proof (inv_good E AM s rx tx I B4) as G. pose proof (tg_idx _ _ _ G m i H1). pose proof (tg_idx _ _ _ G m j H2). congruence.
Qed.
Lemma two_self m p q m' p' q' : In (m, p, q) L -> In (m', p', q') L -> p = q' -> p' = p.
Proof.
  intros H H' He. apply two_in in H, H'. destruct H as (i & oi & H1 & H2 & -> & ->). destruct H' as (i' & oi' & H1' & H2' & -> & ->). pose proof (nth_error_lt _ _ _ H2) as Hl. pose proof (nth_error_lt _ _ _ H1') as Hl'.
  assert (o = src).
  { apply (iv_sep _ _ I o src (fst (md_mixin (dx oi)))); [eapply whole_foot; eauto|rewrite He; eapply whole_foot; eauto]. }
  assert (x = y /\ rx = ry /\ tx = ty /\ bx = yb) as (Ex & Er & Et & Eb).
  { pose proof WX as (A1 & A2 & A3 & A4 & _). pose proof WY as (B1 & B2 & B3 & B4 & _). subst src. assert (x = y) by congruence. split; auto. split; [congruence|]. split; congruence. }
  assert (Hd : dx oi = dy oi) by (pose proof (whole_dat E s o x bx rx tx dx oi WX Hl); pose proof (whole_dat E s src y yb ry ty dy oi WY ltac:(congruence)); congruence).
  assert (oi = i') by (eapply (whole_inj src y yb ry ty dy); eauto; congruence). subst i'.
  assert (oi' = oi); [|congruence]. apply (two_nodup_tx m'); congruence.
Qed.
Lemma two_nodup : NoDup (map target L) /\ NoDup (map source L).
Proof.
  assert (Hg : forall (f : mptr * addr * addr -> addr), (forall i oi m i' oi' m', nth_error (t_mixins ty) i = Some m -> nth_error (t_mixins tx) oi = Some m -> nth_error (t_mixins ty) i' = Some m' -> nth_error (t_mixins tx) oi' = Some m' ->
      f (m, md_mixin (dx oi), md_mixin (dy i)) = f (m', md_mixin (dx oi'), md_mixin (dy i')) -> i = i') ->
    forall k ms, (forall i m, nth_error ms i = Some m -> nth_error (t_mixins ty) (k + i) = Some m) -> NoDup (map f (shared mid tx dx dy (enumerate k ms)))).
  { intros f Hf k ms. revert k. induction ms as [|m ms IH]; intros k Hms; [constructor|]. cbn [enumerate]. unfold shared. cbn [map concat fst snd]. fold (shared mid tx dx dy (enumerate (S k) ms)).
    assert (Hk : nth_error (t_mixins ty) k = Some m) by (specialize (Hms 0 m eq_refl); now rewrite Nat.add_0_r in Hms).
    assert (Hms' : forall i m0, nth_error ms i = Some m0 -> nth_error (t_mixins ty) (S k + i) = Some m0) by (intros i m0 Hi; specialize (Hms (S i) m0 Hi); replace (S k + i) with (k + S i) by lia; exact Hms).
    pose proof WX as (_ & _ & _ & A4 & _). pose proof WY as (_ & _ & _ & B4 & _).
    assert (Hix : forall i m oi, nth_error (t_mixins ty) i = Some m -> index_of tx (mid m) = Some oi -> nth_error (t_mixins tx) oi = Some m).
    { intros i m0 oi Hi Hoi. eapply (type_idx E (s_w s) ry ty rx tx); eauto; [apply (iv_reach _ _ I)|eapply nth_error_In; eauto]. }
    destruct (index_of tx (mid m)) as [oi|] eqn:Hoi; [|apply IH; auto]. cbn [app map]. constructor; [|apply IH; auto].
    intros Hin. apply in_map_iff in Hin. destruct Hin as ([[m' p'] q'] & He & Hin). apply shared_in in Hin. destruct Hin as (i' & oi' & Him & Hoi' & -> & ->).
    apply (enumerate_in (fun _ => None)) in Him. destruct Him as (j & -> & Hj). apply Hms' in Hj. assert (S k + j = k) by (eapply (Hf (S k + j) oi' m' k oi m); eauto). lia. }
  split; apply Hg; try (intros i m Hi; exact Hi).
  - intros i oi m i' oi' m' H1 H2 H3 H4 He. cbn in He. assert (oi = oi') by (eapply (whole_inj o x bx rx tx dx); eauto using nth_error_lt). subst oi'. assert (m' = m) as -> by congruence. now apply (two_nodup_ty m).
  - intros i oi m i' oi' m' H1 H2 H3 H4 He. cbn in He. eapply (whole_inj src y yb ry ty dy); eauto using nth_error_lt.
Qed.
Lemma two_rows : rows bx yb tx dx dy mid s (enumerate 0 (t_mixins ty)).
Proof.
  intros i m oi Hi Hoi. assert (Hin : In (m, md_mixin (dx oi), md_mixin (dy i)) L) by (apply shared_in; exists i, oi; auto). apply two_in in Hin.
  pose proof WX as (_ & _ & _ & A4 & _). pose proof WY as (_ & _ & _ & B4 & _). apply enum_nth in Hi. assert (Hm : nth_error (t_mixins tx) oi = Some m) by (eapply (type_idx E (s_w s) ry ty rx tx); eauto; [apply (iv_reach _ _ I)|eapply nth_error_In; eauto]).
  split; [eapply whole_dat; eauto using nth_error_lt|eapply whole_dat; eauto using nth_error_lt].
Qed.
End Two.

(** ** copy_matching_from *)
Inductive cmatch_out (s : st) (o : nat) (x : obj) (src : nat) (y : obj) (s' : st) : res unit -> Prop :=
| cm_none rx tx ry ty : o_type x = Some rx -> w_type (s_w s) rx = Some tx -> o_type y = Some ry -> w_type (s_w s) ry = Some ty -> (o_data x = None \/ o_data y = None) ->
    s' = s -> cmatch_out s o x src y s' (Ok tt)
| cm_check bx rx tx dx yb ry ty dy m : whole E s o x bx rx tx dx -> whole E s src y yb ry ty dy -> t_dom tx = t_dom ty -> In m (t_mixins tx) -> In m (t_mixins ty) -> m_copy_asgn (e_mixin E m) = false ->
    s' = s -> cmatch_out s o x src y s' (Throw EMissingFunc)
| cm_do bx rx tx dx yb ry ty dy res : whole E s o x bx rx tx dx -> whole E s src y yb ry ty dy -> t_dom tx = t_dom ty ->
    (forall m, In m (t_mixins tx) -> In m (t_mixins ty) -> m_copy_asgn (e_mixin E m) = true) ->
    copy_all (shared (w_mid (s_w s)) tx dx dy (enumerate 0 (t_mixins ty))) s = (s', res) -> revalued s s' ->
    cmatch_out s o x src y s' res.

Lemma empty_index s o x r t id : Inv s -> typed s -> s_obj s o = Some x -> o_data x = None -> o_type x = Some r -> w_type (s_w s) r = Some t -> t_mixins t = [] /\ index_of t id = None.
Proof.
  intros I Ty Ho Hd Hr Ht. pose proof (Ty o x Ho Hd) as Hq. rewrite Hr in Hq. destruct r as [d|k]; [|destruct Hq]. destruct (type_empty E (s_w s) d (iv_reach _ _ I)) as (k & Hk).
  assert (t = set_nobj (empty_type d) k) as -> by congruence. split; auto. unfold index_of. cbn. destruct id as [[|n]|]; reflexivity.
Qed.
Lemma shared_mixin s rx tx ry ty m i : Inv s -> w_type (s_w s) rx = Some tx -> w_type (s_w s) ry = Some ty -> t_dom tx = t_dom ty -> In m (t_mixins ty) -> index_of tx (w_mid (s_w s) m) = Some i -> In m (t_mixins tx).
Proof. intros I H1 H2 Hd Hm Hi. eapply nth_error_In. eapply (type_idx E (s_w s) ry ty rx tx); eauto. apply (iv_reach _ _ I). Qed.
Lemma mixin_has s r t m : Inv s -> w_type (s_w s) r = Some t -> In m (t_mixins t) -> exists i, index_of t (w_mid (s_w s) m) = Some i.
Proof. intros I Ht Hm. apply In_nth_error in Hm. destruct Hm as (i & Hi). exists i. eapply tg_idx; [apply (inv_good E AM s r t I Ht)|exact Hi]. Qed.

Lemma act_cmatch s o x src y : Inv s -> typed s -> s_obj s o = Some x -> o_type x <> None -> s_obj s src = Some y -> o_type y <> None -> same_domain s o src ->
  exists s' res, copy_matching_from E U o src s = (s', res) /\ ~ is_ub res /\ cmatch_out s o x src y s' res /\ Inv s' /\ typed s'.
Proof.
  intros I Ty Hx Hxt Hy Hyt Hsd. unfold copy_matching_from. rewrite (bnd_ok _ _ _ _ _ (get_obj_step s o x Hx)), (bnd_ok _ _ _ _ _ (get_obj_step s src y Hy)).
  destruct (the_type_ok E s o x I Ty Hx Hxt) as (rx & tx & Hrx & Htx & Hx1). destruct (the_type_ok E s src y I Ty Hy Hyt) as (ry & ty & Hry & Hty & Hy1).
  rewrite (bnd_ok _ _ _ _ _ Hy1), (bnd_ok _ _ _ _ _ Hx1). unfold the_mid. rewrite (bnd_ok _ _ s s (w_mid (s_w s)) eq_refl). cbn [fst snd].
  assert (Hnone : (o_data x = None \/ o_data y = None) -> exists s' res, ((fun s0 => (s0, check_copy_matching E (w_mid (s_w s)) tx (t_mixins ty)));;
    copy_matching_loop E U (w_mid (s_w s)) x y tx (enumerate 0 (t_mixins ty))) s = (s', res) /\ ~ is_ub res /\ cmatch_out s o x src y s' res /\ Inv s' /\ typed s').
  { intros Hno. assert (Hidx : forall m, In m (t_mixins ty) -> index_of tx (w_mid (s_w s) m) = None).
    { intros m Hm. destruct Hno as [Hno|Hno].
      - eapply (empty_index s o x rx tx); eauto.
      - destruct (empty_index s src y ry ty None I Ty Hy Hno Hry Hty) as [He _]. rewrite He in Hm. destruct Hm. }
    destruct (check_copy_matching_cases (w_mid (s_w s)) tx (t_mixins ty)) as [(Hc & _)|(Hc & m & Hm & Hh & _)].
    - rewrite Hc. rewrite (bnd_ok _ _ s s tt eq_refl), copy_loop_none. 2:{ intros i m Hin. apply Hidx. apply enum_nth in Hin. eapply nth_error_In; eauto. }
      exists s, (Ok tt). split; auto. split; auto. split; auto. eapply cm_none; eauto.
    - exfalso. apply has_id_index in Hh. destruct Hh as (i & Hi). rewrite (Hidx m Hm) in Hi. discriminate. }
  destruct (o_data x) as [bx|] eqn:Hbx; [|auto]. destruct (o_data y) as [yb|] eqn:Hby; [|auto]. clear Hnone.
  destruct (whole_of E s o x bx I Hx Hbx) as (rx' & tx' & dx & WX). destruct (whole_of E s src y yb I Hy Hby) as (ry' & ty' & dy & WY).
  pose proof WX as (_ & _ & A3 & A4 & A5 & _). pose proof WY as (_ & _ & B3 & B4 & B5 & _).
  assert (rx' = rx) as -> by congruence. assert (ry' = ry) as -> by congruence. assert (tx' = tx) as -> by congruence. assert (ty' = ty) as -> by congruence.
  assert (HD : t_dom tx = t_dom ty) by (eapply (Hsd x y rx ry tx ty); eauto).
  destruct (check_copy_matching_cases (w_mid (s_w s)) tx (t_mixins ty)) as [(Hc & Hcs)|(Hc & m & Hm & Hh & Hno)].
  2:{ rewrite Hc. rewrite (bnd_throw _ _ s s EMissingFunc eq_refl). exists s, (Throw EMissingFunc). split; auto. split; auto. split; auto. apply has_id_index in Hh. destruct Hh as (i & Hi).
      eapply cm_check; eauto. eapply (shared_mixin s rx tx ry ty); eauto. }
  rewrite Hc. rewrite (bnd_ok _ _ s s tt eq_refl). rewrite (copy_loop_all x y bx yb tx dx dy (w_mid (s_w s)) Hbx Hby).
  2:{ eapply two_rows; eauto. }
  2:{ intros i m oi Hi Hoi. apply Hcs; [apply enum_nth in Hi; eapply nth_error_In; eauto|]. apply has_id_index. eauto. }
  destruct (copy_all_step (shared (w_mid (s_w s)) tx dx dy (enumerate 0 (t_mixins ty))) s) as (s' & res & H1 & R & Hout & Hres).
  - eapply two_nodup; eauto.
  - intros m p q. eapply two_live; eauto.
  - intros m p q m' p' q'. eapply two_self; eauto.
  - exists s', res. split; auto. split; [destruct Hres as [(-> & _)|(L1 & m & p & q & L2 & e & _ & _ & -> & _)]; auto|]. split; [eapply cm_do; eauto|].
    + intros m Hm1 Hm2. apply Hcs; auto. apply has_id_index. eapply mixin_has; eauto.
    + split; [eapply inv_vals; eauto|]. eapply typed_rest; [exact Ty|apply R].
Qed.

(** ** Use of a mixin by the program *)
Inductive use_out (s : st) (o : nat) (x : obj) (i k : nat) (s' : st) : res unit -> Prop :=
| us_none r t : o_type x = Some r -> w_type (s_w s) r = Some t -> nth_error (t_mixins t) i = None -> s' = s -> use_out s o x i k s' (Ok tt)
| us_do b r t dd m v e v' : whole E s o x b r t dd -> nth_error (t_mixins t) i = Some m -> binst (s_blk s) (md_mixin (dd i)) = Some {| i_mixin := m; i_val := v |} ->
    s' = st_inst (st_call s (FUpdate k) m (md_mixin (dd i)) None e) (md_mixin (dd i)) {| i_mixin := m; i_val := v' |} -> revalued s s' ->
    use_out s o x i k s' (if (e =? 0)%Z then Ok tt else Throw (EUserFunc e)).
Lemma act_use s o x i k : Inv s -> typed s -> s_obj s o = Some x -> o_type x <> None ->
  exists s' res, use_mixin U o i k s = (s', res) /\ ~ is_ub res /\ use_out s o x i k s' res /\ Inv s' /\ typed s'.
Proof.
  intros I Ty Hx Hxt. unfold use_mixin. rewrite (bnd_ok _ _ _ _ _ (get_obj_step s o x Hx)). destruct (the_type_ok E s o x I Ty Hx Hxt) as (r & t & Hr & Ht & H1).
  rewrite (bnd_ok _ _ _ _ _ H1). cbn [snd]. destruct (nth_error (t_mixins t) i) as [m|] eqn:Hm.
  2:{ exists s, (Ok tt). split; [reflexivity|]. split; auto. split; auto. eapply us_none; eauto. }
  destruct (o_data x) as [b|] eqn:Hb.
  2:{ destruct (empty_index s o x r t None I Ty Hx Hb Hr Ht) as [He _]. rewrite He in Hm. destruct i; discriminate. }
  destruct (whole_of E s o x b I Hx Hb) as (r' & t' & dd & W). pose proof W as (_ & _ & A3 & A4 & _). assert (r' = r) as -> by congruence. assert (t' = t) as -> by congruence.
  rewrite (bnd_ok _ _ _ _ _ (data_at_row s x b i (dd i) Hb (whole_dat E s o x b r t dd i W (nth_error_lt _ _ _ Hm)))).
  destruct (whole_inst E s o x b r t dd i m I W Hm) as (v & Hv). rewrite (update_step U s k m _ _ Hv eq_refl).
  set (e := an_err (cur_ans U s)). set (v' := an_val (cur_ans U s)). set (s' := st_inst _ _ _).
  assert (R : revalued s s').
  { eapply revalued_trans; [apply (rv_call s (FUpdate k) m (md_mixin (dd i)) None e)|]. eapply rv_set; [rewrite call_inst; exact Hv|reflexivity]. }
  exists s', (if (e =? 0)%Z then Ok tt else Throw (EUserFunc e)). split; [reflexivity|]. split; [destruct (e =? 0)%Z; auto|]. split; [eapply us_do; eauto; reflexivity|].
  split; [eapply inv_vals; eauto|]. eapply typed_rest; [exact Ty|apply R].
Qed.

(** ** move_matching_from *)
Inductive mmatch_out (s : st) (fb : bool) (o : nat) (x : obj) (src : nat) (y : obj) (s' : st) : res unit -> Prop :=
| mm_none rx tx ry ty : o_type x = Some rx -> w_type (s_w s) rx = Some tx -> o_type y = Some ry -> w_type (s_w s) ry = Some ty -> (o_data x = None \/ o_data y = None) ->
    s' = s -> mmatch_out s fb o x src y s' (Ok tt)
| mm_check bx rx tx dx yb ry ty dy m : whole E s o x bx rx tx dx -> whole E s src y yb ry ty dy -> t_dom tx = t_dom ty -> In m (t_mixins tx) -> In m (t_mixins ty) ->
    m_move_asgn (e_mixin E m) || (fb && m_move_init (e_mixin E m)) = false ->
    s' = s -> mmatch_out s fb o x src y s' (Throw EMissingFunc)
| mm_do bx rx tx dx yb ry ty dy : whole E s o x bx rx tx dx -> whole E s src y yb ry ty dy -> t_dom tx = t_dom ty ->
    (forall m, In m (t_mixins tx) -> In m (t_mixins ty) -> m_move_asgn (e_mixin E m) || (fb && m_move_init (e_mixin E m)) = true) ->
    (let L := shared (w_mid (s_w s)) tx dx dy (enumerate 0 (t_mixins ty)) in
     revalued s s' /\ (forall p, ~ In p (map target L) -> ~ In p (map source L) -> binst (s_blk s') p = binst (s_blk s) p) /\
     s_log s' = s_log s ++ move_evs L /\ (forall m p q, In (m, p, q) L -> p <> q -> binst (s_blk s') p = binst (s_blk s) q)) ->
    mmatch_out s fb o x src y s' (Ok tt).

Lemma act_mmatch s fb o x src y : Inv s -> typed s -> s_obj s o = Some x -> o_type x <> None -> s_obj s src = Some y -> o_type y <> None -> same_domain s o src -> (fb = true -> o <> src) ->
  exists s' res, move_matching_from E U fb o src s = (s', res) /\ ~ is_ub res /\ mmatch_out s fb o x src y s' res /\ Inv s' /\ typed s'.
Proof.
  intros I Ty Hx Hxt Hy Hyt Hsd Hfb. unfold move_matching_from. rewrite (bnd_ok _ _ _ _ _ (get_obj_step s o x Hx)), (bnd_ok _ _ _ _ _ (get_obj_step s src y Hy)).
  destruct (the_type_ok E s o x I Ty Hx Hxt) as (rx & tx & Hrx & Htx & Hx1). destruct (the_type_ok E s src y I Ty Hy Hyt) as (ry & ty & Hry & Hty & Hy1).
  rewrite (bnd_ok _ _ _ _ _ Hy1), (bnd_ok _ _ _ _ _ Hx1). unfold the_mid. rewrite (bnd_ok _ _ s s (w_mid (s_w s)) eq_refl). cbn [fst snd].
  assert (Hnone : (o_data x = None \/ o_data y = None) -> exists s' res, ((fun s0 => (s0, check_move_matching E fb (w_mid (s_w s)) tx (t_mixins ty)));;
    move_matching_loop E U fb (w_mid (s_w s)) x y tx (enumerate 0 (t_mixins ty))) s = (s', res) /\ ~ is_ub res /\ mmatch_out s fb o x src y s' res /\ Inv s' /\ typed s').
  { intros Hno. assert (Hidx : forall m, In m (t_mixins ty) -> index_of tx (w_mid (s_w s) m) = None).
    { intros m Hm. destruct Hno as [Hno|Hno].
      - eapply (empty_index s o x rx tx); eauto.
      - destruct (empty_index s src y ry ty None I Ty Hy Hno Hry Hty) as [He _]. rewrite He in Hm. destruct Hm. }
    destruct (check_move_matching_cases fb (w_mid (s_w s)) tx (t_mixins ty)) as [(Hc & _)|(Hc & m & Hm & Hh & _)].
    - rewrite Hc. rewrite (bnd_ok _ _ s s tt eq_refl), move_loop_none. 2:{ intros i m Hin. apply Hidx. apply enum_nth in Hin. eapply nth_error_In; eauto. }
      exists s, (Ok tt). split; auto. split; auto. split; auto. eapply mm_none; eauto.
    - exfalso. apply has_id_index in Hh. destruct Hh as (i & Hi). rewrite (Hidx m Hm) in Hi. discriminate. }
  destruct (o_data x) as [bx|] eqn:Hbx; [|auto]. destruct (o_data y) as [yb|] eqn:Hby; [|auto]. clear Hnone.
  destruct (whole_of E s o x bx I Hx Hbx) as (rx' & tx' & dx & WX). destruct (whole_of E s src y yb I Hy Hby) as (ry' & ty' & dy & WY).
  pose proof WX as (_ & _ & A3 & A4 & A5 & _). pose proof WY as (_ & _ & B3 & B4 & B5 & _).
  assert (rx' = rx) as -> by congruence. assert (ry' = ry) as -> by congruence. assert (tx' = tx) as -> by congruence. assert (ty' = ty) as -> by congruence.
  assert (HD : t_dom tx = t_dom ty) by (eapply (Hsd x y rx ry tx ty); eauto).
  destruct (check_move_matching_cases fb (w_mid (s_w s)) tx (t_mixins ty)) as [(Hc & Hcs)|(Hc & m & Hm & Hh & Hno)].
  2:{ rewrite Hc. rewrite (bnd_throw _ _ s s EMissingFunc eq_refl). exists s, (Throw EMissingFunc). split; auto. split; auto. split; auto. apply has_id_index in Hh. destruct Hh as (i & Hi).
      eapply mm_check; eauto. eapply (shared_mixin s rx tx ry ty); eauto. }
  assert (Hcs' : forall m, In m (t_mixins tx) -> In m (t_mixins ty) -> m_move_asgn (e_mixin E m) || (fb && m_move_init (e_mixin E m)) = true) by (intros m Hm1 Hm2; apply Hcs; auto; apply has_id_index; eapply mixin_has; eauto).
  rewrite Hc. rewrite (bnd_ok _ _ s s tt eq_refl). rewrite (move_loop_all x y bx yb tx dx dy (w_mid (s_w s)) Hbx Hby).
  2:{ eapply two_rows; eauto. }
  2:{ intros i m oi Hi Hoi. apply Hcs; [apply enum_nth in Hi; eapply nth_error_In; eauto|]. apply has_id_index. eauto. }
  destruct (two_nodup s o x bx rx tx dx src y yb ry ty dy I WX WY HD) as [N1 N2].
  destruct (move_all_step (shared (w_mid (s_w s)) tx dx dy (enumerate 0 (t_mixins ty))) s N1 N2) as (s' & H1 & R & Hrest).
  - intros m p q. eapply two_live; eauto.
  - intros m p q m' p' q'. eapply two_self; eauto.
  - intros m p q Hin Hma. apply (two_in s o x bx rx tx dx src y yb ry ty dy I WX WY HD) in Hin. destruct Hin as (i & oi & Hi & Hoi & -> & ->). specialize (Hcs' m (nth_error_In _ _ Hoi) (nth_error_In _ _ Hi)).
    rewrite Hma in Hcs'. destruct fb; [|discriminate]. intros He. apply (Hfb eq_refl). apply (iv_sep _ _ I o src (fst (md_mixin (dx oi)))); [eapply whole_foot; eauto using nth_error_lt|rewrite He; eapply whole_foot; eauto using nth_error_lt].
  - exists s', (Ok tt). split; auto. split; auto. split; [eapply mm_do; eauto; cbv zeta; auto|]. split; [eapply inv_vals; eauto|]. eapply typed_rest; [exact Ty|apply R].
Qed.
End Match.
