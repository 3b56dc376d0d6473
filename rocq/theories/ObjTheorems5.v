(** Matching copies and moves, equality and order of objects *)
From Coq Require Import List Arith ZArith NArith Lia Bool.
From Verif Require Import Base Sv SvProofs BaseLemmas Info TypeBuild TypeQuery Domain ElemProofs TypesProofs SpecReg SpecDom HistProofs DomTheorems SpecLayout Heap HeapProofs Mutation Object SpecObj SpecMut SpecAct
  PartProofs RollProofs AllocProofs UpdProofs FinProofs PerfProofs WorldProofs ObjProofs OpProofs PlanProofs ActProofs ActProofs2 MatchProofs ActProofs3 MutProofs MutProofs2 MutTheorems HonestProofs StableProofs ObjTheorems ObjTheorems2 ObjTheorems3 ObjTheorems4.
Import ListNotations.

Section OT5.
Variable E : env.
Variable U : user.
Hypothesis AM : aligned_mixins E.
Notation Inv := (Inv E).
Notation trip := (mptr * addr * addr)%type.

(** ** Matching copies and moves *)
Lemma calls_concat (g : trip -> list ev) L m : (forall x e, In e (g x) -> forall m', is_call m' e = (fst (fst x) =? m')) ->
  calls m (concat (map g L)) = concat (map g (filter (fun x => fst (fst x) =? m) L)).
Proof.
  intros H. induction L as [|x L IH]; cbn; auto. unfold calls in *. rewrite filter_app, IH. destruct (fst (fst x) =? m) eqn:Hm; cbn.
  - f_equal. assert (Ha : forall e, In e (g x) -> is_call m e = true) by (intros e He; now rewrite (H x e He m)). clear -Ha. induction (g x) as [|e l IH]; cbn; auto. rewrite Ha by now left. f_equal. apply IH. intros e' He. apply Ha. now right.
  - assert (Ha : forall e, In e (g x) -> is_call m e = false) by (intros e He; now rewrite (H x e He m)). replace (filter (is_call m) (g x)) with (@nil ev); auto. clear -Ha. induction (g x) as [|e l IH]; cbn; auto. rewrite Ha by now left. apply IH. intros e' He. apply Ha. now right.
Qed.
Lemma filter_one {A} (f : A -> bool) L x : NoDup L -> In x L -> f x = true -> (forall y, In y L -> f y = true -> y = x) -> filter f L = [x].
Proof.
  induction 1 as [|y L Hn N IH]; intros Hi Hx Hu; [destruct Hi|]. cbn. destruct Hi as [->|Hi].
  - rewrite Hx. f_equal. assert (Ha : forall y, In y L -> f y = false). { intros y Hy. destruct (f y) eqn:Hf; auto. assert (y = x) as -> by (apply Hu; auto; now right). contradiction. }
    clear -Ha. induction L as [|y L IH]; cbn; auto. rewrite Ha by now left. apply IH. intros z Hz. apply Ha. now right.
  - destruct (f y) eqn:Hf; [assert (y = x) as -> by (apply Hu; auto; now left); contradiction|]. apply IH; auto. intros z Hz. apply Hu. now right.
Qed.
Lemma filter_none {A} (f : A -> bool) L : (forall y, In y L -> f y = false) -> filter f L = [].
Proof. intros Ha. induction L as [|y L IH]; cbn; auto. rewrite Ha by now left. apply IH. intros z Hz. apply Ha. now right. Qed.

Section Two5.
Variables (s : st) (o : nat) (x : obj) (bx : nat) (rx : tref) (tx : type_rec) (dx : nat -> mdata) (src : nat) (y : obj) (yb : nat) (ry : tref) (ty : type_rec) (dy : nat -> mdata).
Hypothesis I : Inv s.
Hypothesis WX : whole E s o x bx rx tx dx.
Hypothesis WY : whole E s src y yb ry ty dy.
Hypothesis HD : t_dom tx = t_dom ty.
Let L := shared (w_mid (s_w s)) tx dx dy (enumerate 0 (t_mixins ty)).
Lemma whole_place o' x' b r t dd i m p v : whole E s o' x' b r t dd -> holds s o' i m p v -> nth_error (t_mixins t) i = Some m /\ p = md_mixin (dd i).
Proof.
  intros W ((r1 & t1 & T & Hm) & Hg & _). destruct (type_of_fun s o' r t r1 t1 (whole_type E s o' x' b r t dd W) T) as [-> ->]. split; auto. rewrite (whole_get E s o' x' b r t dd i m W Hm) in Hg. congruence.
Qed.
Lemma shares_in m p q : In (m, p, q) L <-> exists v w, shares s o src m p q v w.
Proof.
  eapply iff_trans; [exact (two_in E AM s o x bx rx tx dx src y yb ry ty dy I WX WY HD m p q)|]. split.
  - intros (i & oi & Hi & Hoi & -> & ->). destruct (whole_inst E s o x bx rx tx dx oi m I WX Hoi) as (v & Hv). destruct (whole_inst E s src y yb ry ty dy i m I WY Hi) as (w & Hw). exists v, w, oi, i.
    split; eapply whole_holds; eauto.
  - intros (v & w & i & j & H1 & H2). destruct (whole_place _ _ _ _ _ _ _ _ _ _ WX H1) as [A ->]. destruct (whole_place _ _ _ _ _ _ _ _ _ _ WY H2) as [B ->]. exists j, i. auto.
Qed.
Lemma shares_one m p q p' q' : In (m, p, q) L -> In (m, p', q') L -> (m, p', q') = (m, p, q).
Proof.
  intros H H'. apply (two_in E AM s o x bx rx tx dx src y yb ry ty dy I WX WY HD) in H. apply (two_in E AM s o x bx rx tx dx src y yb ry ty dy I WX WY HD) in H'. destruct H as (i & j & A & B & -> & ->). destruct H' as (i' & j' & A' & B' & -> & ->).
  rewrite (two_nodup_ty E AM s src y yb ry ty dy I WY m i' i A' A), (two_nodup_ty E AM s o x bx rx tx dx I WX m j' j B' B). reflexivity.
Qed.
Lemma shares_nodup : NoDup L.
Proof. destruct (two_nodup E AM s o x bx rx tx dx src y yb ry ty dy I WX WY HD) as [N _]. eapply NoDup_map_inv; eauto. Qed.
Lemma shares_calls (g : trip -> list ev) m : (forall z e, In e (g z) -> forall m', is_call m' e = (fst (fst z) =? m')) ->
  (forall p q, In (m, p, q) L -> calls m (concat (map g L)) = g (m, p, q)) /\ ((forall p q, ~ In (m, p, q) L) -> calls m (concat (map g L)) = []).
Proof.
  intros H. rewrite calls_concat by auto. split.
  - intros p q Hin. rewrite (filter_one _ L (m, p, q) shares_nodup Hin); [cbn; now rewrite app_nil_r|cbn; apply Nat.eqb_refl|]. intros [[m' p'] q'] Hin' Hm. cbn in Hm. apply Nat.eqb_eq in Hm. subst m'. now apply shares_one.
  - intros Hn. rewrite filter_none; auto. intros [[m' p'] q'] Hin. cbn. apply Nat.eqb_neq. intros ->. eapply Hn; eauto.
Qed.
Lemma only_of s' both : revalued s s' -> (forall p, ~ In p (map target L) -> (both = true -> ~ In p (map source L)) -> binst (s_blk s') p = binst (s_blk s) p) -> only_shared s s' o src both.
Proof.
  intros R Ho. pose proof (rv_rest _ _ R) as (R1 & R2 & R3). split.
  - intros o'. now rewrite R2.
  - intros o' q t (z & A & B & C). exists z. rewrite R1, R2. auto.
  - intros b. exact (rv_attr _ _ R b).
  - intros b i. exact (rv_dat _ _ R b i).
  - intros p. exact (rv_back _ _ R p).
  - intros p. exact (rv_inst _ _ R p).
  - intros p H1 H2. apply Ho.
    + intros Hin. apply in_map_iff in Hin. destruct Hin as ([[m p'] q] & <- & Hin). apply shares_in in Hin. destruct Hin as (v & w & Hs). exact (H1 m q v w Hs).
    + intros Hb Hin. apply in_map_iff in Hin. destruct Hin as ([[m p'] q] & <- & Hin). apply shares_in in Hin. destruct Hin as (v & w & Hs). exact (H2 Hb m p' v w Hs).
Qed.
Lemma shares_both m : (has_some s o m /\ has_some s src m) <-> exists p q, In (m, p, q) L.
Proof.
  rewrite (has_whole E s o x bx rx tx dx m WX), (has_whole E s src y yb ry ty dy m WY). split.
  - intros [A B]. apply In_nth_error in A, B. destruct A as (i & A), B as (j & B). exists (md_mixin (dx i)), (md_mixin (dy j)). apply (two_in E AM s o x bx rx tx dx src y yb ry ty dy I WX WY HD). exists j, i. auto.
  - intros (p & q & H). apply (two_in E AM s o x bx rx tx dx src y yb ry ty dy I WX WY HD) in H. destruct H as (i & j & A & B & _). split; eapply nth_error_In; eauto.
Qed.
End Two5.

Lemma copy_ev_call : forall (z : trip) e, In e [EvCall FCopyAsgn (fst (fst z)) (snd (fst z)) (Some (snd z)) 0%Z] -> forall m', is_call m' e = (fst (fst z) =? m').
Proof. intros z e [<-|[]] m'. reflexivity. Qed.
Lemma copy_evs_concat (L : list trip) : copy_evs L = concat (map (fun z => [EvCall FCopyAsgn (fst (fst z)) (snd (fst z)) (Some (snd z)) 0%Z]) L).
Proof. unfold copy_evs. induction L; cbn; congruence. Qed.
Lemma move_ev_call : forall (z : trip) e, In e (move_ev E z) -> forall m', is_call m' e = (fst (fst z) =? m').
Proof. intros [[m p] q] e H m'. cbn in H. cbn [fst]. destruct (m_move_asgn (e_mixin E m)); [destruct H as [<-|[]]; reflexivity|]. destruct (m_destroy (e_mixin E m)); cbn in H; [destruct H as [<-|[<-|[]]]; reflexivity|destruct H as [<-|[]]; reflexivity]. Qed.
Lemma move_ev_moving m p q : move_ev E (m, p, q) = moving E m p q.
Proof. reflexivity. Qed.
Lemma only_refl s o src both : only_shared s s o src both.
Proof. split; auto. intros o' q t H. exact H. Qed.
Lemma nothing_shared s o x src y m : Inv s -> typed s -> s_obj s o = Some x -> s_obj s src = Some y -> o_data x = None \/ o_data y = None -> ~ (has_some s o m /\ has_some s src m).
Proof.
  intros I Ty Hx Hy Hd [H1 H2]. assert (H0 : forall o' x', s_obj s o' = Some x' -> o_data x' = None -> ~ has_some s o' m).
  { intros o' x' Hx' Hd' (i & r & t & (x1 & A & B & C) & Hi). assert (x1 = x') as -> by congruence. destruct (empty_index E s o' x' r t None I Ty Hx' Hd' B C) as [Hm _]. rewrite Hm in Hi. destruct i; discriminate. }
  destruct Hd as [Hd|Hd]; [exact (H0 o x Hx Hd H1)|exact (H0 src y Hy Hd H2)].
Qed.
Lemma shares_some s o src m p q v w : shares s o src m p q v w -> has_some s o m /\ has_some s src m.
Proof. intros (i & j & A & B). split; eapply holds_mixin; eauto. Qed.

Lemma cmatch_spec s o src s' res : Inv s -> typed s -> fair E s (OCopyMatching o src) -> op_run E U (OCopyMatching o src) s = (s', res) ->
  match res with
  | Ok _ => only_shared s s' o src false /\ exists l, did s s' l /\
      (forall m p q v w, shares s o src m p q v w -> instance s' p = Some {| i_mixin := m; i_val := w |} /\ calls m l = [EvCall FCopyAsgn m p (Some q) 0%Z]) /\
      (forall m, ~ (has_some s o m /\ has_some s src m) -> calls m l = [])
  | Throw e => only_shared s s' o src false /\
      match e with EMissingFunc => s' = s /\ exists m, has_some s o m /\ has_some s src m /\ m_copy_asgn (e_mixin E m) = false | EUserFunc _ => True | _ => False end
  | Ub _ => False
  end.
Proof.
  intros I Ty ((x & Hx & Hxt) & (y & Hy & Hyt) & Hsd) Hr. destruct (act_cmatch E U AM s o x src y I Ty Hx Hxt Hy Hyt Hsd) as (s0 & res0 & H0 & Hub & Hout & I' & Ty'). cbn in Hr. rewrite H0 in Hr. injection Hr as <- <-.
  inversion Hout as [rx tx ry ty A1 A2 A3 A4 Hd Hs|bx rx tx dx yb ry ty dy m WX WY HD Hm1 Hm2 Hm3 Hs|bx rx tx dx yb ry ty dy res' WX WY HD Hall Hc R]; subst.
  - split; [apply only_refl|]. exists []. split; [unfold did; now rewrite app_nil_r|]. split; [|reflexivity]. intros m p q v w Hs. destruct (nothing_shared s o x src y m I Ty Hx Hy Hd (shares_some _ _ _ _ _ _ _ _ Hs)).
  - split; [apply only_refl|]. split; auto. exists m. rewrite (has_whole E s o x bx rx tx dx m WX), (has_whole E s src y yb ry ty dy m WY). auto.
  - set (L := shared (w_mid (s_w s)) tx dx dy (enumerate 0 (t_mixins ty))) in *. destruct (two_nodup E AM s o x bx rx tx dx src y yb ry ty dy I WX WY HD) as [N1 _].
    destruct (copy_all_step U L s) as (s1 & res1 & H1 & R1 & Hoth & Hres); auto.
    { intros m p q. now apply (two_live E AM s o x bx rx tx dx src y yb ry ty dy I WX WY HD). }
    { now apply (two_self E AM s o x bx rx tx dx src y yb ry ty dy I WX WY HD). }
    rewrite H1 in Hc. injection Hc as -> ->. assert (Hos : only_shared s s0 o src false) by (apply (only_of s o x bx rx tx dx src y yb ry ty dy I WX WY HD); auto).
    destruct Hres as [(-> & Hl & Hv)|(L1 & m & p & q & L2 & e & HL & He & -> & _)]; [|split; auto]. split; auto. exists (copy_evs L). split; auto. split.
    + intros m p q v w Hs. assert (Hin : In (m, p, q) L) by (apply (shares_in s o x bx rx tx dx src y yb ry ty dy I WX WY HD); eauto). split.
      * change (binst (s_blk s0) p = Some {| i_mixin := m; i_val := w |}). rewrite (Hv m p q Hin). destruct Hs as (i & j & _ & _ & _ & Hw). exact Hw.
      * rewrite copy_evs_concat. apply (shares_calls s o x bx rx tx dx src y yb ry ty dy I WX WY HD _ m copy_ev_call). exact Hin.
    + intros m Hn. rewrite copy_evs_concat. apply (shares_calls s o x bx rx tx dx src y yb ry ty dy I WX WY HD _ m copy_ev_call). intros p q Hin. apply Hn. apply (shares_both s o x bx rx tx dx src y yb ry ty dy I WX WY HD). eauto.
Qed.

Lemma mmatch_spec s fb o src s' res : Inv s -> typed s -> fair E s (OMoveMatching fb o src) -> op_run E U (OMoveMatching fb o src) s = (s', res) ->
  match res with
  | Ok _ => only_shared s s' o src true /\ exists l, did s s' l /\
      (forall m p q v w, shares s o src m p q v w -> (o <> src -> instance s' p = Some {| i_mixin := m; i_val := w |}) /\ calls m l = moving E m p q) /\
      (forall m, ~ (has_some s o m /\ has_some s src m) -> calls m l = [])
  | Throw e => s' = s /\ e = EMissingFunc /\ exists m, has_some s o m /\ has_some s src m /\ m_move_asgn (e_mixin E m) = false /\ (fb = true -> m_move_init (e_mixin E m) = false)
  | Ub _ => False
  end.
Proof.
  intros I Ty ((x & Hx & Hxt) & (y & Hy & Hyt) & Hsd & Hfb) Hr. destruct (act_mmatch E U AM s fb o x src y I Ty Hx Hxt Hy Hyt Hsd Hfb) as (s0 & res0 & H0 & Hub & Hout & I' & Ty'). cbn in Hr. rewrite H0 in Hr. injection Hr as <- <-.
  inversion Hout as [rx tx ry ty A1 A2 A3 A4 Hd Hs|bx rx tx dx yb ry ty dy m WX WY HD Hm1 Hm2 Hm3 Hs|bx rx tx dx yb ry ty dy WX WY HD Hall Hc]; subst.
  - split; [apply only_refl|]. exists []. split; [unfold did; now rewrite app_nil_r|]. split; [|reflexivity]. intros m p q v w Hs. destruct (nothing_shared s o x src y m I Ty Hx Hy Hd (shares_some _ _ _ _ _ _ _ _ Hs)).
  - split; auto. split; auto. exists m. rewrite (has_whole E s o x bx rx tx dx m WX), (has_whole E s src y yb ry ty dy m WY). apply orb_false_iff in Hm3. destruct Hm3 as [Hm3 Hm4]. repeat (split; auto). intros ->. exact Hm4.
  - destruct Hc as (R & Hoth & Hl & Hv). set (L := shared (w_mid (s_w s)) tx dx dy (enumerate 0 (t_mixins ty))) in *. split; [apply (only_of s o x bx rx tx dx src y yb ry ty dy I WX WY HD); auto|]. exists (move_evs E L). split; auto. split.
    + intros m p q v w Hs. assert (Hin : In (m, p, q) L) by (apply (shares_in s o x bx rx tx dx src y yb ry ty dy I WX WY HD); eauto). split.
      * intros Hne. destruct Hs as (i & j & H1 & H2). assert (Hpq : p <> q). { intros <-. apply Hne. symmetry. exact (owns_one E AM s o src (fst p) I (holds_owns E AM s o i m p v I Ty H1) (holds_owns E AM s src j m p w I Ty H2)). }
        change (binst (s_blk s0) p = Some {| i_mixin := m; i_val := w |}). rewrite (Hv m p q Hin Hpq). apply H2.
      * rewrite <- move_ev_moving. apply (shares_calls s o x bx rx tx dx src y yb ry ty dy I WX WY HD _ m move_ev_call). exact Hin.
    + intros m Hn. apply (shares_calls s o x bx rx tx dx src y yb ry ty dy I WX WY HD _ m move_ev_call). intros p q Hin. apply Hn. apply (shares_both s o x bx rx tx dx src y yb ry ty dy I WX WY HD). eauto.
Qed.

(** ** Use of a mixin by the program *)
Lemma mixin_only s s' o i m p v both : only_mixin s s' p -> holds s o i m p v -> only_shared s s' o o both.
Proof.
  intros [A1 A2 A3 A4 A5 A6 A7] H. split; auto. intros q H1 _. apply A7. intros ->. apply (H1 m p v v). exists i, i. auto.
Qed.
Lemma use_spec s o i k s' res : Inv s -> typed s -> fair E s (OUse o i k) -> op_run E U (OUse o i k) s = (s', res) ->
  ((forall m, ~ has_mixin s o i m) /\ s' = s /\ res = Ok tt) \/
  exists m p v v' e, holds s o i m p v /\ holds s' o i m p v' /\ only_mixin s s' p /\ did s s' [EvCall (FUpdate k) m p None e] /\
    res = if (e =? 0)%Z then Ok tt else Throw (EUserFunc e).
Proof.
  intros I Ty (x & Hx & Hxt) Hr. destruct (act_use E U s o x i k I Ty Hx Hxt) as (s0 & res0 & H0 & _ & Hout & I' & Ty'). cbn in Hr. rewrite H0 in Hr. injection Hr as <- <-.
  inversion Hout as [r t Hr Ht Hn Hs|b r t dd m v e v' W Hm Hv Hs R]; subst.
  - left. split; auto. intros m (r1 & t1 & (x1 & A & B & C) & Hi). congruence.
  - right. set (p := md_mixin (dd i)) in *. assert (H : holds s o i m p v) by (eapply whole_holds; eauto). exists m, p, v, v', e. split; auto.
    assert (Hb : has_blk s (fst p)) by (eapply binst_has; eauto).
    set (s' := st_inst _ _ _) in *.
    assert (Hi : binst (s_blk s') p = Some {| i_mixin := m; i_val := v' |}). { unfold s'. rewrite MatchProofs.st_inst_at by exact Hb. destruct (addr_eqb_spec p p); congruence. }
    pose proof (rv_rest _ _ R) as (R1 & R2 & R3). split.
    { apply holds_iff in H. apply holds_iff. destruct H as (x1 & b1 & d & A1 & A2 & (r1 & t1 & (x2 & B1 & B2 & B3) & B4) & A4 & A5 & _). exists x1, b1, d. rewrite R2. split; auto. split; auto. split.
      - exists r1, t1. split; auto. exists x2. rewrite R1, R2. auto.
      - split; [exact (eq_trans (rv_dat _ _ R b1 i) A4)|]. split; [exact A5|exact Hi]. }
    split; [|split; [|reflexivity]].
    + split.
      * intros o'. now rewrite R2.
      * intros o' q t' (z & A & B & C). exists z. rewrite R1, R2. auto.
      * intros b'. exact (rv_attr _ _ R b').
      * intros b' j. exact (rv_dat _ _ R b' j).
      * intros q. exact (rv_back _ _ R q).
      * intros q. exact (rv_inst _ _ R q).
      * intros q Hq. change (binst (s_blk s') q = binst (s_blk s) q). unfold s'. rewrite MatchProofs.st_inst_at by exact Hb. destruct (addr_eqb_spec q p); [contradiction|reflexivity].
    + unfold did, s'. rewrite inst_log. reflexivity.
Qed.
End OT5.
