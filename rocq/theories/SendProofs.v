(** Messages to objects *)
From Coq Require Import List Arith ZArith NArith Lia Bool Permutation Sorted.
From Verif Require Import Base Sv BaseLemmas Info TypeBuild TypeQuery Msg MixinInfo Domain SpecReg SpecDom SpecOrd SpecLayout SpecList SpecMsg HistProofs TypesProofs FtableProofs DomTheorems MsgProofs MsgProofs2 MsgProofs3
  Heap Mutation Object ObjMsg SpecObj SpecMut SpecAct SpecSend WorldSteps WorldProofs ObjProofs ActProofs MutProofs MutProofs2 ActProofs3 ObjTheorems ObjTheorems2 ObjTheorems5 ObjTheorems10 ExObj.
Import ListNotations.

Section Send.
Variable E : env.
Variable U : user.
Hypothesis AM : aligned_mixins E.

(** ** The domains of a history of objects *)
Lemma kept_is_history tr s : kept_history E U tr s -> history E U tr s.
Proof. induction 1 as [|tr s op r s' H IH [F K] Hr Hu]; [constructor|]. eapply or_snoc; eauto. Qed.
Lemma mixed_app {A} (P : A -> Prop) own l l' : mixed P own l -> (forall x, In x l' -> P x) -> mixed P own (l ++ l').
Proof.
  intros H. induction l' as [|x l' IH] using rev_ind; intros HP; [now rewrite app_nil_r|]. rewrite app_assoc. apply mixed_other; [apply HP, in_or_app; right; now left|]. apply IH. intros y Hy. apply HP, in_or_app. now left.
Qed.
Lemma run_inner ok w0 tr0 tr w : run E w0 tr w -> run_where E ok tr0 w0 -> (forall o r v, In (o, r) tr -> ok v o) -> run_where E ok (tr0 ++ tr) w.
Proof.
  induction 1 as [w0|w0 tr w o r w' Hr IH Hs Hu]; intros H0 Hk; [now rewrite app_nil_r|]. rewrite app_assoc. econstructor; eauto; [apply IH; auto|].
  - intros o' r' v Hin. apply (Hk o' r'). apply in_or_app. now left.
  - apply (Hk o r). apply in_or_app. right. now left.
Qed.
Lemma history_world (ok : world -> dop -> Prop) tr s : (forall w op, by_object op -> ok w op) -> orun E U (fun s op => fair E s op /\ forall d, op = ODom d -> ok (s_w s) d) tr s ->
  exists dtr, run_where E ok dtr (s_w s) /\ mixed (fun x => by_object (fst x)) (domain_calls tr) (outcomes dtr).
Proof.
  intros Hok. induction 1 as [|tr s op r s' H IH [F K] Hr Hu]; [exists []; split; constructor|]. destruct IH as (dtr & R & Mx).
  unfold domain_calls. rewrite flat_map_app. fold (domain_calls tr). cbn [flat_map fst snd app].
  destruct (match op with ODom d => true | _ => false end) eqn:Hd.
  - destruct op; try discriminate. cbn in Hr. unfold bnd, on_world in Hr. destruct (dstep E (s_w s) op) as [w' x] eqn:Hs. cbn [fst snd] in Hr.
    assert (Hx : ~ is_ub x /\ s_w s' = w' /\ r = came_out x) by (destruct x; injection Hr as <- <-; split; auto). destruct Hx as (Hx & Hw & ->).
    exists (dtr ++ [(op, x)]). rewrite Hw. split; [econstructor; eauto|]. unfold outcomes. rewrite map_app, app_nil_r. cbn. now constructor.
  - assert (Hn : match op with ODom _ => False | _ => True end) by (destruct op; auto; discriminate).
    destruct (k_op E U op Hn s s' r Hr Hu) as (tr' & Hrun & Hin). exists (dtr ++ tr'). split.
    + eapply run_inner; eauto. intros o x v Hx; apply Hok; exact (Hin o x Hx).
    + assert (Hnil : (match op with ODom op => [(op, r)] | _ => [] end) = @nil (dop * res unit)) by (destruct op; auto; discriminate). rewrite Hnil, !app_nil_r. unfold outcomes. rewrite map_app. apply mixed_app; auto.
      intros x Hx. apply in_map_iff in Hx. destruct Hx as ([o y] & <- & Hy). exact (Hin o y Hy).
Qed.
Lemma registries_refl w : registries_kept w w.
Proof. split; auto. intros r t Ht. exists (t_nobj t). rewrite Ht. now destruct t. Qed.
Lemma registries_trans a b c : registries_kept a b -> registries_kept b c -> registries_kept a c.
Proof.
  intros [A1 A2 A3 A4 A5 A6 A7 A8] [B1 B2 B3 B4 B5 B6 B7 B8]. split; [congruence|congruence|congruence|congruence|congruence|congruence|congruence|].
  intros r t Ht. destruct (A8 r t Ht) as (n & Hn). destruct (B8 r _ Hn) as (n' & Hn'). exists n'. exact Hn'.
Qed.
Lemma registries_elems w w' : StableProofs.stable w w' -> StableProofs.bounded w -> (forall d, d_tcs (w_dom w' d) = d_tcs (w_dom w d) /\ d_rules (w_dom w' d) = d_rules (w_dom w d)) -> registries_kept w w'.
Proof. intros S B D. destruct (S B) as (_ & G & (A1 & A2 & A3 & A4)). split; try (intros; now rewrite ?A1, ?A2, ?A3); try (intros d; apply A4); try (intros d; apply D). exact G. Qed.
Lemma registries_inner w o w' r : reachable E w -> inner o -> dstep E w o = (w', r) -> ~ is_ub r -> registries_kept w w'.
Proof.
  intros R Hi Hs Hu. assert (Hnobj : forall q t n, w_type w q = Some t -> registries_kept w (with_type w q (set_nobj t n))).
  { intros q t n Hq. split; auto. intros q' t' Hq'. cbn. unfold tupd. destruct (tref_eqb_spec q' q) as [->|]; [assert (t' = t) as -> by congruence; now exists n|exists (t_nobj t'); rewrite Hq'; now destruct t']. }
  destruct o; try contradiction; cbn [dstep] in Hs.
  - assert (Hw : w' = fst (get_type_mut E alloc_ok w d dm q)) by (unfold retty in Hs; destruct (get_type_mut E alloc_ok w d dm q) as [w1 [x|e|u]]; now injection Hs as <- <-). subst w'.
    apply registries_elems; [apply StableProofs.stable_get_type|now apply (bounded_reach E)|intros d2; apply get_type_mut_dom].
  - unfold forget, incr_nobj in Hs. destruct (w_type w r0) as [t|] eqn:Hq; [|injection Hs as <- <-; destruct Hu; exact Logic.I]. injection Hs as <- <-. now apply Hnobj.
  - unfold forget, decr_nobj in Hs. destruct (w_type w r0) as [t|] eqn:Hq; [|injection Hs as <- <-; destruct Hu; exact Logic.I]. destruct (t_nobj t); [injection Hs as <- <-; destruct Hu; exact Logic.I|]. injection Hs as <- <-. now apply Hnobj.
Qed.
Lemma registries_run w tr w' : run E w tr w' -> reachable E w -> (forall o r, In (o, r) tr -> inner o) -> registries_kept w w'.
Proof.
  induction 1 as [w|w tr w1 o r w2 Hr IH Hs Hu]; intros R Hi; [apply registries_refl|]. eapply registries_trans; [apply IH; auto; intros; eapply Hi, in_or_app; left; eauto|].
  eapply registries_inner; eauto; [|eapply (Hi o r), in_or_app; right; now left]. destruct R as (tr0 & H0). exists (tr0 ++ tr). eapply run_app; eauto.
Qed.
Lemma op_registries s op s' r : reachable E (s_w s) -> match op with ODom _ => False | _ => True end -> op_run E U op s = (s', r) -> ~ is_ub r -> registries_kept (s_w s) (s_w s').
Proof. intros R Hn Hr Hu. destruct (k_op E U op Hn s s' r Hr Hu) as (tr & Hrun & Hin). eapply registries_run; eauto. Qed.
Lemma kept_world tr s : kept_history E U tr s -> exists dtr, run_where E (features_kept E) dtr (s_w s).
Proof. intros H. destruct (history_world (features_kept E) tr s) as (dtr & R & _); eauto. intros w op Hb. destruct op; try contradiction; exact Logic.I. Qed.

Lemma type_has s o r t : reachable E (s_w s) -> type_of s o r t -> has_type (s_w s) (t_dom t) r t.
Proof. intros R (x & _ & _ & Ht). split; auto. destruct (type_cases E (s_w s) r t R Ht) as [(k & -> & _)|[_ Hin]]; auto. Qed.

(** ** Functions with their mixins *)
Variable accepts : nat -> mptr -> bool.
Hypothesis FIT : payloads_fit E accepts.
Notation call_mixin := (call_mixin U accepts).
Notation call_exec := (call_exec U accepts).

(** the listings are of mixins of the type *)
Definition listed (t : type_rec) (x : nat * ffm) : Prop := exists m, nth_error (t_mixins t) (fst x) = Some m /\ In (snd x) (m_features (e_mixin E m)).
Lemma impls_listed t f x : In x (impls E (t_mixins t) f) -> listed t x /\ ff_info (snd x) = f.
Proof.
  intros H. apply in_flat_map in H. destruct H as (i & _ & Hx). destruct (nth_error (t_mixins t) i) as [m|] eqn:Hm; [|destruct Hx].
  apply in_map_iff in Hx. destruct Hx as (y & <- & Hy). apply filter_In in Hy. destruct Hy as [Hy Hf]. split; [exists m; auto|]. now apply Nat.eqb_eq.
Qed.
Lemma call_is_use s o r t x : Inv E s -> typed s -> type_of s o r t -> listed t x -> call_mixin o (fst x) (ff_payload (snd x)) s = op_run E U (OUse o (fst x) (ff_payload (snd x))) s.
Proof.
  intros I Ty HT (m & Hm & Hf). assert (Hh : has_mixin s o (fst x) m) by (exists r, t; auto). destruct (mixin_holds E s o _ m I Ty Hh) as (p & v & H).
  apply holds_iff in H. destruct H as (y & b & d & A1 & A2 & _ & A4 & A5 & A6). destruct HT as (y' & B1 & B2 & B3). assert (y' = y) as -> by congruence.
  assert (Hg : get_obj o s = (s, Ok y)) by (unfold get_obj; now rewrite A1).
  assert (Ht : the_type y s = (s, Ok (r, t))) by (unfold the_type; rewrite B2; unfold bnd, get_ty; now rewrite B3).
  assert (Hd : data_at y (fst x) s = (s, Ok p)).
  { unfold data_at. rewrite A2. unfold bnd at 1. unfold read_data. unfold bnd, get_blk. unfold data_slot in A4. destruct (s_blk s b) as [k|]; [|discriminate]. rewrite A4. unfold ret. now rewrite A5. }
  assert (Hi : inst_at p s = (s, Ok {| i_mixin := m; i_val := v |})).
  { unfold inst_at, bnd, get_blk. unfold instance in A6. destruct (s_blk s (fst p)) as [k|]; [|discriminate]. rewrite A6. reflexivity. }
  cbn [op_run]. unfold ObjMsg.call_mixin, use_mixin. unfold bnd at 1. rewrite Hg. unfold bnd at 1. rewrite Hd. unfold bnd at 1. rewrite Hi. cbn [i_mixin]. rewrite (FIT m (snd x) Hf).
  unfold bnd at 1. rewrite Hg. unfold bnd at 1. rewrite Ht. cbn [snd]. rewrite Hm. unfold bnd. now rewrite Hd.
Qed.
Lemma use_types s o i k s' res r t : Inv E s -> typed s -> fair E s (OUse o i k) -> op_run E U (OUse o i k) s = (s', res) -> type_of s o r t -> type_of s' o r t.
Proof.
  intros I Ty F Hr HT. destruct (use_spec E U s o i k s' res I Ty F Hr) as [(_ & -> & _)|(m & p & v & v' & e & _ & _ & O & _)]; auto. apply (omx_types _ _ _ O). exact HT.
Qed.
Lemma typed_set s o r t : type_of s o r t -> with_type_set s o.
Proof. intros (x & A & B & _). exists x. split; auto. congruence. Qed.

(** the functions one after the other *)
Fixpoint run_execs (o : nat) (l : list exec) : M st unit := match l with [] => ret tt | x :: r => call_exec o x;; run_execs o r end.
Lemma carried l : forall s o r t s' res, Inv E s -> typed s -> type_of s o r t -> (forall x, In x l -> listed t x) -> run_execs o (map exec_of l) s = (s', res) -> carried_out E U o l s s' res.
Proof.
  induction l as [|x l IH]; intros s o r t s' res I Ty HT Hl H.
  - injection H as <- <-. constructor.
  - cbn [map run_execs] in H. unfold bnd in H. cbn [exec_of] in H. unfold exec_of in H at 1. cbn [ObjMsg.call_exec] in H. rewrite (call_is_use s o r t x I Ty HT (Hl x (or_introl eq_refl))) in H.
    assert (F : fair E s (OUse o (fst x) (ff_payload (snd x)))) by (eapply typed_set; eauto). destruct (act_any E U AM s _ I Ty F) as (s1 & r1 & H1 & H2 & I1 & Ty1). rewrite H1 in H.
    assert (HT1 : type_of s1 o r t) by exact (use_types s o _ _ s1 r1 r t I Ty F H1 HT). destruct r1 as [[]|e|u]; [|injection H as <- <-; now apply co_throw|destruct H2; exact Logic.I].
    eapply co_next; eauto. eapply (IH s1 o r t); eauto. intros y Hy. apply Hl. now right.
Qed.
Lemma run_app_one o l x s : run_execs o (l ++ [x]) s = (run_execs o l;; call_exec o x) s.
Proof.
  revert s. induction l as [|y l IH]; intros s; cbn [app run_execs].
  - unfold bnd, ret. destruct (call_exec o x s) as [s1 [[]|e|u]]; reflexivity.
  - unfold bnd. destruct (call_exec o y s) as [s1 [[]|e|u]]; auto. rewrite IH. unfold bnd. now destruct (run_execs o l s1) as [s2 [[]|e|u]].
Qed.

(** ** What it does *)
Lemma f2_impl {A B} (P Q : A -> B -> Prop) l l' : (forall a b, P a b -> Q a b) -> Forall2 P l l' -> Forall2 Q l l'.
Proof. intros H. induction 1; constructor; auto. Qed.
Lemma only_at_refl s o l : only_at s s o l.
Proof. split; auto. intros ? ? ? H. exact H. Qed.
Lemma holds_kept s s' o i m p v : only_mixin s s' p -> holds s o i m p v -> forall j m' q v', holds s' o j m' q v' -> exists v2, holds s o j m' q v2.
Proof.
  intros [A1 A2 A3 A4 A5 A6 A7] H j m' q v' H'. apply holds_iff in H. destruct H as (x & b & d & B1 & B2 & (r & t & HT & Hm) & _). apply holds_iff in H'. destruct H' as (x' & b' & d' & C1 & C2 & (r' & t' & HT' & Hm') & C4 & C5 & C6).
  destruct (type_of_fun s' o _ _ _ _ (A2 _ _ _ HT) HT') as [-> ->]. specialize (A6 q). rewrite C6 in A6. cbn in A6. destruct (instance s q) as [[m2 v2]|] eqn:Hq; [|discriminate]. cbn in A6. injection A6 as <-.
  exists v2. apply holds_iff. exists x', b', d'. rewrite <- A1, <- A4. split; [exact C1|]. split; auto. split; [exists r, t; auto|auto].
Qed.
Lemma deliver l : forall s o r t s' res, Inv E s -> typed s -> type_of s o r t -> (forall x, In x l -> fst x < length (t_mixins t)) -> carried_out E U o l s s' res -> delivered s s' o l res.
Proof.
  induction l as [|x l IH]; intros s o r t s' res I Ty HT Hl H.
  - inversion H; subst. split; [|apply only_at_refl]. exists []. split; [unfold did; now rewrite app_nil_r|]. split; [constructor|]. left. split; auto. split; auto. intros e [].
  - assert (Hx : exists m, has_mixin s o (fst x) m). { assert (Hlt := Hl x (or_introl eq_refl)). apply nth_error_Some in Hlt. destruct (nth_error (t_mixins t) (fst x)) as [m|] eqn:Hm; [|congruence]. exists m, r, t. auto. }
    destruct Hx as (m0 & Hm0).
    inversion H as [|? ? ? s1 ? ? F Hr Hc|? ? ? ? e F Hr]; subst.
    + destruct (use_spec E U s o _ _ s1 _ I Ty F Hr) as [(Hn & _)|(m & p & v & v' & e & Hh & Hh' & O & D & R)]; [exfalso; exact (Hn _ Hm0)|].
      destruct (Z.eqb_spec e 0) as [->|Hne]; [|discriminate].
      destruct (act_any E U AM s _ I Ty F) as (s1' & r1 & H1 & _ & I1 & Ty1). rewrite Hr in H1. injection H1 as <- <-.
      pose proof (use_types s o _ _ s1 _ r t I Ty F Hr HT) as HT1.
      destruct (IH s1 o r t s' res I1 Ty1 HT1 (fun y Hy => Hl y (or_intror Hy)) Hc) as [(evs & D2 & F2 & R2) O2]. split.
      * exists (EvCall (FUpdate (ff_payload (snd x))) m p None 0%Z :: evs). split; [unfold did in *; rewrite D2, D, <- app_assoc; reflexivity|]. split.
        { cbn [length firstn]. constructor; [exists m, p, v, 0%Z; auto|]. eapply f2_impl; [|exact F2]. intros y ev (m' & q & v2 & err & B1 & B2). destruct (holds_kept s s1 o _ m p v O Hh _ _ _ _ B1) as (v3 & B3). exists m', q, v3, err. auto. }
        destruct R2 as [(-> & Hlen & Hok)|(before & f & m' & q & src & err & -> & Herr & -> & Hb)].
        { left. split; auto. split; [cbn; congruence|]. intros ev [<-|Hin]; auto. }
        { right. exists (EvCall (FUpdate (ff_payload (snd x))) m p None 0%Z :: before), f, m', q, src, err. split; auto. split; auto. split; auto. intros ev [<-|Hin]; auto. }
      * destruct O as [A1 A2 A3 A4 A5 A6 A7]. destruct O2 as [B1 B2 B3 B4 B5 B6 B7]. split.
        { intros q. now rewrite B1. }
        { intros a b c Habc. apply B2, A2, Habc. }
        { intros b. now rewrite B3. }
        { intros b i. now rewrite B4. }
        { intros q. now rewrite B5. }
        { intros q. now rewrite B6. }
        { intros q Hq. rewrite B7.
          - apply A7. intros ->. apply (Hq (fst x) m v); auto. cbn. auto.
          - intros i m' w Hin Hw. destruct (holds_kept s s1 o _ m p v {| omx_objects := A1; omx_types := A2; omx_memory := A3; omx_data := A4; omx_back := A5; omx_kind := A6; omx_other := A7 |} Hh _ _ _ _ Hw) as (w2 & Hw2).
            apply (Hq i m' w2); auto. cbn. auto. }
    + destruct (use_spec E U s o _ _ s' _ I Ty F Hr) as [(Hn & _)|(m & p & v & v' & err & Hh & Hh' & O & D & R)]; [exfalso; exact (Hn _ Hm0)|].
      destruct (Z.eqb_spec err 0) as [->|Hne]; [discriminate|]. injection R as ->. split.
      * exists [EvCall (FUpdate (ff_payload (snd x))) m p None err]. split; auto. split; [cbn; constructor; [exists m, p, v, err; auto|constructor]|].
        right. exists [], (FUpdate (ff_payload (snd x))), m, p, None, err. split; auto. split; auto. split; auto. intros ev [].
      * destruct O as [A1 A2 A3 A4 A5 A6 A7]. split; auto. intros q Hq. apply A7. intros ->. apply (Hq (fst x) m v); auto. cbn. auto.
Qed.
Lemma deliver_in s o l s' res : Inv E s -> typed s -> (forall x, In x l -> exists m, has_mixin s o (fst x) m) -> carried_out E U o l s s' res -> delivered s s' o l res.
Proof.
  intros I Ty Hl H. destruct l as [|x l].
  - inversion H; subst. split; [|apply only_at_refl]. exists []. split; [unfold did; now rewrite app_nil_r|]. split; [constructor|]. left. split; auto. split; auto. intros e [].
  - destruct (Hl x (or_introl eq_refl)) as (m & r & t & HT & _). apply (deliver (x :: l) s o r t); auto. intros y Hy. destruct (Hl y Hy) as (m' & r' & t' & HT' & Hm'). destruct (type_of_fun s o _ _ _ _ HT HT') as [-> ->]. now apply nth_error_lt in Hm'.
Qed.
Lemma carried_history l o s s' res : carried_out E U o l s s' res -> forall tr, history E U tr s -> exists tr', history E U (tr ++ tr') s'.
Proof.
  induction 1 as [s|x l s s1 s2 r F Hr Hc IH|x l s s1 e F Hr]; intros tr H.
  - exists []. now rewrite app_nil_r.
  - destruct (IH (tr ++ [(OUse o (fst x) (ff_payload (snd x)), Ok tt)])) as (tr' & H'); [eapply or_snoc; eauto|]. exists ((OUse o (fst x) (ff_payload (snd x)), Ok tt) :: tr'). now rewrite <- app_assoc in H'.
  - exists [(OUse o (fst x) (ff_payload (snd x)), Throw e)]. eapply or_snoc; eauto.
Qed.

(** ** The messages *)
Lemma run_one o x s : run_execs o [x] s = call_exec o x s.
Proof. cbn. unfold bnd, ret. now destruct (call_exec o x s) as [s1 [[]|e|u]]. Qed.
Lemma down_execs o t b n : forall l, call_down t b n = Ok l -> forall s, send_down U accepts o t b n s = run_execs o l s.
Proof.
  induction n as [|n IH]; intros l H s; cbn [call_down send_down] in *.
  - injection H as <-. reflexivity.
  - unfold bind in H. destruct (call_at t (b + S n)) as [x|e|u] eqn:Hx; try discriminate. cbn in H. destruct (call_down t b n) as [l'|e|u] eqn:Hl; try discriminate. cbn in H. injection H as <-.
    unfold bnd at 1. unfold pure. cbn [run_execs]. unfold bnd. destruct (call_exec o x s) as [s1 [[]|e|u]]; auto.
Qed.
Lemma start s o r t {A} (k : tref * type_rec -> M st A) : type_of s o r t -> (let* x := get_obj o in let* rt := the_type x in k rt) s = k (r, t) s.
Proof. intros (x & A1 & A2 & A3). unfold bnd, get_obj. rewrite A1. unfold the_type. rewrite A2. unfold bnd, get_ty. now rewrite A3. Qed.

(** what happens when nothing implements a message *)
Lemma defaulted f o s s' res : (let* e := pure (try_default E f) in call_exec o e) s = (s', res) ->
  match f_default (e_feature E f) with
  | None => s' = s /\ res = Throw ENotImplemented
  | Some _ => unchanged s s' /\ did s s' [] /\ s_w s' = s_w s /\ (res = Ok tt \/ exists err, res = Throw (EUserFunc err))
  end.
Proof.
  unfold try_default. destruct (f_default (e_feature E f)) as [k|]; unfold bnd, pure; [|intros [= <- <-]; auto].
  cbn. unfold call_default, bnd, tick. intros H. assert (Hs : s' = add_call s) by (destruct (an_err (u_ans U (s_calls s)) =? 0)%Z; now injection H as <- <-). subst s'.
  split; [split; [reflexivity|intros b; repeat split; reflexivity]|]. split; [unfold did; cbn; now rewrite app_nil_r|]. split; auto.
  destruct (an_err (u_ans U (s_calls s)) =? 0)%Z; injection H as <-; eauto.
Qed.

Lemma pls_execs o t ps : forall l, call_pls t ps = Ok l -> forall s, send_pls U accepts o t ps s = run_execs o l s.
Proof.
  induction ps as [|p ps IH]; intros l H s; cbn [call_pls send_pls] in *.
  - injection H as <-. reflexivity.
  - unfold bind in H. destruct (call_pl t p) as [x|e|u] eqn:Hx; try discriminate. cbn in H. destruct (call_pls t ps) as [l'|e|u] eqn:Hl; try discriminate. cbn in H. injection H as <-.
    unfold bnd at 1. unfold pure. cbn [run_execs]. unfold bnd. destruct (call_exec o x s) as [s1 [[]|e|u]]; auto.
Qed.
Lemma unicast_eq s o r t f : type_of s o r t -> send_unicast E U accepts o f s = match call_unicast E (w_fid (s_w s)) t f with Ok e => call_exec o e s | Throw e => (s, Throw e) | Ub u => (s, Ub u) end.
Proof. intros HT. unfold send_unicast. rewrite (start s o r t _ HT). unfold bnd, the_fid, pure. cbn [snd]. now destruct (call_unicast E (w_fid (s_w s)) t f). Qed.
Lemma multicast_eq s o r t f : type_of s o r t -> forall l x, call_multicast E (w_fid (s_w s)) t f = Ok (l, x) -> send_multicast E U accepts o f s = run_execs o l s.
Proof.
  intros HT l x H. unfold send_multicast. rewrite (start s o r t _ HT). unfold bnd at 1, the_fid. cbn [snd]. unfold call_multicast in H. destruct (ftable_at t (w_fid (s_w s) f)) as [fe|].
  - unfold bind in H. destruct (call_down t (fe_begin fe) (fe_back fe - fe_begin fe)) as [l1|e|u] eqn:Hl; try discriminate. destruct (call_at t (fe_begin fe)) as [top|e|u] eqn:Ha; try discriminate. injection H as <- <-.
    rewrite run_app_one. unfold bnd at 1. rewrite (down_execs o t _ _ l1 Hl). unfold bnd, pure. destruct (run_execs o l1 s) as [s1 [[]|e|u]]; reflexivity.
  - unfold bind in H. destruct (try_default E f) as [y|e|u]; try discriminate. injection H as <- <-. unfold bnd, pure. now rewrite run_one.
Qed.
Lemma multicast_default s o r t f : type_of s o r t -> ftable_at t (w_fid (s_w s) f) = None -> send_multicast E U accepts o f s = (let* e := pure (try_default E f) in call_exec o e) s.
Proof. intros HT H. unfold send_multicast. rewrite (start s o r t _ HT). unfold bnd at 1, the_fid. cbn [snd]. now rewrite H. Qed.
Lemma unicast_default s o r t f : type_of s o r t -> ftable_at t (w_fid (s_w s) f) = None -> send_unicast E U accepts o f s = (let* e := pure (try_default E f) in call_exec o e) s.
Proof. intros HT H. rewrite (unicast_eq s o r t f HT). unfold call_unicast. rewrite H. unfold bnd, pure. now destruct (try_default E f). Qed.

(** ** Unicast and multicast *)
Lemma sent_unicast tr s o r t f s' res : kept_history E U tr s -> type_of s o r t -> feature_in (s_w s) (t_dom t) f -> impls E (t_mixins t) f <> [] -> send_unicast E U accepts o f s = (s', res) ->
  exists x, In x (impls E (t_mixins t) f) /\ (forall y, In y (impls E (t_mixins t) f) -> ~ preferred y x) /\ carried_out E U o [x] s s' res.
Proof.
  intros H HT Hf Hne Hs. destruct (history_inv E U AM tr s (kept_is_history _ _ H)) as [I Ty]. destruct (kept_world _ _ H) as (dtr & R). pose proof (type_has s o r t (iv_reach E s I) HT) as Hh.
  destruct (c24 E dtr _ _ r t f R Hh Hf Hne) as (x & Hx & Hin & Hp). exists x. split; auto. split; auto. rewrite (unicast_eq s o r t f HT), Hx in Hs.
  apply (carried [x] s o r t); auto; [intros y [<-|[]]; exact (proj1 (impls_listed t f _ Hin))|]. cbn [map]. now rewrite run_one.
Qed.
Lemma sent_multicast tr s o r t f s' res : kept_history E U tr s -> type_of s o r t -> feature_in (s_w s) (t_dom t) f -> impls E (t_mixins t) f <> [] -> send_multicast E U accepts o f s = (s', res) ->
  exists xs, Permutation xs (top_bidders (impls E (t_mixins t) f)) /\ StronglySorted executed_before xs /\ carried_out E U o xs s s' res.
Proof.
  intros H HT Hf Hne Hs. destruct (history_inv E U AM tr s (kept_is_history _ _ H)) as [I Ty]. destruct (kept_world _ _ H) as (dtr & R). pose proof (type_has s o r t (iv_reach E s I) HT) as Hh.
  destruct (c25 E dtr _ _ r t f R Hh Hf Hne) as (xs & last & Hx & Hp & Hso & _). exists xs. split; auto. split; auto. rewrite (multicast_eq s o r t f HT _ _ Hx) in Hs.
  apply (carried xs s o r t); auto. intros y Hy. apply (Permutation_in _ Hp) in Hy. apply filter_In in Hy. exact (proj1 (impls_listed t f y (proj1 Hy))).
Qed.
Lemma sent_default tr s o r t f s' res send : send = send_unicast E U accepts \/ send = send_multicast E U accepts ->
  kept_history E U tr s -> type_of s o r t -> feature_in (s_w s) (t_dom t) f \/ w_fid (s_w s) f = None -> impls E (t_mixins t) f = [] -> send o f s = (s', res) ->
  match f_default (e_feature E f) with
  | None => s' = s /\ res = Throw ENotImplemented
  | Some _ => unchanged s s' /\ did s s' [] /\ s_w s' = s_w s /\ (res = Ok tt \/ exists err, res = Throw (EUserFunc err))
  end.
Proof.
  intros Hsend H HT Hf Hi Hs. destruct (history_inv E U AM tr s (kept_is_history _ _ H)) as [I Ty]. destruct (kept_world _ _ H) as (dtr & R). pose proof (type_has s o r t (iv_reach E s I) HT) as Hh.
  assert (Hn : ftable_at t (w_fid (s_w s) f) = None).
  { apply (finv_run E) in R. destruct R as [Hrun HF]. destruct Hf as [Hf|Hf]; [|rewrite Hf; reflexivity]. destruct (table_spec E (s_w s) _ r t f (winv_run _ _ _ Hrun) HF Hh Hf) as [[_ ?]|[? _]]; auto. contradiction. }
  apply (defaulted f o). destruct Hsend; subst send; [rewrite (unicast_default s o r t f HT Hn) in Hs|rewrite (multicast_default s o r t f HT Hn) in Hs]; exact Hs.
Qed.

(** ** From a mixin to the next *)
Lemma start_next s o i m p v r t {A} (k : nat -> tref * type_rec -> M st A) : Inv E s -> typed s -> type_of s o r t -> holds s o i m p v ->
  (let* o := object_at p in let* x := get_obj o in let* rt := the_type x in k o rt) s = k o (r, t) s.
Proof. intros I Ty HT Hh. unfold bnd at 1. unfold object_at. rewrite (back_pointer E AM s o i m p v I Ty Hh). exact (start s o r t (k o) HT). Qed.
Lemma holds_index_of s o i m p v r t : type_of s o r t -> holds s o i m p v -> nth_error (t_mixins t) i = Some m.
Proof. intros HT Hh. apply holds_iff in Hh. destruct Hh as (_ & _ & _ & _ & _ & (r' & t' & HT' & Hm) & _). destruct (type_of_fun s o _ _ _ _ HT HT') as [-> ->]. exact Hm. Qed.
Lemma sent_next tr s o i m p v r t f : listed_once E -> kept_history E U tr s -> type_of s o r t -> feature_in (s_w s) (t_dom t) f -> holds s o i m p v ->
  exists l, Permutation l (impls E (t_mixins t) f) /\ StronglySorted (fun a b => ~ preferred b a) l /\
    (forall k x s' res, nth_error l k = Some x -> fst x = i -> send_next_impl U accepts m p f s = (s', res) ->
       match nth_error l (S k) with
       | Some y => carried_out E U o [y] s s' res
       | None => s' = s /\ res = Throw ENotImplemented
       end) /\
    (forall s' res, ~ In i (map fst l) -> send_next_impl U accepts m p f s = (s', res) -> s' = s /\ res = Throw ENotImplemented).
Proof.
  intros HL H HT Hf Hh. destruct (history_inv E U AM tr s (kept_is_history _ _ H)) as [I Ty]. destruct (kept_world _ _ H) as (dtr & R). pose proof (type_has s o r t (iv_reach E s I) HT) as HH.
  destruct (c27 E dtr _ _ r t f HL R HH Hf) as (l & Hp & Hso & _ & Hn & Hno). pose proof (holds_index_of s o i m p v r t HT Hh) as Hm.
  assert (Hs0 : forall s' res, send_next_impl U accepts m p f s = (s', res) -> match find_next_implementer (w_fid (s_w s)) (w_mid (s_w s)) t f m with
    | Ok None => s' = s /\ res = Throw ENotImplemented | Ok (Some pl) => (let* e := pure (call_pl t pl) in call_exec o e) s = (s', res) | _ => True end).
  { intros s' res Hs. unfold send_next_impl in Hs.
    rewrite (start_next s o i m p v r t (fun o rt => let* fid := the_fid in let* mid := the_mid in let* n := pure (find_next_implementer fid mid (snd rt) f m) in
      match n with None => raise ENotImplemented | Some pl => let* e := pure (call_pl (snd rt) pl) in call_exec o e end) I Ty HT Hh) in Hs.
    unfold bnd at 1, the_fid in Hs. unfold bnd at 1, the_mid in Hs. unfold bnd at 1, pure at 1 in Hs. cbn [snd] in Hs.
    destruct (find_next_implementer (w_fid (s_w s)) (w_mid (s_w s)) t f m) as [[pl|]|e|u]; auto. injection Hs as <- <-. auto. }
  exists l. split; auto. split; auto. split.
  - intros k x s' res Hk Hx Hs. specialize (Hs0 s' res Hs). rewrite <- Hx in Hm. destruct (Hn k x m Hk Hm) as (H1 & _ & H3). rewrite H1 in Hs0. unfold call_next_impl in H3. rewrite H1 in H3. cbn [bind] in H3.
    destruct (nth_error l (S k)) as [y|] eqn:Hy; cbn [option_map] in *; [|auto].
    unfold bnd, pure in Hs0. rewrite H3 in Hs0. apply (carried [y] s o r t); auto.
    + intros z [<-|[]]. exact (proj1 (impls_listed t f _ (Permutation_in _ Hp (nth_error_In _ _ Hy)))).
    + cbn [map]. now rewrite run_one.
  - intros s' res Hi Hs. specialize (Hs0 s' res Hs).
    assert (Hnf : not_foreign (s_w s) (t_dom t) m). { left. destruct (finv_run E _ _ R) as [Hrun HF]. exact (type_mixins E _ _ _ _ (winv_run _ _ _ Hrun) HH m (nth_error_In _ _ Hm)). }
    destruct (Hno m Hnf) as [H1 _]; [|now rewrite H1 in Hs0]. intros [_ (x & Hx & Hfx)]. apply Hi. apply in_map_iff. exists (i, x). split; auto. apply (Permutation_in _ (Permutation_sym Hp)). apply impls_in. exists m. auto.
Qed.
Lemma sent_bidders tr s o i m p v r t f x : listed_once E -> kept_history E U tr s -> type_of s o r t -> feature_in (s_w s) (t_dom t) f -> holds s o i m p v -> In (i, x) (impls E (t_mixins t) f) ->
  let l := next_bidders (ff_bid x) (impls E (t_mixins t) f) in
  (forall s' res, l = [] -> send_next_bidders U accepts m p f s = (s', res) \/ send_next_top U accepts m p f s = (s', res) -> s' = s /\ res = Throw ENotImplemented) /\
  (l <> [] -> exists xs last, Permutation (xs ++ [last]) l /\ StronglySorted executed_before (xs ++ [last]) /\ (forall y, In y l -> ~ preferred y last) /\
     (forall s' res, send_next_bidders U accepts m p f s = (s', res) -> carried_out E U o (xs ++ [last]) s s' res) /\
     (forall s' res, send_next_top U accepts m p f s = (s', res) -> carried_out E U o [last] s s' res)).
Proof.
  intros HL H HT Hf Hh Hx l. destruct (history_inv E U AM tr s (kept_is_history _ _ H)) as [I Ty]. destruct (kept_world _ _ H) as (dtr & R). pose proof (type_has s o r t (iv_reach E s I) HT) as HH.
  pose proof (holds_index_of s o i m p v r t HT Hh) as Hm.
  assert (Hnf : not_foreign (s_w s) (t_dom t) m). { left. destruct (finv_run E _ _ R) as [Hrun HF]. exact (type_mixins E _ _ _ _ (winv_run _ _ _ Hrun) HH m (nth_error_In _ _ Hm)). }
  destruct (c28 E dtr _ _ r t f m HL R HH Hf Hnf) as [Hc _]. destruct (Hc i x Hm Hx) as (l' & H1 & Hp & _ & H3 & H4). change (bid_of (i, x)) with (ff_bid x) in Hp. fold l in Hp. clear Hc.
  assert (E1 : send_next_bidders U accepts m p f s = match call_next_bidder_set (w_fid (s_w s)) (w_mid (s_w s)) t f m with Ok y => run_execs o (fst y) s | Throw e => (s, Throw e) | Ub u => (s, Ub u) end \/
               exists u, call_next_bidder_set (w_fid (s_w s)) (w_mid (s_w s)) t f m = Ub u \/ exists e, call_next_bidder_set (w_fid (s_w s)) (w_mid (s_w s)) t f m = Throw e /\ l' <> []).
  { unfold send_next_bidders.
    rewrite (start_next s o i m p v r t (fun o rt => let* fid := the_fid in let* mid := the_mid in let* n := pure (find_next_bidder_set fid mid (snd rt) f m) in
      match n with [] => raise ENotImplemented | top :: r => send_pls U accepts o (snd rt) (rev r);; let* e := pure (call_pl (snd rt) top) in call_exec o e end) I Ty HT Hh).
    unfold bnd at 1, the_fid. unfold bnd at 1, the_mid. unfold bnd at 1, pure at 1. cbn [snd]. unfold call_next_bidder_set. rewrite H1. cbn [bind]. destruct l' as [|y l']; cbn [map]; [left; reflexivity|].
    destruct (call_pls t (rev (map payload_of l'))) as [ys|e|u] eqn:Hys; [|right; exists UbNull; right; exists e; split; auto; discriminate|right; exists u; left; reflexivity].
    cbn [bind]. destruct (call_pl t (payload_of y)) as [z|e|u] eqn:Hz; [|right; exists UbNull; right; exists e; split; auto; discriminate|right; exists u; left; reflexivity].
    left. cbn [bind fst]. rewrite run_app_one. unfold bnd at 1. rewrite (pls_execs o t _ ys Hys). unfold bnd, pure. destruct (run_execs o ys s) as [s1 [[]|e|u]]; reflexivity. }
  assert (E2 : send_next_top U accepts m p f s = match call_next_bidder_top (w_fid (s_w s)) (w_mid (s_w s)) t f m with Ok y => call_exec o y s | Throw e => (s, Throw e) | Ub u => (s, Ub u) end).
  { unfold send_next_top.
    rewrite (start_next s o i m p v r t (fun o rt => let* fid := the_fid in let* mid := the_mid in let* n := pure (find_next_bidder_set fid mid (snd rt) f m) in
      match n with [] => raise ENotImplemented | top :: _ => let* e := pure (call_pl (snd rt) top) in call_exec o e end) I Ty HT Hh).
    unfold bnd at 1, the_fid. unfold bnd at 1, the_mid. unfold bnd at 1, pure at 1. cbn [snd]. unfold call_next_bidder_top. rewrite H1. cbn [bind]. destruct l' as [|y l']; cbn [map]; [reflexivity|]. unfold bnd, pure. now destruct (call_pl t (payload_of y)). }
  split.
  - intros s' res Hl Hs. rewrite Hl in Hp. apply Permutation_sym, Permutation_nil in Hp. destruct (H3 Hp) as [H5 H6]. rewrite H5 in E1. rewrite H6 in E2. destruct E1 as [E1|(u & [E1|(e & _ & E1)])]; [|discriminate|contradiction].
    destruct Hs as [Hs|Hs]; [rewrite E1 in Hs|rewrite E2 in Hs]; injection Hs as <- <-; auto.
  - intros Hl. assert (Hl' : l' <> []) by (intros ->; apply Permutation_nil in Hp; contradiction). destruct (H4 Hl') as (xs & last & H5 & H6 & Hp2 & Hso & (ys & Hys) & Hpr). subst xs. rewrite H5 in E1. rewrite H6 in E2.
    destruct E1 as [E1|(u & [E1|(e & E1 & _)])]; try discriminate. exists ys, last. split; [now rewrite Hp2|]. split; auto. split; [intros y Hy; apply Hpr; exact (Permutation_in _ (Permutation_sym Hp) Hy)|].
    assert (Hin : forall y, In y (ys ++ [last]) -> listed t y). { intros y Hy. apply (Permutation_in _ Hp2), (Permutation_in _ Hp) in Hy. apply filter_In in Hy. destruct Hy as [Hy _]. apply filter_In in Hy. exact (proj1 (impls_listed t f y (proj1 Hy))). }
    split; intros s' res Hs.
    + rewrite E1 in Hs. apply (carried (ys ++ [last]) s o r t); auto.
    + rewrite E2 in Hs. apply (carried [last] s o r t); auto; [intros y [<-|[]]; apply Hin, in_or_app; right; now left|]. cbn [map]. now rewrite run_one.
Qed.
End Send.
