(** Proofs about the objects and the next bidders of the v1 compatibility layer *)
From Coq Require Import List Arith ZArith NArith Lia Bool Permutation Sorted.
From Verif Require Import Base Sv BaseLemmas Info TypeBuild TypeQuery Msg MixinInfo Domain SpecReg SpecDom SpecOrd SpecLayout SpecList SpecMsg HistProofs TypesProofs FtableProofs DomTheorems MsgProofs MsgProofs2
  Heap Mutation Object ObjMsg V1Obj SpecObj SpecMut SpecAct SpecAbs SpecSend WorldSteps ObjProofs ActProofs ActProofs3 ObjTheorems10 AbsProofs AbsProofs2 SendProofs.
Import ListNotations.

Lemma top_exists l : forall y, In y l -> exists z, In z (top_bidders l).
Proof.
  assert (K : l = [] \/ exists z, In z l /\ is_top l z = true).
  { induction l as [|a l IH]; [now left|]. right. destruct IH as [->|(z & Hz & Ht)]; [exists a; split; [now left|cbn; now rewrite Z.leb_refl]|].
    unfold is_top in *. destruct (Z.leb (bid_of a) (bid_of z)) eqn:Ha.
    - exists z. split; [now right|]. cbn. now rewrite Ha.
    - exists a. split; [now left|]. cbn. rewrite Z.leb_refl. cbn. apply Z.leb_gt in Ha. rewrite forallb_forall in *. intros b Hb. specialize (Ht b Hb). rewrite Z.leb_le in *. lia. }
  intros y Hy. destruct K as [->|(z & Hz & Ht)]; [destruct Hy|]. exists z. apply filter_In. auto.
Qed.
Lemma nodup_map_inj {A B} (g : A -> B) l : NoDup (map g l) -> forall a b, In a l -> In b l -> g a = g b -> a = b.
Proof.
  induction l as [|x l IH]; intros H a b Ha Hb Hg; [destruct Ha|]. cbn in H. inversion H as [|? ? H1 H2]; subst. destruct Ha as [<-|Ha], Hb as [<-|Hb]; auto.
  - exfalso. apply H1. rewrite Hg. now apply in_map.
  - exfalso. apply H1. rewrite <- Hg. now apply in_map.
Qed.

Section V1ObjProofs.
Variable E : env.
Variable U : user.
Hypothesis AM : aligned_mixins E.
Variable vd : dptr.
Variable va : nat.

(** The calls that copy makes *)
Inductive copies (unw : bool) (o src : nat) (s : st) : otrace -> st -> res unit -> Prop :=
| cp_ok s1 s2 : fair E s (OEmpty o vd va) -> op_run E U (OEmpty o vd va) s = (s1, Ok tt) -> fair E s1 (OCopyFrom unw o src) -> op_run E U (OCopyFrom unw o src) s1 = (s2, Ok tt) ->
    copies unw o src s [(OEmpty o vd va, Ok tt); (OCopyFrom unw o src, Ok tt)] s2 (Ok tt)
| cp_throw s1 s2 s3 e : fair E s (OEmpty o vd va) -> op_run E U (OEmpty o vd va) s = (s1, Ok tt) -> fair E s1 (OCopyFrom unw o src) -> op_run E U (OCopyFrom unw o src) s1 = (s2, Throw e) ->
    fair E s2 (ODtor o) -> op_run E U (ODtor o) s2 = (s3, Ok tt) -> copies unw o src s [(OEmpty o vd va, Ok tt); (OCopyFrom unw o src, Throw e); (ODtor o, Ok tt)] s3 (Throw e).
Lemma copy_calls unw o src s s' res : Inv E s -> typed s -> s_obj s o = None -> s_obj s src <> None -> v1_copy E U vd va unw o src s = (s', res) -> exists tr, copies unw o src s tr s' res.
Proof.
  intros I Ty Ho Hs Hr. assert (F : fair E s (OEmpty o vd va)) by exact Ho. destruct (act_any E U AM s _ I Ty F) as (s1 & r1 & R1 & Hu1 & I1 & Ty1).
  assert (Hx : s_obj s1 o = Some {| o_type := Some (TEmpty vd); o_data := None; o_alloc := va; o_sealed := false |} /\ r1 = Ok tt /\ s_obj s1 src <> None).
  { cbn in R1. unfold new_empty, bnd, fresh_obj, put_obj in R1. rewrite Ho in R1. injection R1 as <- <-. cbn. rewrite upd_same. split; auto. split; auto. rewrite upd_other; auto. intros ->. congruence. }
  destruct Hx as (Hx & -> & Hs1). unfold v1_copy, bnd in Hr. cbn [op_run] in R1. rewrite R1 in Hr.
  assert (F2 : fair E s1 (OCopyFrom unw o src)).
  { cbn [fair]. split; [eexists; split; [exact Hx|discriminate]|]. split; auto. intros x y r r' t t' A1 A2 A3 A4 A5 A6 N. assert (x = {| o_type := Some (TEmpty vd); o_data := None; o_alloc := va; o_sealed := false |}) as -> by congruence.
    cbn in A3. injection A3 as <-. destruct (winv_reachable _ _ (iv_reach _ _ I1)) as [_ T]. destruct (ti_empty _ _ T vd) as (k & Hk). rewrite Hk in A5. injection A5 as <-. cbn in N. congruence. }
  destruct (act_any E U AM s1 _ I1 Ty1 F2) as (s2 & r2 & R2 & Hu2 & I2 & Ty2). cbn [op_run] in R2. rewrite R2 in Hr. destruct r2 as [[]|e|u]; [| |destruct Hu2; exact Logic.I].
  - injection Hr as <- <-. eexists. eapply cp_ok; eauto.
  - destruct (simulates E U AM s1 _ s2 _ I1 Ty1 F2 R2) as [_ (sl & l & l' & _ & B & _)].
    assert (F3 : fair E s2 (ODtor o)). { cbn. intros K. unfold is_view, look in B. rewrite K in B. discriminate. }
    destruct (act_any E U AM s2 _ I2 Ty2 F3) as (s3 & r3 & R3 & Hu3 & I3 & Ty3). destruct (s_obj s2 o) as [x|] eqn:Hx2; [|destruct (F3 Hx2)]. destruct (act_dtor E AM s2 o x I2 Ty2 Hx2) as (s4 & R4 & _).
    cbn [op_run] in R3. rewrite R4 in R3. injection R3 as <- <-. unfold bnd in Hr. rewrite R4 in Hr. cbn in Hr. injection Hr as <- <-. eexists. eapply cp_throw; eauto.
Qed.
Lemma copies_history unw o src s tr s' res tr0 : copies unw o src s tr s' res -> history E U tr0 s -> history E U (tr0 ++ tr) s'.
Proof.
  intros H Hh. destruct H as [s1 s2 F1 R1 F2 R2|s1 s2 s3 e F1 R1 F2 R2 F3 R3].
  - change [(OEmpty o vd va, Ok tt); (OCopyFrom unw o src, Ok tt)] with ([(OEmpty o vd va, Ok tt)] ++ [(OCopyFrom unw o src, @Ok unit tt)]). rewrite app_assoc. eapply or_snoc; eauto. eapply or_snoc; eauto.
  - change [(OEmpty o vd va, Ok tt); (OCopyFrom unw o src, Throw e); (ODtor o, Ok tt)] with ([(OEmpty o vd va, Ok tt)] ++ [(OCopyFrom unw o src, @Throw unit e)] ++ [(ODtor o, @Ok unit tt)]). rewrite !app_assoc. eapply or_snoc; eauto. eapply or_snoc; eauto. eapply or_snoc; eauto.
Qed.
Lemma copy_view unw o src s s' res : Inv E s -> typed s -> s_obj s o = None -> s_obj s src <> None -> v1_copy E U vd va unw o src s = (s', res) ->
  (forall o', o' <> o -> look s' o' = look s o') /\
  match res with
  | Ok _ => (exists y, look s src = Some y /\ look s' o = Some {| v_sealed := false; v_mixins := v_mixins y |}) \/ (unw = true /\ is_view (look s') o false [])
  | Throw _ => s_obj s' o = None
  | Ub _ => False
  end.
Proof.
  intros I Ty Ho Hs Hr. destruct (copy_calls _ _ _ _ _ _ I Ty Ho Hs Hr) as (tr & H). assert (Hne : src <> o) by (intros ->; congruence).
  destruct H as [s1 s2 F1 R1 F2 R2|s1 s2 s3 e F1 R1 F2 R2 F3 R3].
  - destruct (act_any E U AM s _ I Ty F1) as (s4 & r4 & R4 & _ & I1 & Ty1). rewrite R1 in R4. injection R4 as <- <-.
    destruct (simulates E U AM s _ s1 _ I Ty F1 R1) as [V1 E1]. destruct (simulates E U AM s1 _ s2 _ I1 Ty1 F2 R2) as [V2 E2]. cbn [effect may_change] in *. split.
    + intros o' Hn. rewrite V2, V1; auto; intros [K|[]]; auto.
    + destruct E2 as [(y & l & A1 & A2 & A3)|(-> & sl & l & l' & A1 & A2 & A3 & _)].
      * left. exists y. split; auto. rewrite <- A2. symmetry. apply V1. intros [K|[]]; auto.
      * right. split; auto. unfold is_view in *. rewrite E1 in A1. injection A1 as <- <-. rewrite A2. destruct l' as [|z l']; auto. discriminate.
  - destruct (act_any E U AM s _ I Ty F1) as (s4 & r4 & R4 & _ & I1 & Ty1). rewrite R1 in R4. injection R4 as <- <-.
    destruct (act_any E U AM s1 _ I1 Ty1 F2) as (s4 & r4 & R4 & _ & I2 & Ty2). rewrite R2 in R4. injection R4 as <- <-.
    destruct (simulates E U AM s _ s1 _ I Ty F1 R1) as [V1 _]. destruct (simulates E U AM s1 _ s2 _ I1 Ty1 F2 R2) as [V2 _]. destruct (simulates E U AM s2 _ s3 _ I2 Ty2 F3 R3) as [V3 E3]. cbn [effect may_change] in *. split.
    + intros o' Hn. rewrite V3, V2, V1; auto; intros [K|[]]; auto.
    + unfold look in E3. destruct (s_obj s3 o); [discriminate|auto].
Qed.

(** ** Next bidders *)
Variable accepts : nat -> mptr -> bool.
Hypothesis AC : payloads_fit E accepts.
Lemma next_bidder tr s o i m p v r t f : listed_once E -> kept_history E U tr s -> type_of s o r t -> feature_in (s_w s) (t_dom t) f -> holds s o i m p v ->
  exists b, v1_has_next_bidder m p f s = (s, Ok b) /\
    (b = true <-> exists x y, In (i, x) (impls E (t_mixins t) f) /\ In y (impls E (t_mixins t) f) /\ (ff_bid (snd y) < ff_bid x)%Z) /\
    (forall multicast s' res, v1_call_next_bidder U accepts multicast m p f s = (s', res) ->
       if b then exists l, l <> [] /\ (forall y, In y l -> In y (impls E (t_mixins t) f)) /\ (multicast = false -> length l = 1) /\ carried_out E U o l s s' res
       else s' = s /\ res = Throw ENotImplemented).
Proof.
  intros HL H HT Hf Hh. destruct (history_inv E U AM tr s (kept_is_history E U _ _ H)) as [I Ty]. destruct (kept_world E U _ _ H) as (dtr & R). pose proof (type_has E s o r t (iv_reach E s I) HT) as HH.
  pose proof (holds_index_of s o i m p v r t HT Hh) as Hm.
  assert (Hnf : not_foreign (s_w s) (t_dom t) m). { left. destruct (finv_run E _ _ R) as [Hrun HF]. exact (type_mixins E _ _ _ _ (winv_run _ _ _ Hrun) HH m (nth_error_In _ _ Hm)). }
  assert (E0 : v1_has_next_bidder m p f s = (s, has_next_bidder_set (w_fid (s_w s)) (w_mid (s_w s)) t f m)).
  { unfold v1_has_next_bidder. rewrite (start_next E AM s o i m p v r t (fun _ rt => let* fid := the_fid in let* mid := the_mid in pure (has_next_bidder_set fid mid (snd rt) f m)) I Ty HT Hh). reflexivity. }
  rewrite E0. destruct (c28 E dtr _ _ r t f m HL R HH Hf Hnf) as [Hc Hc2].
  destruct (filter (fun x => ff_info x =? f) (m_features (e_mixin E m))) as [|x fs] eqn:Hfs.
  - assert (Hn : ~ exists x, In (i, x) (impls E (t_mixins t) f)).
    { intros (x & Hx). apply impls_in in Hx. destruct Hx as (m' & Hm' & Hx & Hfx). assert (m' = m) as -> by congruence. assert (K : In x []) by (rewrite <- Hfs; apply filter_In; split; auto; now apply Nat.eqb_eq). destruct K. }
    destruct Hc2 as (Hf1 & Hb & _). { intros (_ & x & Hx & Hfx). apply Hn. exists x. apply impls_in. eauto. }
    exists false. rewrite Hb. split; auto. split; [split; [discriminate|intros (x & y & Hx & _); destruct Hn; eauto]|].
    intros mc s' res Hr. unfold v1_call_next_bidder in Hr. destruct mc.
    + unfold send_next_bidders in Hr.
      rewrite (start_next E AM s o i m p v r t (fun o rt => let* fid := the_fid in let* mid := the_mid in let* n := pure (find_next_bidder_set fid mid (snd rt) f m) in
        match n with [] => raise ENotImplemented | top :: r => send_pls U accepts o (snd rt) (rev r);; let* e := pure (call_pl (snd rt) top) in call_exec U accepts o e end) I Ty HT Hh) in Hr.
      unfold bnd at 1, the_fid in Hr. unfold bnd at 1, the_mid in Hr. unfold bnd at 1, pure at 1 in Hr. cbn [snd] in Hr. rewrite Hf1 in Hr. injection Hr as <- <-. auto.
    + unfold send_next_top in Hr.
      rewrite (start_next E AM s o i m p v r t (fun o rt => let* fid := the_fid in let* mid := the_mid in let* n := pure (find_next_bidder_set fid mid (snd rt) f m) in
        match n with [] => raise ENotImplemented | top :: _ => let* e := pure (call_pl (snd rt) top) in call_exec U accepts o e end) I Ty HT Hh) in Hr.
      unfold bnd at 1, the_fid in Hr. unfold bnd at 1, the_mid in Hr. unfold bnd at 1, pure at 1 in Hr. cbn [snd] in Hr. rewrite Hf1 in Hr. injection Hr as <- <-. auto.
  - assert (Hx : In (i, x) (impls E (t_mixins t) f)).
    { apply impls_in. exists m. split; auto. assert (K : In x (x :: fs)) by now left. rewrite <- Hfs in K. apply filter_In in K. destruct K as [K1 K2]. split; auto. now apply Nat.eqb_eq. }
    assert (Huni : forall x', In (i, x') (impls E (t_mixins t) f) -> x' = x).
    { intros x' Hx'. apply impls_in in Hx'. destruct Hx' as (m' & Hm' & H1 & H2). assert (m' = m) as -> by congruence. apply impls_in in Hx. destruct Hx as (m' & Hm2 & H3 & H4). assert (m' = m) as -> by congruence.
      apply (nodup_map_inj ff_info (m_features (e_mixin E m)) (HL m)); auto. congruence. }
    destruct (Hc i x Hm Hx) as (l & _ & Hp & Hb & _). change (bid_of (i, x)) with (ff_bid x) in Hp. destruct (sent_bidders E U AM accepts AC tr s o i m p v r t f x HL H HT Hf Hh Hx) as [B1 B2].
    exists (negb (length l =? 0)). rewrite Hb. split; auto. destruct l as [|y l].
    + cbn. apply Permutation_nil in Hp. split; [split; [discriminate|]|].
      * intros (x' & y & Hx' & Hy & Hlt). rewrite (Huni _ Hx') in Hlt. exfalso. assert (K : In y (below (ff_bid x) (impls E (t_mixins t) f))) by (apply filter_In; split; auto; now apply Z.ltb_lt).
        destruct (top_exists _ y K) as (z & Hz). unfold next_bidders in Hp. rewrite Hp in Hz. destruct Hz.
      * intros mc s' res Hr. apply (B1 s' res Hp). destruct mc; auto.
    + assert (Hne : next_bidders (ff_bid x) (impls E (t_mixins t) f) <> []) by (intros K; rewrite K in Hp; apply Permutation_sym, Permutation_nil in Hp; discriminate).
      assert (Hin : forall z, In z (next_bidders (ff_bid x) (impls E (t_mixins t) f)) -> In z (impls E (t_mixins t) f) /\ (bid_of z < ff_bid x)%Z).
      { intros z Hz. apply filter_In in Hz. destruct Hz as [Hz _]. apply filter_In in Hz. destruct Hz as [Hz Hl]. split; auto. now apply Z.ltb_lt. }
      cbn. split.
      * split; auto. intros _. assert (Hy : In y (next_bidders (ff_bid x) (impls E (t_mixins t) f))) by (apply (Permutation_in _ Hp); now left). apply Hin in Hy. exists x, y. destruct Hy. auto.
      * intros mc s' res Hr. destruct (B2 Hne) as (xs & last & P1 & _ & _ & C1 & C2). unfold v1_call_next_bidder in Hr.
        assert (Hall : forall z, In z (xs ++ [last]) -> In z (impls E (t_mixins t) f)) by (intros z Hz; apply (Permutation_in _ P1) in Hz; apply Hin in Hz; apply Hz). destruct mc.
        -- exists (xs ++ [last]). split; [now destruct xs|]. split; auto. split; [discriminate|]. auto.
        -- exists [last]. split; [discriminate|]. split; [intros z [<-|[]]; apply Hall, in_or_app; right; now left|]. auto.
Qed.
End V1ObjProofs.
