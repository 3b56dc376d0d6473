(** The theorems about objects in the form in which they are stated in PropsObj.v *)
From Coq Require Import List Arith ZArith NArith Lia Bool.
From Verif Require Import Base Sv SvProofs BaseLemmas Info TypeBuild TypeQuery Domain ElemProofs TypesProofs SpecReg SpecDom HistProofs DomTheorems SpecLayout Heap HeapProofs Mutation Object SpecObj SpecMut SpecLog SpecAct
  PartProofs RollProofs AllocProofs UpdProofs FinProofs PerfProofs WorldProofs ObjProofs OpProofs PlanProofs ActProofs ActProofs2 MatchProofs ActProofs3 MutProofs MutProofs2 MutTheorems HonestProofs StableProofs ObjTheorems ObjTheorems2 ObjTheorems3 ObjTheorems4 ObjTheorems5 ObjTheorems6 ObjTheorems7 ObjTheorems8 ObjTheorems9.
Import ListNotations.

Section OT10.
Variable E : env.
Variable U : user.
Hypothesis AM : aligned_mixins E.
Notation Inv := (Inv E).

Lemma in_history tr s (P : Prop) : (Inv s -> typed s -> P) -> history E U tr s -> P.
Proof. intros H Hh. destruct (history_inv E U AM tr s Hh) as [I T]. auto. Qed.

(** ** C31 *)
Lemma create_trait s o r a sl s' res t : Inv s -> typed s -> fair E s (ONew false o r a sl) -> w_type (s_w s) r = Some t -> op_run E U (ONew false o r a sl) s = (s', res) ->
  (default_constructible E t = false -> exists e, res = Throw e) /\
  (default_constructible E t = true -> res = Ok tt \/ exists e l, res = Throw e /\ did s s' l /\ blames U False s s' l e /\ ((exists err, e = EUserFunc err) \/ e = EBadAlloc)).
Proof.
  intros I Ty F Ht Hr. destruct (new_trait E U AM s o r a sl s' res t I Ty F Ht Hr) as [H1 H2]. split; auto. intros H. destruct (H2 H) as [->|(l & e & [(A & B & C & D)|(A & B & C)])]; eauto 10.
Qed.
Lemma copied_trait s o src a s' res r t : Inv s -> typed s -> fair E s (OCopy false o src a) -> type_of s src r t -> op_run E U (OCopy false o src a) s = (s', res) ->
  (copy_constructible E t = false -> exists e, res = Throw e) /\
  (copy_constructible E t = true -> res = Ok tt \/ exists e l, res = Throw e /\ did s s' l /\ blames U False s s' l e /\ ((exists err, e = EUserFunc err) \/ e = EBadAlloc)).
Proof.
  intros I Ty F Ht Hr. destruct (copy_trait E U AM s o src a s' res r t I Ty F Ht Hr) as [H1 H2]. split; auto. intros H. destruct (H2 H) as [->|(l & e & [(A & B & C & D)|(A & B & C)])]; eauto 10.
Qed.

(** ** C48: which functions of the caller are called *)
Lemma in_calls f m p src err l : In (EvCall f m p src err) l -> In (EvCall f m p src err) (calls m l).
Proof. intros H. apply filter_In. split; auto. cbn. apply Nat.eqb_refl. Qed.
Lemma override_calls m l : filter (is_override m) l = filter (is_override m) (calls m l).
Proof.
  induction l as [|e l IH]; auto. cbn [filter calls]. unfold calls in *. cbn [filter]. destruct e as [a b n n0|a b n n0|f m' p src err]; cbn [is_override is_call]; auto.
  destruct (m' =? m) eqn:Hm; destruct f; cbn [filter is_override]; rewrite ?Hm, ?IH; auto.
Qed.
Lemma update_calls m l : filter (is_update m) l = filter (is_update m) (calls m l).
Proof.
  induction l as [|e l IH]; auto. cbn [filter calls]. unfold calls in *. cbn [filter]. destruct e as [a b n n0|a b n n0|f m' p src err]; cbn [is_update is_call]; auto.
  destruct (m' =? m) eqn:Hm; destruct f; cbn [filter is_update]; rewrite ?Hm, ?IH; auto.
Qed.
Lemma destr_in f m p src err q : In (EvCall f m p src err) (destruction E m q) -> f = FDestroy.
Proof. unfold destruction. destruct (m_destroy _); [intros [[= <- _ _ _]|H]; [auto|destruct H]|intros H; destruct H]. Qed.
Lemma has_dec s o m : Inv s -> typed s -> has_some s o m \/ ~ has_some s o m.
Proof.
  intros I Ty. unfold has_some, has_mixin, type_of. destruct (s_obj s o) as [x|] eqn:Ho; [|right; intros (i & r & t & (x & A & _) & _); congruence].
  destruct (o_type x) as [r|] eqn:Hr; [|right; intros (i & r & t & (x' & A & B & _) & _); congruence].
  destruct (w_type (s_w s) r) as [t|] eqn:Ht; [|right; intros (i & r' & t & (x' & A & B & C) & _); congruence].
  destruct (in_dec Nat.eq_dec m (t_mixins t)) as [H|H].
  - left. apply In_nth_error in H. destruct H as (i & H). exists i, r, t. split; eauto.
  - right. intros (i & r' & t' & (x' & A & B & C) & D). apply H. assert (t' = t) as -> by congruence. eapply nth_error_In; eauto.
Qed.
Definition once (m : mptr) (l : list ev) (k : nat) (p : addr) (err : Z) : Prop := filter (is_override m) l = [EvCall (FOverride k) m p None err].
Lemma mutated_overrides s s' o r ov uv l k m p src err : Inv s -> typed s -> Inv s' -> typed s' -> mutated E s s' o r (made_with E ov) (updated_with uv) l -> In (EvCall (FOverride k) m p src err) l ->
  ov m k /\ ~ has_some s o m /\ (exists i v, holds s' o i m p v) /\ once m l k p err.
Proof.
  intros I Ty I' Ty' M Hin. apply in_calls in Hin. unfold once. rewrite override_calls.
  destruct (has_dec s o m I Ty) as [H|H]; destruct (has_dec s' o m I' Ty') as [H'|H'].
  - exfalso. destruct H as (j & Hj). destruct (mixin_holds E s o j m I Ty Hj) as (q & v & Hh). destruct H' as (i & Hi).
    assert (Hw : forall q c, updated_with uv i m c -> ~ In (EvCall (FOverride k) m p src err) (worked m q c)).
    { intros q' c [(k' & _ & ->)|(_ & ->)]; cbn; [intros [H|H]; [discriminate|auto]|auto]. }
    destruct (external (e_mixin E m)) eqn:Hx.
    + destruct (mt_stay _ _ _ _ _ _ _ _ M i j m q v Hi Hh (or_introl Hx)) as (v' & c & _ & Hu & _ & Hc). rewrite Hc in Hin. eapply Hw; eauto.
    + assert (Hd : (exists t, type_of s o r t) \/ ~ (exists t, type_of s o r t)).
      { destruct Hj as (r0 & t0 & Hto & _). destruct (tref_eqb_spec r0 r) as [->|Hne]; [left; eauto|right]. intros (t & x & A & B & _). destruct Hto as (x0 & A0 & B0 & _). congruence. }
      destruct Hd as [Hd|Hd].
      * destruct (mt_stay _ _ _ _ _ _ _ _ M i j m q v Hi Hh (or_intror Hd)) as (v' & c & _ & Hu & _ & Hc). rewrite Hc in Hin. eapply Hw; eauto.
      * destruct (mt_moved _ _ _ _ _ _ _ _ M i j m q v Hi Hh Hx Hd) as (p' & v' & c & _ & _ & _ & Hu & _ & Hc). rewrite Hc in Hin. apply in_app_or in Hin. destruct Hin as [Hin|[Hin|Hin]]; [eapply Hw; eauto|discriminate|]. apply destr_in in Hin. discriminate.
  - exfalso. destruct H as (j & Hj). destruct (mixin_holds E s o j m I Ty Hj) as (q & v & Hh). destruct (mt_gone _ _ _ _ _ _ _ _ M j m q v Hh H') as [Hc _]. rewrite Hc in Hin. apply destr_in in Hin. discriminate.
  - destruct H' as (i & Hi). destruct (mt_new _ _ _ _ _ _ _ _ M i m Hi H) as (q & v & f & sr & Hh & _ & (Hs & Hf) & _ & Hc). rewrite Hc in *. destruct Hin as [Hin|Hin]; [|destruct Hin]. injection Hin as -> <- -> <-. subst src.
    destruct Hf as [(k' & Hk & [= ->])|(_ & Hf & _)]; [|discriminate]. split; auto. split; auto. split; [eauto|]. cbn. now rewrite Nat.eqb_refl.
  - exfalso. rewrite (mt_quiet _ _ _ _ _ _ _ _ M m H H') in Hin. destruct Hin.
Qed.
Lemma failed_overrides s s' o ms ov uv l k m p src err : Inv s -> typed s -> failed E s s' o ms (made_with E ov) (updated_with uv) l -> In (EvCall (FOverride k) m p src err) l ->
  ov m k /\ ~ has_some s o m /\ once m l k p err.
Proof.
  intros I Ty M Hin. apply in_calls in Hin. unfold once. rewrite override_calls. destruct (in_dec Nat.eq_dec m ms) as [Hm|Hm]; [|rewrite (fd_quiet _ _ _ _ _ _ _ _ M m Hm) in Hin; destruct Hin].
  apply In_nth_error in Hm. destruct Hm as (i & Hm). destruct (has_dec s o m I Ty) as [H|H].
  - exfalso. destruct H as (j & Hj). destruct (mixin_holds E s o j m I Ty Hj) as (q & v & Hh). destruct (fd_common _ _ _ _ _ _ _ _ M i j m q v Hm Hh) as [Hc|(f & sr & er & Hu & Hc)]; rewrite Hc in Hin; [destruct Hin|].
    destruct Hin as [Hin|Hin]; [|destruct Hin]. injection Hin as -> _ _ _. destruct Hu as [(k' & _ & Hk)|(_ & Hk)]; discriminate.
  - destruct (fd_new _ _ _ _ _ _ _ _ M i m Hm H) as [Hc|(q & f & sr & (Hs & Hf) & Hc)]; [rewrite Hc in Hin; destruct Hin|]. subst sr.
    assert (Hx : exists er, f = FOverride k /\ EvCall (FOverride k) m p src err = EvCall f m q None er /\ filter (is_override m) (calls m l) = [EvCall f m q None er]).
    { destruct Hc as [Hc|(er & _ & Hc)]; rewrite Hc in *.
      - destruct Hin as [Hin|Hin]; [|apply destr_in in Hin; discriminate]. exists 0%Z. rewrite <- Hin. injection Hin as -> <- -> <-. split; auto. split; auto. cbn. rewrite Nat.eqb_refl. unfold destruction. destruct (m_destroy _); reflexivity.
      - destruct Hin as [Hin|Hin]; [|destruct Hin]. exists er. rewrite <- Hin. injection Hin as -> <- -> <-. split; auto. split; auto. cbn. now rewrite Nat.eqb_refl. }
    destruct Hx as (er & -> & Heq & Hfl). injection Heq as -> _ ->. rewrite Hfl. split; [|auto]. destruct Hf as [(k' & Hk & [= ->])|(_ & Hf & _)]; [auto|discriminate].
Qed.
Lemma overrides s op o unw s' res : Inv s -> typed s -> fair E s op -> mutates op = Some (o, unw) -> op_run E U op s = (s', res) ->
  exists l, did s s' l /\ forall k m p src err, In (EvCall (FOverride k) m p src err) l ->
    inits E s op m k /\ ~ has_some s o m /\ filter (is_override m) l = [EvCall (FOverride k) m p None err] /\ (unw = false -> res = Ok tt -> exists i v, holds s' o i m p v).
Proof.
  intros I Ty F Hm Hr. destruct (mutation_spec E U AM s op o unw s' res I Ty F Hm Hr) as (I' & Ty' & H). destruct res as [x|e|u]; [| |destruct H].
  - destruct H as [(r & l & _ & M)|(Hu & ms & l & M)].
    + exists l. split; [exact (mt_did _ _ _ _ _ _ _ _ M)|]. intros k m p src err Hin. destruct (mutated_overrides _ _ _ _ _ _ _ _ _ _ _ _ I Ty I' Ty' M Hin) as (A & B & C & D). auto.
    + exists l. split; [exact (fd_did _ _ _ _ _ _ _ _ M)|]. intros k m p src err Hin. destruct (failed_overrides _ _ _ _ _ _ _ _ _ _ _ _ I Ty M Hin) as (A & B & C). split; auto. split; auto. split; auto. intros ->. discriminate.
  - destruct H as [(ms & l & M) _]. exists l. split; [exact (fd_did _ _ _ _ _ _ _ _ M)|]. intros k m p src err Hin. destruct (failed_overrides _ _ _ _ _ _ _ _ _ _ _ _ I Ty M Hin) as (A & B & C). split; auto. split; auto. split; auto. intros _. discriminate.
Qed.

(** ** C50 *)
Lemma c_ok s o r cs s' : Inv s -> typed s -> fair E s (OCMutateTo false o r cs) -> op_run E U (OCMutateTo false o r cs) s = (s', Ok tt) ->
  otype s' o = Some r /\ exists l, did s s' l /\ all_worked l /\
    (forall i m, has_mixin s' o i m -> ~ has_some s o m -> exists p v f, holds s' o i m p v /\ calls m l = [EvCall f m p None 0%Z] /\
       ((exists k, cover_inits E cs m k /\ f = FOverride k) \/ ((forall k, ~ cover_inits E cs m k) /\ f = FInit))) /\
    (forall j m p v, holds s o j m p v -> has_some s' o m ->
       (forall k, cover_updates E cs m k -> filter (is_update m) l = [EvCall (FUpdate k) m p None 0%Z]) /\
       ((forall k, ~ cover_updates E cs m k) -> filter (is_update m) l = [])) /\
    (forall m k p src err, In (EvCall (FUpdate k) m p src err) l -> has_some s o m /\ has_some s' o m).
Proof.
  intros I Ty F Hr. destruct (next_inv E U AM _ _ _ _ I Ty F Hr) as [I' Ty']. destruct (mutation_ok E U AM s (OCMutateTo false o r cs) o s' I Ty F eq_refl Hr) as (r' & t & n & l & (-> & Hw) & Hty & M & Wk). cbn [upds inits] in M.
  split; [destruct Hty as (x & A & B & _); unfold otype; now rewrite A|]. exists l. split; [exact (mt_did _ _ _ _ _ _ _ _ M)|]. split; auto.
  assert (Hdes : forall m p, filter (is_update m) (destruction E m p) = []) by (intros m p; unfold destruction; destruct (m_destroy _); reflexivity).
  assert (Hcom : forall i j m p v, has_mixin s' o i m -> holds s o j m p v -> exists c, updated_with (cover_updates E cs) i m c /\ filter (is_update m) l = filter (is_update m) (worked m p c)).
  { intros i j m p v Hi Hh. assert (Hd : (exists t, type_of s o r t) \/ ~ (exists t, type_of s o r t)).
    { destruct Hh as ((r0 & t0 & Hto & _) & _). destruct (tref_eqb_spec r0 r) as [->|Hne]; [left; eauto|right]. intros (t1 & x & A & B & _). destruct Hto as (x0 & A0 & B0 & _). congruence. }
    rewrite update_calls. destruct (external (e_mixin E m)) eqn:Hx; [|destruct Hd as [Hd|Hd]].
    - destruct (mt_stay _ _ _ _ _ _ _ _ M i j m p v Hi Hh (or_introl Hx)) as (v' & c & _ & Hu & _ & Hc). rewrite Hc. eauto.
    - destruct (mt_stay _ _ _ _ _ _ _ _ M i j m p v Hi Hh (or_intror Hd)) as (v' & c & _ & Hu & _ & Hc). rewrite Hc. eauto.
    - destruct (mt_moved _ _ _ _ _ _ _ _ M i j m p v Hi Hh Hx Hd) as (p' & v' & c & _ & _ & _ & Hu & _ & Hc). rewrite Hc. exists c. split; auto. rewrite filter_app. cbn [app filter is_update]. now rewrite Hdes, app_nil_r. }
  split; [|split].
  - intros i m Hi Hn. destruct (mt_new _ _ _ _ _ _ _ _ M i m Hi Hn) as (p & v & f & src & Hh & _ & (-> & Hf) & _ & Hc). exists p, v, f. split; auto. split; auto. destruct Hf as [Hf|(A & B & _)]; auto.
  - intros j m p v Hh (i & Hi). destruct (Hcom i j m p v Hi Hh) as (c & Hu & Hc). destruct Hu as [(k & Hk & ->)|(Hk & ->)].
    + split; [|intros Hno; destruct (Hno k Hk)]. intros k' Hk'. rewrite Hc. cbn. rewrite Nat.eqb_refl. replace k' with k; auto.
      destruct Hk as (c1 & (b1 & a1 & E1 & F1 & G1) & Hc1). destruct Hk' as (c2 & (b2 & a2 & E2 & F2 & G2) & Hc2).
      assert (c1 = c2); [|congruence]. rewrite E1 in E2. clear - E2 F1 F2 G1 G2. revert b2 E2 G2. induction b1 as [|z b1 IH]; intros [|z' b2] E2 G2; cbn in E2; injection E2 as ?; subst; auto.
      * exfalso. apply (G2 _ (or_introl eq_refl)); auto.
      * exfalso. apply (G1 _ (or_introl eq_refl)); auto.
      * apply (IH (fun x Hx => G1 x (or_intror Hx)) b2); auto. intros x Hx. apply G2. right. auto.
    + split; [intros k Hk'; destruct (Hk k Hk')|]. intros _. rewrite Hc. reflexivity.
  - intros m k p src err Hin. apply in_calls in Hin. destruct (has_dec s o m I Ty) as [H|H]; destruct (has_dec s' o m I' Ty') as [H'|H']; auto; exfalso.
    + destruct H as (j & Hj). destruct (mixin_holds E s o j m I Ty Hj) as (q & v & Hh). destruct (mt_gone _ _ _ _ _ _ _ _ M j m q v Hh H') as [Hc _]. rewrite Hc in Hin. apply destr_in in Hin. discriminate.
    + destruct H' as (i & Hi). destruct (mt_new _ _ _ _ _ _ _ _ M i m Hi H) as (q & v & f & sr & Hh & _ & (Hs & Hf) & _ & Hc). rewrite Hc in *. destruct Hin as [Hin|Hin]; [|destruct Hin]. injection Hin as -> _ _ _. destruct Hf as [(k' & Hk & Hf)|(_ & Hf & _)]; discriminate.
    + rewrite (mt_quiet _ _ _ _ _ _ _ _ M m H H') in Hin. destruct Hin.
Qed.
Lemma c_throw s o unw r cs s' e : Inv s -> typed s -> fair E s (OCMutateTo unw o r cs) -> op_run E U (OCMutateTo unw o r cs) s = (s', Throw e) ->
  (forall o', s_obj s' o' = s_obj s o') /\ types_kept s s' /\ (forall b, allocation s' b = allocation s b) /\
  (forall j m p v, holds s o j m p v -> exists v', holds s' o j m p v') /\ (forall o' i m p v, o' <> o -> (holds s' o' i m p v <-> holds s o' i m p v)) /\
  (exists l, did s s' l /\ blames U False s s' l e) /\ may_throw E s s' o r (cover_inits E cs) e.
Proof.
  intros I Ty F Hr. destruct (mutation_spec E U AM s (OCMutateTo unw o r cs) o unw s' (Throw e) I Ty F eq_refl Hr) as (_ & _ & (ms & l & M) & Hm). cbn [inits upds] in *.
  split; [exact (fd_objects _ _ _ _ _ _ _ _ M)|]. split; [exact (fd_types _ _ _ _ _ _ _ _ M)|]. split; [exact (fd_memory _ _ _ _ _ _ _ _ M)|]. split.
  { intros j m p v Hh. destruct (fd_mixins _ _ _ _ _ _ _ _ M j m p v Hh) as (v' & A & _). eauto. }
  split. { intros o' i m p v Hne. destruct (kept_failed E AM s s' o ms _ _ l o' I Ty M Hne) as [_ H]. apply H. }
  split. { destruct (op_honest E U (OCMutateTo unw o r cs) s s' (Throw e) Logic.I Hr) as (l' & A & _ & B). eauto. }
  destruct Hm as [Hm|(r' & Ha & Hm)]; [destruct (Hm r); reflexivity|]. cbn in Ha. now subst r'.
Qed.

(** ** C49 *)
Lemma pieces_ok s o r l s' t : Inv s -> typed s -> fair E s (OPiecewise false o r (at_calls l)) -> w_type (s_w s) r = Some t -> op_run E U (OPiecewise false o r (at_calls l)) s = (s', Ok tt) ->
  (forall i k, In (i, k) l -> i <> length (t_mixins t)) -> increasing 0 (length (t_mixins t)) l /\ exists ev, mutated E s s' o r (made_at E l) (updated_at l) ev /\ all_worked ev.
Proof. intros I Ty F Ht Hr Hn. destruct (pieces_spec E U AM s o r l s' (Ok tt) t I Ty F Ht Hr) as [H1 H2]. split; auto. now apply order_cases. Qed.
Lemma pieces_throw s o r l s' t e : Inv s -> typed s -> fair E s (OPiecewise false o r (at_calls l)) -> w_type (s_w s) r = Some t -> op_run E U (OPiecewise false o r (at_calls l)) s = (s', Throw e) ->
  (exists ev, failed E s s' o (t_mixins t) (maybe_made_at E l) (maybe_updated_at l) ev /\ blames U False s s' ev e) /\
  (e = EBadPiecewise -> ~ increasing 0 (length (t_mixins t)) l).
Proof. intros I Ty F Ht Hr. destruct (pieces_spec E U AM s o r l s' (Throw e) t I Ty F Ht Hr) as [H1 H2]. split; auto. intros -> Hi. apply H2; auto. now apply increasing_order. Qed.
End OT10.
Ltac by_history A H := refine (in_history _ _ A _ _ _ _ H); intros I T.
