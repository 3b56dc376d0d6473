(** Bytes of mixins: what the calls of the library do to them *)
From Coq Require Import List Arith ZArith NArith Lia Bool.
From Verif Require Import Base Sv Info TypeBuild Domain Heap Mutation Object SpecObj SpecMut SpecAct SpecLayout SpecLog SpecPlace LogProofs MutProofs2 ActProofs3 ObjTheorems ObjTheorems2 ObjTheorems4 ObjTheorems7 ObjTheorems10 PlaceProofs4 TypesProofs Common SpecCommon CommonProofs.
Import ListNotations.

Lemma events_app l l' : events (l ++ l') = events l ++ events l'.
Proof. induction l as [|[e own|m p v|b x v] l IH]; cbn; auto. now rewrite IH. Qed.

Section Thms.
Variable E : env.
Variable U : user.
Variable codes : mptr -> fn -> code.
Hypothesis SZ : sized_mixins E.
Hypothesis AM : aligned_mixins E.
Notation size m := (m_size (e_mixin E m)).

Lemma do_acts_app l l' : forall M, do_acts E codes M (l ++ l') = match do_acts E codes M l with Some M' => do_acts E codes M' l' | None => None end.
Proof. induction l as [|a l IH]; intros M; cbn [app do_acts]; auto. destruct (do_act E codes M a); auto. Qed.

Lemma places_disjoint tr s : history E U tr s -> forall m p m' p', placed (s_log s) m p -> placed (s_log s) m' p' -> (m = m' /\ p = p') \/ disjoint p (size m) p' (size m').
Proof.
  intros H m [b off] m' [b' off'] (e & He & Ht) (e' & He' & Ht'). destruct (Nat.eq_dec b b') as [<-|N].
  - destruct (c74_apart E U SZ AM tr s e e' m m' b off off' H He He' Ht Ht') as [[-> ->]|A]; [now left|right].
    intros c x I. apply inside_spec in I. cbn [fst snd] in I. destruct (inside (b, off') (size m') c x) eqn:J; auto. apply inside_spec in J. cbn [fst snd] in J.
    apply in_split in He, He'. destruct He as (l1 & l2 & He), He' as (k1 & k2 & He').
    destruct (c74_in_bounds E U SZ AM tr s l1 e l2 m (b, off) H He Ht) as (sz & al & _ & W1 & _). destruct (c74_in_bounds E U SZ AM tr s k1 e' k2 m' (b, off') H He' Ht') as (sz' & al' & _ & W1' & _).
    cbn [snd] in *. unfold places_apart, apart in A. lia.
  - right. intros c x I. apply inside_spec in I. cbn in I. destruct (inside (b', off') (size m') c x) eqn:J; auto. apply inside_spec in J. cbn in J. lia.
Qed.

Lemma bytes_history tr s M0 acts : history E U tr s -> events acts = s_log s -> Forall (proper E codes (s_log s)) acts ->
  exists M, do_acts E codes M0 acts = Some M /\
    forall e m p, In e (s_log s) -> touches e m p -> bytes M p (size m) = acts_value E codes (fun m p => bytes M0 p (size m)) acts m p.
Proof.
  intros H He P. destruct (acts_agree E codes (s_log s) (places_disjoint tr s H) acts M0 (fun m p => bytes M0 p (size m))) as (M & A & B); auto.
  - intros m p _. reflexivity.
  - rewrite He. auto.
  - exists M. split; auto. intros e m p I T. apply B. exists e. auto.
Qed.

(** What is held was constructed, so it is a place. *)
Lemma legal_born l v m p : legal E l v -> v_inst v p = Some m -> placed l m p.
Proof.
  intros L. revert m p. induction L as [v _ H|l v e v' L IH S]; intros m p Hv; [congruence|].
  assert (Hold : v_inst v p = Some m -> placed (l ++ [e]) m p).
  { intros X. destruct (IH m p X) as (e' & He & Ht). exists e'. split; auto. apply in_or_app. auto. }
  inversion S; subst; auto.
  - apply Hold. rewrite <- Hv. symmetry. auto.
  - destruct p as [b' q]. destruct (Nat.eq_dec b' b) as [->|N]; [congruence|]. apply Hold. rewrite <- Hv. symmetry. auto.
  - destruct (same_addr p p0) eqn:Q.
    + apply same_addr_true in Q. subst p0. exists (EvCall f m0 p src 0%Z). split; [apply in_or_app; right; now left|]. cbn. split; [congruence|auto].
    + apply Hold. rewrite <- Hv. symmetry. apply H4. intros ->. assert (X : same_addr p0 p0 = true) by now apply same_addr_true. congruence.
  - apply Hold. rewrite <- Hv. symmetry. auto.
  - apply Hold. rewrite <- Hv. symmetry. auto.
  - destruct (same_addr p p0) eqn:Q; [apply same_addr_true in Q; congruence|].
    apply Hold. rewrite <- Hv. symmetry. apply H3. intros ->. assert (X : same_addr p0 p0 = true) by now apply same_addr_true. congruence.
Qed.
Lemma held_placed tr s o i m p v : history E U tr s -> holds s o i m p v -> placed (s_log s) m p.
Proof.
  intros H (_ & _ & Hi). destruct (c33_legal E U (fair E) tr s H) as (w & L & _ & K). apply (legal_born _ w); auto. rewrite K, Hi. reflexivity.
Qed.
Lemma placed_app l l' m p : placed l m p -> placed (l ++ l') m p.
Proof. intros (e & He & Ht). exists e. split; auto. apply in_or_app. auto. Qed.

(** One call of the library: before and after it memory has the values of the specification, and they follow each other. *)
Lemma step_values tr s tr' s' l M M' : history E U tr s -> history E U tr' s' -> did s s' l -> memory_step E codes s s' M M' ->
  exists V V' acts, agrees E (s_log s') M V /\ agrees E (s_log s') M' V' /\ events acts = l /\ hands_off acts /\
    (forall m p, V' m p = acts_value E codes V acts m p) /\ Forall (proper E codes (s_log s')) acts.
Proof.
  intros H H' D (M0 & acts & acts' & He & Hd & (He' & P & Hd') & HO). unfold did in D.
  rewrite events_app, He in He'. rewrite D in He'. apply app_inv_head in He'.
  apply Forall_app in P. destruct P as [P1 P2].
  pose proof (places_disjoint tr' s' H') as AP.
  set (V0 := fun m p => bytes M0 p (size m)). set (V := acts_value E codes V0 acts).
  destruct (acts_agree E codes (s_log s') AP acts M0 V0) as (M1 & A1 & B1); auto; [intros m p _; reflexivity|rewrite D, He; intros e I; apply in_or_app; auto|].
  assert (M1 = M) as -> by congruence.
  destruct (acts_agree E codes (s_log s') AP acts' M V) as (M2 & A2 & B2); auto; [rewrite D, He'; intros e I; apply in_or_app; auto|].
  rewrite do_acts_app, Hd in Hd'. assert (M2 = M') as -> by congruence.
  exists V, (acts_value E codes V acts'), acts'. repeat (split; auto).
Qed.

(** A mixin on which nothing was called keeps its bytes. *)
Lemma untouched_value l m p V : hands_off l -> (forall e, In e (calls m (events l)) -> ~ touches e m p) -> acts_value E codes V l m p = V m p.
Proof.
  intros HO N. rewrite (acts_mine E codes l m HO V V) by auto. rewrite <- mine_events in N.
  assert (G : forall x, In x (filter (mine m) l) -> mine m x = true) by (intros x Hx; now apply filter_In in Hx).
  clear HO. revert V N G. generalize (filter (mine m) l). intros k. induction k as [|a k IH]; intros V N G; auto.
  unfold acts_value. cbn [fold_left]. fold (acts_value E codes (act_value E codes V a) k).
  specialize (G a (or_introl eq_refl)) as Ga. destruct a as [e own|m' p' v|b x v]; try discriminate Ga. cbn [events] in N.
  rewrite IH.
  - destruct e as [al b sz an|al b sz an|f m' p' src err]; try discriminate Ga. cbn in Ga. apply Nat.eqb_eq in Ga. subst m'.
    specialize (N _ (or_introl eq_refl)). cbn [touches] in N. cbn [act_value runs]. set (r := result _ _ _ _ _).
    assert (N1 : (m, p) <> (m, p')) by (intros X; injection X as ->; apply N; auto).
    destruct src as [q|]; [destruct (snd r)|]; rewrite ?set_value_elsewhere; auto; intros X; injection X as ->; apply N; auto.
  - intros e' I. apply N. now right.
  - intros x I. apply G. now right.
Qed.
Lemma one_call l m e r V : hands_off l -> calls m (events l) = e :: r -> exists own k, events k = r /\ incl k l /\ (forall a, In a k -> mine m a = true) /\ In (BEv e own) l /\
  forall p, acts_value E codes V l m p = acts_value E codes (act_value E codes V (BEv e own)) k m p.
Proof.
  intros HO C. rewrite <- mine_events in C. assert (G : forall x, In x (filter (mine m) l) -> mine m x = true) by (intros x Hx; now apply filter_In in Hx).
  destruct (mine_one l m e r C) as (own & k & A & B & D & F). exists own, k. split; auto. split; auto. split; [intros a Ha; apply G; rewrite A; now right|]. split; auto.
  intros p. rewrite (acts_mine E codes l m HO V V) by auto. rewrite A. reflexivity.
Qed.
Lemma filter_mine k m : (forall a, In a k -> mine m a = true) -> hands_off k /\ calls m (events k) = events k.
Proof.
  intros G. split; [intros a Ha; specialize (G a Ha); destruct a; auto; discriminate|]. rewrite <- mine_events. f_equal.
  induction k as [|a k IH]; auto. cbn. rewrite (G a (or_introl eq_refl)). f_equal. apply IH. intros x Hx. apply G. now right.
Qed.

Lemma snoc_history tr s op s' : history E U tr s -> fair E s op -> op_run E U op s = (s', Ok tt) -> exists tr', history E U tr' s'.
Proof. intros H F R. eexists. eapply or_snoc; eauto. Qed.

(** The new object of a successful creation *)
Lemma fresh_other tr s o i m p v (q : addr) : history E U tr s -> holds s o i m p v -> allocation s (fst q) = None -> q <> p.
Proof. intros H Hh Hq ->. destruct (c74_objects E U SZ AM tr s o i m p v H Hh) as [(a & sz & al & K & _) _]. congruence. Qed.

Lemma new_bytes tr s o r a sl s' M M' : history E U tr s -> fair E s (ONew false o r a sl) -> op_run E U (ONew false o r a sl) s = (s', Ok tt) -> memory_step E codes s s' M M' ->
  (forall i m, has_mixin s' o i m -> codes m FInit = CInit -> exists p v, holds s' o i m p v /\ bytes M' p (size m) = repeat 0%N (N.to_nat (size m))) /\
  (forall o' i m p v, o' <> o -> holds s o' i m p v -> bytes M' p (size m) = bytes M p (size m)).
Proof.
  intros H F R MS. destruct (history_inv E U AM tr s H) as [I Ty]. destruct (snoc_history _ _ _ _ H F R) as (tr' & H').
  destruct (new_spec E U AM s o r a sl false s' (Ok tt) I Ty F R) as [(l & C)|[X _]]; [|discriminate X].
  destruct (step_values tr s tr' s' l M M' H H' (cr_did _ _ _ _ _ _ _ _ _ C) MS) as (V & V' & acts & A & A' & He & HO & HV & P).
  split.
  - intros i m Hm Hc. destruct (cr_new _ _ _ _ _ _ _ _ _ C i m Hm) as (p & v & f & src & Hh & Hf & (-> & -> & _) & _ & Hcalls).
    exists p, v. split; auto. rewrite (A' m p (held_placed tr' s' o i m p v H' Hh)), HV. rewrite <- He in Hcalls.
    destruct (one_call acts m _ _ V HO Hcalls) as (own & k & K1 & K2 & K3 & K4 & K5). rewrite K5.
    destruct (filter_mine k m K3) as [K6 K7]. rewrite untouched_value; auto; [|rewrite K7, K1; intros e []].
    cbn [act_value runs]. rewrite Hc. cbn [result fst snd]. now rewrite set_value_at.
  - intros o' i m p v No Hh. pose proof (held_placed tr s o' i m p v H Hh) as Hp. assert (Hp' : placed (s_log s') m p) by (rewrite (cr_did _ _ _ _ _ _ _ _ _ C); now apply placed_app).
    rewrite (A m p Hp'), (A' m p Hp'), HV. apply untouched_value; auto. rewrite He.
    destruct (history_inv E U AM tr' s' H') as [I' Ty'].
    destruct (has_dec E s' o m I' Ty') as [[j Hj]|N].
    + destruct (cr_new _ _ _ _ _ _ _ _ _ C j m Hj) as (p0 & v0 & f & src & Hh0 & Hf & (-> & -> & _) & _ & Hcalls). rewrite Hcalls. intros e [<-|[]] [_ [X|X]]; [|discriminate X].
      apply (fresh_other tr s o' i m p v p0); auto.
    + rewrite (cr_quiet _ _ _ _ _ _ _ _ _ C m N). intros e [].
Qed.

Lemma copy_bytes tr s o src a s' M M' : history E U tr s -> fair E s (OCopy false o src a) -> op_run E U (OCopy false o src a) s = (s', Ok tt) -> memory_step E codes s s' M M' ->
  (forall i m q v, holds s src i m q v -> codes m FCopyInit = CCopy ->
    exists p, holds s' o i m p v /\ bytes M' p (size m) = bytes M q (size m) /\ bytes M' q (size m) = bytes M q (size m)) /\
  (forall o' i m p v, o' <> o -> o' <> src -> holds s o' i m p v -> bytes M' p (size m) = bytes M p (size m)).
Proof.
  intros H F R MS. destruct (history_inv E U AM tr s H) as [I Ty]. destruct (snoc_history _ _ _ _ H F R) as (tr' & H').
  destruct (copy_ok E U AM s o src a s' I Ty F R) as (_ & (l & D & Hcp & Hq) & Hback & Hoth & _).
  destruct (step_values tr s tr' s' l M M' H H' D MS) as (V & V' & acts & A & A' & He & HO & HV & P).
  split.
  - intros i m q v Hh Hc. destruct (Hcp i m q v Hh) as (p & Hp & Hf & Hcalls). exists p. split; auto.
    pose proof (fresh_other tr s src i m q v p H Hh Hf) as Npq.
    pose proof (held_placed tr' s' o i m p v H' Hp) as Pp. assert (Pq : placed (s_log s') m q) by (rewrite D; apply placed_app; eapply held_placed; eauto).
    rewrite (A' m p Pp), (A' m q Pq), (A m q Pq), !HV. rewrite <- He in Hcalls.
    destruct (one_call acts m _ _ V HO Hcalls) as (own & k & K1 & K2 & K3 & K4 & K5). rewrite !K5.
    destruct (filter_mine k m K3) as [K6 K7]. rewrite !untouched_value; auto; try (rewrite K7, K1; intros e []).
    cbn [act_value runs]. rewrite Hc. cbn [result fst snd]. rewrite set_value_at, set_value_elsewhere; auto. congruence.
  - intros o' i m p v No Ns Hh. pose proof (held_placed tr s o' i m p v H Hh) as Hp. assert (Hp' : placed (s_log s') m p) by (rewrite D; now apply placed_app).
    rewrite (A m p Hp'), (A' m p Hp'), HV. apply untouched_value; auto. rewrite He.
    destruct (has_dec E s src m I Ty) as [[j Hj]|N].
    + destruct (mixin_holds E s src j m I Ty Hj) as (q & w & Hs). destruct (Hcp j m q w Hs) as (p0 & Hp0 & Hf & Hcalls). rewrite Hcalls. intros e [<-|[]] [_ [X|X]].
      * apply (fresh_other tr s o' i m p v p0); auto.
      * injection X as ->. destruct (one_owner E AM s _ _ _ _ _ _ _ _ _ I Ty Hh Hs) as (-> & _). now apply Ns.
    + rewrite (Hq m N). intros e [].
Qed.

(** A mixin that is kept by a mutation keeps its bytes, also if it is moved. *)
Lemma moved_value l m p p' V : hands_off l -> p' <> p -> reads_source (codes m FMoveInit) = true ->
  calls m (events l) = [EvCall FMoveInit m p' (Some p) 0%Z] ++ destruction E m p -> acts_value E codes V l m p' = V m p.
Proof.
  intros HO N Hc Hcalls. cbn [app] in Hcalls. destruct (one_call l m _ _ V HO Hcalls) as (own & k & K1 & K2 & K3 & K4 & K5). rewrite K5.
  destruct (filter_mine k m K3) as [K6 K7]. rewrite untouched_value; auto.
  - cbn [act_value runs]. destruct (codes m FMoveInit); try discriminate Hc; cbn [result fst snd]; rewrite ?set_value_elsewhere by congruence; apply set_value_at.
  - rewrite K7, K1. unfold destruction. destruct (m_destroy (e_mixin E m)); [|intros e []]. intros e [<-|[]] [_ [X|X]]; [congruence|discriminate X].
Qed.
Lemma mutation_bytes tr s op o s' M M' : history E U tr s -> fair E s op -> mutates op = Some (o, false) -> op_run E U op s = (s', Ok tt) -> memory_step E codes s s' M M' ->
  (forall i j m p v, has_mixin s' o i m -> holds s o j m p v -> (forall k, ~ upds E op m k) -> external (e_mixin E m) = true \/ reads_source (codes m FMoveInit) = true ->
    exists p', holds s' o i m p' v /\ bytes M' p' (size m) = bytes M p (size m)) /\
  (forall i m, has_mixin s' o i m -> ~ has_some s o m -> (forall k, ~ inits E s op m k) -> codes m FInit = CInit ->
    exists p v, holds s' o i m p v /\ bytes M' p (size m) = repeat 0%N (N.to_nat (size m))) /\
  (forall o' i m p v, o' <> o -> holds s o' i m p v -> bytes M' p (size m) = bytes M p (size m)).
Proof.
  intros H F Mu R MS. destruct (history_inv E U AM tr s H) as [I Ty]. destruct (snoc_history _ _ _ _ H F R) as (tr' & H'). destruct (history_inv E U AM tr' s' H') as [I' Ty'].
  destruct (mutation_ok E U AM s op o s' I Ty F Mu R) as (r & t & n & l & _ & _ & C & _). pose proof (mt_did _ _ _ _ _ _ _ _ C) as D.
  destruct (step_values tr s tr' s' l M M' H H' D MS) as (V & V' & acts & A & A' & He & HO & HV & P).
  assert (TD : (exists t, type_of s o r t) \/ ~ (exists t, type_of s o r t)).
  { unfold type_of. destruct (s_obj s o) as [x|]; [|right; intros (t0 & x & X & _); discriminate X]. destruct (o_type x) as [r0|] eqn:Q; [|right; intros (t0 & y & X & Y & _); congruence].
    destruct (tref_eqb_spec r r0) as [<-|Qr]; [|right; intros (t0 & y & X & Y & _); congruence].
    destruct (w_type (s_w s) r) as [tt|] eqn:W; [left; exists tt, x; auto|right; intros (t0 & y & X & Y & Z); congruence]. }
  split; [|split].
  - intros i j m p v Hm Hh Hu Hc. assert (Pp : placed (s_log s') m p) by (rewrite D; apply placed_app; eapply held_placed; eauto).
    assert (Nu : forall k c, updated_with (upds E op) k m c -> c = None) by (intros k c [(k' & X & _)|[_ X]]; [now destruct (Hu k')|auto]).
    assert (CS : (external (e_mixin E m) = true \/ (exists t, type_of s o r t)) \/ (external (e_mixin E m) = false /\ ~ (exists t, type_of s o r t))) by (destruct (external (e_mixin E m)); tauto).
    destruct CS as [CS|[CS1 CS2]].
    + destruct (mt_stay _ _ _ _ _ _ _ _ C i j m p v Hm Hh CS) as (v' & c & Hh' & Hup & Hv & Hcalls). apply Nu in Hup. subst c. cbn in Hv, Hcalls. subst v'. exists p. split; auto.
      rewrite (A m p Pp), (A' m p Pp), HV. apply untouched_value; auto. rewrite He, Hcalls. intros e [].
    + destruct (mt_moved _ _ _ _ _ _ _ _ C i j m p v Hm Hh CS1 CS2) as (p' & v' & c & Hh' & Hf & _ & Hup & Hv & Hcalls). apply Nu in Hup. subst c. cbn in Hv. subst v'. exists p'. split; auto.
      pose proof (held_placed tr' s' o i m p' v H' Hh') as Pp'. rewrite (A m p Pp), (A' m p' Pp'), HV.
      apply moved_value; auto; [exact (fresh_other tr s o j m p v p' H Hh Hf)|destruct Hc as [Hc|Hc]; [congruence|auto]|now rewrite He].
  - intros i m Hm Hn Hi Hc. destruct (mt_new _ _ _ _ _ _ _ _ C i m Hm Hn) as (p & v & f & src & Hh & Hf & Hmk & _ & Hcalls). destruct Hmk as [-> [(k & X & _)|[_ [-> _]]]]; [now destruct (Hi k)|].
    exists p, v. split; auto. rewrite (A' m p (held_placed tr' s' o i m p v H' Hh)), HV. rewrite <- He in Hcalls.
    destruct (one_call acts m _ _ V HO Hcalls) as (own & k & K1 & K2 & K3 & K4 & K5). rewrite K5.
    destruct (filter_mine k m K3) as [K6 K7]. rewrite untouched_value; auto; [|rewrite K7, K1; intros e []].
    cbn [act_value runs]. rewrite Hc. cbn [result fst snd]. now rewrite set_value_at.
  - intros o' i m p v No Hh. assert (Pp : placed (s_log s') m p) by (rewrite D; apply placed_app; eapply held_placed; eauto).
    rewrite (A m p Pp), (A' m p Pp), HV. apply untouched_value; auto. rewrite He.
    assert (Own : forall j q w, holds s o j m q w -> q <> p) by (intros j q w Hq ->; destruct (one_owner E AM s _ _ _ _ _ _ _ _ _ I Ty Hh Hq) as (X & _); congruence).
    assert (Up : forall q c, (exists k, updated_with (upds E op) k m c) -> q <> p -> forall e, In e (worked m q c) -> ~ touches e m p).
    { intros q c (k & [(k' & _ & ->)|[_ ->]]) Nq e; [|intros []]. intros [<-|[]] [_ [X|X]]; [congruence|discriminate X]. }
    assert (De : forall q, q <> p -> forall e, In e (destruction E m q) -> ~ touches e m p).
    { intros q Nq e. unfold destruction. destruct (m_destroy (e_mixin E m)); [|intros []]. intros [<-|[]] [_ [X|X]]; [congruence|discriminate X]. }
    destruct (has_dec E s o m I Ty) as [[j Hj]|Nm], (has_dec E s' o m I' Ty') as [[i' Hi']|Nm'].
    + destruct (mixin_holds E s o j m I Ty Hj) as (q & w & Hq). pose proof (Own _ _ _ Hq) as Nq.
      assert (CS : (external (e_mixin E m) = true \/ (exists t, type_of s o r t)) \/ (external (e_mixin E m) = false /\ ~ (exists t, type_of s o r t))) by (destruct (external (e_mixin E m)); tauto).
      destruct CS as [CS|[CS1 CS2]].
      * destruct (mt_stay _ _ _ _ _ _ _ _ C i' j m q w Hi' Hq CS) as (v' & c & _ & Hup & _ & Hcalls). rewrite Hcalls. eauto.
      * destruct (mt_moved _ _ _ _ _ _ _ _ C i' j m q w Hi' Hq CS1 CS2) as (p' & v' & c & _ & Hf & _ & Hup & _ & Hcalls). rewrite Hcalls. intros e X. apply in_app_or in X. destruct X as [X|X]; [eapply Up; eauto|].
        cbn [app] in X. destruct X as [<-|X]; [|eapply De; eauto]. intros [_ [Y|Y]]; [|congruence]. subst p'. exact (fresh_other tr s o' i m p v p H Hh Hf eq_refl).
    + destruct (mixin_holds E s o j m I Ty Hj) as (q & w & Hq). destruct (mt_gone _ _ _ _ _ _ _ _ C j m q w Hq Nm') as [Hcalls _]. rewrite Hcalls. apply De. eauto.
    + destruct (mt_new _ _ _ _ _ _ _ _ C i' m Hi' Nm) as (p' & v' & f & src & _ & Hf & [-> _] & _ & Hcalls). rewrite Hcalls. intros e [<-|[]] [_ [Y|Y]]; [|discriminate Y]. subst p'. exact (fresh_other tr s o' i m p v p H Hh Hf eq_refl).
    + rewrite (mt_quiet _ _ _ _ _ _ _ _ C m Nm Nm'). intros e [].
Qed.
End Thms.
