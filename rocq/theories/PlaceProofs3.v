(** Where mixins are: objects and histories *)
From Coq Require Import List Arith ZArith NArith Lia Bool.
From Verif Require Import Base Sv BaseLemmas Info MixinInfo TypeMut TypeBuild TypeQuery Domain TypesProofs ElemProofs WorldProofs Heap HeapProofs Mutation Object SpecDom SpecObj SpecLog SpecLayout SpecPlace PartProofs AllocProofs PlanProofs ObjProofs ActProofs ActProofs2 MatchProofs ActProofs3 TypeTheorems PlaceProofs PlaceProofs2.
Import ListNotations.

Section Ops.
Variable E : env.
Variable U : user.
Hypothesis SZ : sized_mixins E.
Hypothesis AM : aligned_mixins E.
Notation Inv := (Inv E).

Lemma sound_of s r t : Inv s -> w_type (s_w s) r = Some t -> sound_layout E (t_mixins t) (t_offsets t) (t_buf_size t) (t_buf_align t).
Proof.
  intros I Ht. apply (c21 E (s_w s) (t_dom t) r t); auto; [apply (iv_reach _ _ I)| |apply (iv_small _ _ I r); auto].
  split; auto. destruct (type_cases E (s_w s) r t (iv_reach _ _ I) Ht) as [(k & -> & _)|[_ Hin]]; auto.
Qed.

Section Mid.
Variable mid0 : mptr -> option nat.
Notation PI := (PI E mid0).
Notation trs := (trs E mid0).
Ltac tb H := eapply tr_bnd; [apply H; auto|].

(** ** The buffer of an object *)
Lemma part_fits L s o a k b dd : PI L s -> sound_layout E (t_mixins k) (t_offsets k) (t_buf_size k) (t_buf_align k) ->
  part E (s_blk s) o a k b dd (fun i => i <? length (t_mixins k)) (fun i => i <? length (t_mixins k)) (fun i => i <? length (t_mixins k)) -> fitsL L b k.
Proof.
  intros P (Hl & _) Q i m Hi. pose proof (nth_error_lt _ _ _ Hi) as Hlt. apply Nat.ltb_lt in Hlt.
  destruct (nth_error (t_offsets k) i) as [off|] eqn:Ho; [|apply nth_error_None in Ho; apply nth_error_lt in Hi; lia].
  pose proof (pa_data _ _ _ _ _ _ _ _ _ _ Q i) as Hd. cbn beta in Hd. rewrite Hlt in Hd. destruct (pl_dat _ _ _ _ P b i (dd i) Hd) as (m' & D).
  destruct (pa_con _ _ _ _ _ _ _ _ _ _ Q i Hlt) as (m1 & off1 & v & [S1 S2] & _ & _ & Hc). assert (m1 = m) as -> by congruence. assert (off1 = off) as -> by congruence.
  pose proof (pl_inst _ _ _ _ P _ _ Hc) as Hs. cbn [i_mixin] in Hs. pose proof (spot_fun E SZ AM _ _ _ _ (pl_sound _ _ _ _ P) Hs (dslot_spot _ _ _ _ _ _ D)) as <-.
  destruct D as (ms & offs & sz & al & off' & A & B & C & D). exists ms, offs, sz, al, off'. split; auto. split; auto. split; auto. f_equal.
  destruct (N.eqb_spec off 0) as [->|Hz].
  - destruct (pa_ext _ _ _ _ _ _ _ _ _ _ Q i m (conj S1 S2) Hlt) as (_ & e & _ & He & _). destruct D as [(D1 & _)|(e' & D1 & D2 & _)]; [rewrite He in D1; discriminate|auto].
  - destruct (pa_int _ _ _ _ _ _ _ _ _ _ Q i m off (conj S1 S2) Hlt Hz) as (He & _). destruct D as [(D1 & D2 & D3)|(e' & D1 & _)]; [|rewrite He in D1; discriminate]. rewrite He in D3. cbn in D3. congruence.
Qed.
Lemma obj_fits L s o x b : PI L s -> Inv s -> s_obj s o = Some x -> o_data x = Some b -> exists r t, o_type x = Some r /\ w_type (s_w s) r = Some t /\ fitsL L b t /\ t_mixins t <> [].
Proof.
  intros P I Ho Hb. pose proof (iv_obj _ _ I o x Ho) as Hk. unfold obj_ok in Hk. rewrite Hb in Hk. destruct Hk as (r & t & dd & A1 & A2 & A3 & Q). exists r, t. split; auto. split; auto. split; auto. eapply part_fits; eauto. eapply sound_of; eauto.
Qed.

(** ** Simple steps *)
Lemma tr_the_type L s x : PI L s -> trs L s (the_type x) (fun rt L' s' => o_type x = Some (fst rt) /\ w_type (s_w s) (fst rt) = Some (snd rt) /\ L' = L /\ s' = s).
Proof.
  intros P. unfold the_type. destruct (o_type x) as [r|]; [|now apply tr_ub]. tb tr_get_ty. intros t ? ? _ _ (Ht & -> & ->). apply tr_ret; auto.
Qed.
Lemma tr_mod L s o f : PI L s -> trs L s (mod_obj o f) T.
Proof. intros P. unfold mod_obj. tb tr_get_obj. intros x ? ? _ P' _. eapply tr_T. now apply tr_put_obj. Qed.
Lemma tr_fresh L s o : PI L s -> trs L s (fresh_obj o) (fun _ L' s' => s_obj s o = None /\ L' = L /\ s' = s).
Proof.
  intros P s' r. unfold fresh_obj. destruct (s_obj s o) as [x|]; intros [= <- <-]; exists L; (split; [apply ext_refl|]); split; auto; discriminate.
Qed.
Lemma tr_mid L s : PI L s -> trs L s the_mid (fun mid L' s' => mid = mid0 /\ L' = L /\ s' = s).
Proof. intros P s' r [= <- <-]. exists L. split; [apply ext_refl|]. split; auto. intros a [= <-]. rewrite (pl_mid _ _ _ _ P). auto. Qed.
Lemma tr_data_at L s x i : PI L s -> trs L s (data_at x i) (fun p L' s' => (exists b m d, o_data x = Some b /\ dslot E L b i m d /\ p = md_mixin d) /\ L' = L /\ s' = s).
Proof.
  intros P. unfold data_at. destruct (o_data x) as [b|]; [|now apply tr_ub]. tb tr_read_data. intros d ? ? _ _ ((m & Hd) & _ & -> & ->). apply tr_ret; auto. split; auto. exists b, m, d. auto.
Qed.
Lemma tr_run_mut t full L s mu a : PI L s -> MI mid0 t full L mu -> (forall L p, OK E mid0 t full L p -> mtr E mid0 t full L p a T) -> trs L s (run_mut mu a) T.
Proof.
  intros P M Ha s' r. unfold run_mut. destruct (a (mu, s)) as [[mu' s1] r1] eqn:Hr. intros [= <- <-]. destruct (Ha L (mu, s) (conj P M) _ _ Hr) as (L' & A1 & [A2 _] & _). exists L'. split; [exact A1|]. split; [exact A2|]. intros. exact Logic.I.
Qed.
Lemma tr_clear L s o : PI L s -> trs L s (clear_mixin_data E o) T.
Proof.
  intros P. unfold clear_mixin_data. tb tr_get_obj. intros x ? ? _ _ (Hx & -> & ->). destruct (o_data x) as [b|]; [|apply tr_ret; auto; exact Logic.I]. tb tr_the_type. intros [r t] ? ? _ _ (H1 & H2 & -> & ->).
  cbn [fst snd]. eapply tr_bnd; [|intros ? ? ? _ P' _; apply tr_mod; exact P']. apply (tr_run_mut t False); auto; [|intros; now apply m_rollback]. constructor; cbn; auto; tauto.
Qed.
Lemma tr_dtor L s o : PI L s -> trs L s (obj_dtor E o) T.
Proof. intros P. unfold obj_dtor. tb tr_clear. intros ? ? ? _ P' _. eapply tr_T. now apply tr_put_obj. Qed.
Lemma tr_redirect b o l : forall L s, PI L s -> trs L s (redirect_loop b o l) T.
Proof.
  induction l as [|i l IH]; intros L s P; cbn [redirect_loop]; [apply tr_ret; auto; exact Logic.I|]. tb tr_read_data. intros d ? ? _ _ ((m & Hd) & _ & -> & ->).
  eapply tr_bnd; [eapply tr_set_object; [exact P|eapply dslot_spot; eauto]|]. intros ? ? ? _ P' _. now apply IH.
Qed.
Lemma tr_usurp L s o other : PI L s -> trs L s (usurp o other) T.
Proof.
  intros P. unfold usurp. tb tr_get_obj. intros y ? ? _ _ (Hy & -> & ->). tb tr_mod. intros ? L1 s1 _ P1 _. tb tr_the_type. intros rt ? ? _ _ (_ & _ & -> & ->).
  eapply tr_bnd; [instantiate (1 := T)|intros ? ? ? _ P' _; apply tr_mod; exact P']. destruct (o_data y) as [b|]; [now apply tr_redirect|]. destruct (num_mixins (snd rt) =? 0); [apply tr_ret; auto; exact Logic.I|now apply tr_ub].
Qed.

(** ** Mutations *)
Definition body_fine (t : type_rec) (body : M mst unit) : Prop := forall L p, OK E mid0 t True L p -> mu_uu (fst p) = 0 -> mtr E mid0 t True L p body T.
Lemma tr_perform L s unw o r t x body : PI L s -> Inv s -> s_obj s o = Some x -> w_type (s_w s) r = Some t -> fits s x t -> body_fine t body -> trs L s (perform E U unw o r body) T.
Proof.
  intros P I Ho Ht Hf Hb. unfold perform. tb tr_get_obj. intros x' ? ? _ _ (Hx & -> & ->). assert (x' = x) as -> by congruence. clear Hx.
  eapply tr_bnd with (G := fun old L' s' => old = match o_type x with Some q => match w_type (s_w s) q with Some k => Some (q, k) | None => None end | None => None end /\ L' = L /\ s' = s).
  { unfold get_old. destruct (o_type x) as [q|]; [|apply tr_ret; auto]. tb tr_get_ty. intros k ? ? _ _ (Hk & -> & ->). apply tr_ret; auto. now rewrite Hk. }
  intros old ? ? _ _ (Hold & -> & ->). tb tr_get_ty. intros t' ? ? _ _ (Ht' & -> & ->). assert (t' = t) as -> by congruence. clear Ht'.
  assert (HS : sound_layout E (t_mixins t) (t_offsets t) (t_buf_size t) (t_buf_align t)) by (eapply sound_of; eauto).
  assert (O : OK E mid0 t True L (new_mut o x old r t, s)).
  { split; [exact P|]. constructor; cbn; auto; [discriminate|]. intros _ ob Hob. destruct (setup_of E AM s o x r t I Ho Ht Hf) as (old' & r0 & t0 & ddo & SU & HH). rewrite Hob in *. destruct HH as [H1 _].
    destruct (su_old _ _ _ _ _ _ _ _ _ _ _ SU ob eq_refl) as (A1 & A2 & A3 & _ & A4). exists r0, t0. split; [rewrite Hold, H1, A2; reflexivity|]. split; [eapply part_fits; eauto; eapply sound_of; eauto|].
    pose proof (pl_mid _ _ _ _ P) as Hm. split; [intros m i B1 B2; eapply (su_idx _ _ _ _ _ _ _ _ _ _ _ SU); eauto; now rewrite Hm|]. split; [intros m i B1 B2; eapply (su_idx0 _ _ _ _ _ _ _ _ _ _ _ SU); eauto; now rewrite Hm|].
    intros ->. congruence. }
  assert (Hsb : mtr E mid0 t True L (new_mut o x old r t, s) (start E U x;; body) T).
  { eapply m_bnd; [apply m_start; auto; exact Logic.I|]. cbn. intros ? ? ? _ O' H0. now apply Hb. }
  intros s' res Hr. destruct ((start E U x;; body) (new_mut o x old r t, s)) as [p1 r1] eqn:Hs1. destruct (Hsb _ _ Hs1) as (L1 & A1 & A2 & _).
  assert (Hfin : exists p2 L2, ext L1 L2 /\ OK E mid0 t True L2 p2 /\ s' = snd p2).
  { destruct r1 as [[]|e|u].
    - destruct (finish E U unw p1) as [p2 r2] eqn:Hf2. destruct (m_finish E U mid0 t True Logic.I unw L1 p1 A2 _ _ Hf2) as (L2 & B1 & B2 & _). exists p2, L2. split; auto. split; auto. destruct p2. now injection Hr as <- _.
    - destruct (unwind E e p1) as [p2 r2] eqn:Hf2. destruct (m_unwind E mid0 t True unit e L1 p1 A2 _ _ Hf2) as (L2 & B1 & B2 & _). exists p2, L2. split; auto. split; auto. destruct p2. now injection Hr as <- _.
    - exists p1, L1. split; [apply ext_refl|]. split; auto. destruct p1. now injection Hr as <- _. }
  destruct Hfin as (p2 & L2 & B1 & [B2 _] & ->). exists L2. split; [eapply ext_trans; eauto|]. split; [exact B2|]. intros. exact Logic.I.
Qed.

Lemma body_default t u : body_fine t (default_each E U u).
Proof. intros L p O _. apply m_default; auto. Qed.
Lemma body_each t cn uc u : cn_ok E mid0 cn -> uc_ok E mid0 uc -> body_fine t (update_each cn uc u).
Proof. intros H1 H2 L p O _. apply m_each; auto. Qed.

(** ** The functions of users and of copies *)
Lemma cn_user f src : cn_ok E mid0 (fun m p _ => construct E U f m p src).
Proof. intros L s m p i P H. now apply tr_construct. Qed.
Lemma cn_wrap c : cn_ok E mid0 (wrap_init E U c).
Proof. intros L s m p i P H. unfold wrap_init. destruct (co_init c); [now apply tr_construct|now apply (cn_default E U mid0)]. Qed.
Lemma cn_cop c : cn_ok E mid0 (wrap_cop E U c).
Proof. intros L s m p i P H. unfold wrap_cop. destruct (cp_init c); [now apply tr_construct|now apply tr_ub]. Qed.
Lemma uc_wrap c : uc_ok E mid0 (wrap_update U c).
Proof. intros L s m p i j P. unfold wrap_update. destruct (co_update c); [now apply tr_update|now apply uc_noop]. Qed.
Lemma uc_user k : uc_ok E mid0 (user_common U k).
Proof. intros L s m p i j P. unfold user_common. now apply tr_update. Qed.
Lemma cn_copy y : cn_ok E mid0 (copy_new E U y).
Proof. intros L s m p i P H. unfold copy_new. tb tr_data_at. intros q ? ? _ _ (_ & -> & ->). destruct (m_copy_init (e_mixin E m)); [now apply tr_construct|now apply tr_raise]. Qed.
Lemma cn_checked y : cn_ok E mid0 (copy_new_checked E U y).
Proof. intros L s m p i P H. unfold copy_new_checked. tb tr_data_at. intros q ? ? _ _ (_ & -> & ->). destruct (m_copy_init (e_mixin E m)); [now apply tr_construct|now apply tr_ub]. Qed.
Lemma uc_copy y : uc_ok E mid0 (copy_common E U y).
Proof. intros L s m p i j P. unfold copy_common. tb tr_data_at. intros q ? ? _ _ (_ & -> & ->). destruct (m_copy_asgn (e_mixin E m)); [now apply tr_copy_asgn|now apply tr_ub]. Qed.

Lemma body_cover t cs l : body_fine t (cover_loop E U cs l).
Proof.
  assert (H : forall L p, OK E mid0 t True L p -> mtr E mid0 t True L p (cover_loop E U cs l) T); [|intros L p O _; auto].
  induction l as [|[i m] l IH]; intros L p O; cbn [cover_loop]; [apply m_ret; auto; exact Logic.I|]. eapply m_bnd; [instantiate (1 := T)|intros ? ? ? _ O' _; now apply IH].
  destruct (find (cover_matches E m) cs) as [c|]; [|apply m_ret; auto; exact Logic.I]. apply m_update_at; auto; [apply cn_wrap|apply uc_wrap].
Qed.
Lemma body_cop t cs l : body_fine t (cop_loop E U cs l).
Proof.
  assert (H : forall L p, OK E mid0 t True L p -> mtr E mid0 t True L p (cop_loop E U cs l) T); [|intros L p O _; auto].
  induction l as [|[i m] l IH]; intros L p O; cbn [cop_loop]; [apply m_ret; auto; exact Logic.I|]. eapply m_bnd; [instantiate (1 := T)|intros ? ? ? _ O' _; now apply IH].
  destruct (find (cop_matches E m) cs) as [c|]; [|apply m_ret; auto; exact Logic.I]. apply m_update_at; auto; [apply cn_cop|apply uc_noop].
Qed.
Lemma body_psteps t ps : sound_layout E (t_mixins t) (t_offsets t) (t_buf_size t) (t_buf_align t) -> body_fine t (run_psteps E U ps).
Proof.
  intros HS. assert (H : forall L p, OK E mid0 t True L p -> mtr E mid0 t True L p (run_psteps E U ps) T); [|intros L p O _; auto].
  induction ps as [|q l IH]; intros L p O; cbn [run_psteps]; [apply m_ret; auto; exact Logic.I|]. eapply m_bnd; [instantiate (1 := T)|intros ? ? ? _ O' _; now apply IH].
  destruct q; cbn [run_pstep].
  - apply m_update_at; auto; [apply cn_user|apply uc_user].
  - eapply m_T. apply m_update_next; auto; [intros; apply cn_ok_at; apply cn_user|apply uc_user].
  - apply m_each; auto; [apply cn_user|apply uc_user].
  - now apply m_default.
  - now apply m_finalize.
  - now apply m_rollback.
Qed.

(** ops of mutate_to: each one meets the mixin it was made for *)
Lemma m_turns_c t n : forall L p, OK E mid0 t True L p -> mu_complete (fst p) = true -> mtr E mid0 t True L p (update_turns (default_init E U) noop_common n) (fun _ _ p' => mu_complete (fst p') = true).
Proof.
  induction n; intros L p O Hc; cbn [update_turns]; [apply m_ret; auto|]. eapply m_bnd; [apply m_update_next; auto; [intros; congruence|apply uc_noop]|].
  cbn. intros ? ? ? _ O' [[_ He]|[Hn _]]; [|congruence]. apply IHn; auto. now rewrite He.
Qed.
Lemma m_ops t l : forall u L p, OK E mid0 t True L p -> (forall k m i, In (k, m, i) l -> nth_error (t_mixins t) i = Some m) -> ascends u l -> mu_complete (fst p) = true \/ mu_uu (fst p) <= u ->
  mtr E mid0 t True L p (ops_loop E U l) T.
Proof.
  induction l as [|[[k m] i] l IH]; intros u L p O Hl Ha Hu; cbn [ops_loop]; [apply m_ret; auto; exact Logic.I|].
  inversion Ha as [|? ? ? ? ? Hui Ha']; subst. pose proof (Hl k m i (or_introl eq_refl)) as Hm. pose proof (nth_error_lt _ _ _ Hm) as Hi.
  eapply m_bnd with (G := fun _ _ p' => mu_complete (fst p') = true \/ mu_uu (fst p') = i).
  - destruct Hu as [Hc|Hu]; [|apply m_default_uu; auto; lia].
    unfold default_each, construct_each, update_each. eapply m_bnd; [apply m_get_mu; auto|]. intros ? ? ? _ _ (-> & -> & ->). eapply m_weak; [apply m_turns_c; auto|]. cbn. auto.
  - cbn. intros ? L1 p1 _ O1 H1. eapply m_bnd; [apply m_update_next; auto; [|apply uc_noop]|].
    + intros Hc L2 s2 m2 q j P2 Hs2 Hn2. destruct H1 as [H1|H1]; [congruence|]. rewrite H1 in Hn2. assert (m2 = m) as -> by congruence. unfold do_init. now apply tr_construct.
    + cbn. intros ? L2 p2 _ O2 Hn. eapply IH with (u := S i); eauto; [intros; eapply Hl; right; eauto|].
      destruct Hn as [[Hc He]|[Hc He]]; [left; now rewrite He|]. destruct H1 as [H1|H1]; [congruence|]. right. rewrite He. cbn. lia.
Qed.
Lemma body_ops t l : (forall k m i, In (k, m, i) l -> nth_error (t_mixins t) i = Some m) -> ascends 0 l -> body_fine t (ops_loop E U l).
Proof. intros Hl Ha L p O H0. eapply m_ops; eauto. right. lia. Qed.

(** ** Operations *)
Lemma tr_reset L s unw o r x : PI L s -> Inv s -> s_obj s o = Some x -> may_become s o r -> trs L s (reset_type E U unw o r) T.
Proof.
  intros P I Ho Hm. destruct (may_fits s o x r Ho Hm) as (t & Ht & Hf). unfold reset_type. tb tr_get_obj. intros x' ? ? _ _ (Hx & -> & ->). assert (x' = x) as -> by congruence. clear Hx.
  destruct (o_sealed x); [tb tr_the_type; intros ? ? ? _ P' _; now apply tr_raise|]. destruct (match o_type x with Some q => tref_eqb r q | None => false end); [apply tr_ret; auto; exact Logic.I|].
  tb tr_get_ty. intros t' ? ? _ _ (Ht' & -> & ->). assert (t' = t) as -> by congruence. clear Ht'. destruct (num_mixins t =? 0).
  - eapply tr_bnd; [instantiate (1 := T); destruct (tref_eqb r (TEmpty (t_dom t))); [apply tr_ret; auto; exact Logic.I|now apply tr_ub]|]. intros ? ? ? _ P' _. tb tr_clear. intros ? ? ? _ P'' _. now apply tr_mod.
  - eapply tr_perform; eauto. apply body_default.
Qed.
Lemma pi_blank L s o a : PI L s -> PI L (blank_st s o a).
Proof. intros P. eapply pi_same; eauto. Qed.
Lemma tr_with_new L s o a body : PI L s -> s_obj s o = None -> (PI L (blank_st s o a) -> trs L (blank_st s o a) body T) -> trs L s (with_new E o a body) T.
Proof.
  intros P Ho Hb s' r Hr. rewrite with_new_step in Hr by auto. destruct (body (blank_st s o a)) as [s1 r1] eqn:Hs. destruct (Hb (pi_blank _ _ _ _ P) _ _ Hs) as (L1 & A1 & A2 & _).
  destruct r1 as [[]|e|u]; [injection Hr as <- <-; exists L1; split; [exact A1|split; [exact A2|intros; exact Logic.I]]| |injection Hr as <- <-; exists L1; split; [exact A1|split; [exact A2|intros; exact Logic.I]]].
  assert (Hd : trs L1 s1 (obj_dtor E o;; raise e : M st unit) T) by (tb tr_dtor; intros ? ? ? _ P' _; now apply tr_raise). destruct (Hd _ _ Hr) as (L2 & B1 & B2 & B3). exists L2. split; [eapply ext_trans; eauto|auto].
Qed.
Lemma blank_becomes s o a r : w_type (s_w s) r <> None -> may_become (blank_st s o a) o r.
Proof. intros H. destruct (w_type (s_w s) r) as [t|] eqn:Ht; [|congruence]. exists (blank a), t. split; [cbn; apply upd_same|]. split; auto. now intros []. Qed.

Lemma tr_copy_loop mid x y own l : forall L s, PI L s -> trs L s (copy_matching_loop E U mid x y own l) T.
Proof.
  induction l as [|[i m] l IH]; intros L s P; cbn [copy_matching_loop]; [apply tr_ret; auto; exact Logic.I|]. eapply tr_bnd; [instantiate (1 := T)|intros ? ? ? _ P' _; now apply IH].
  destruct (index_of own (mid m)) as [oi|]; [|apply tr_ret; auto; exact Logic.I]. tb tr_data_at. intros p ? ? _ _ (_ & -> & ->). tb tr_data_at. intros q ? ? _ _ (_ & -> & ->).
  destruct (m_copy_asgn (e_mixin E m)); [now apply tr_copy_asgn|now apply tr_ub].
Qed.
Lemma tr_move_loop fb x y own l b : o_data x = Some b -> (forall i m j, In (i, m) l -> index_of own (mid0 m) = Some j -> nth_error (t_mixins own) j = Some m) ->
  forall L s, PI L s -> fitsL L b own -> trs L s (move_matching_loop E U fb mid0 x y own l) T.
Proof.
  intros Hb. induction l as [|[i m] l IH]; intros Hl L s P F; cbn [move_matching_loop]; [apply tr_ret; auto; exact Logic.I|].
  eapply tr_bnd; [instantiate (1 := T)|intros ? L' ? Hx P' _; apply IH; auto; [intros; eapply Hl; eauto; right; eauto|eapply fits_ext; eauto]].
  destruct (index_of own (mid0 m)) as [oi|] eqn:Hi; [|apply tr_ret; auto; exact Logic.I]. tb tr_data_at. intros p ? ? _ _ ((b' & m' & d & D1 & D2 & ->) & -> & ->). tb tr_data_at. intros q ? ? _ _ (_ & -> & ->).
  destruct (m_move_asgn (e_mixin E m)); [now apply tr_move_asgn|]. destruct (negb fb); [now apply tr_ub|]. tb tr_destroy. intros ? L1 s1 Hx P1 _. destruct (m_move_init (e_mixin E m)); [|now apply tr_ub].
  apply tr_move_init; auto. eapply spot_ext; [exact Hx|]. assert (b' = b) as -> by congruence. pose proof (Hl i m oi (or_introl eq_refl) Hi) as Hm. pose proof (fits_slot _ _ _ _ _ _ _ _ F Hm D2) as ->. eapply dslot_spot; eauto.
Qed.
Lemma tr_move_none fb x y own l : o_data x = None -> forall L s, PI L s -> trs L s (move_matching_loop E U fb mid0 x y own l) T.
Proof.
  intros Hb. induction l as [|[i m] l IH]; intros L s P; cbn [move_matching_loop]; [apply tr_ret; auto; exact Logic.I|].
  eapply tr_bnd; [instantiate (1 := T)|intros ? L' ? Hx P' _; now apply IH]. destruct (index_of own (mid0 m)) as [oi|] eqn:Hi; [|apply tr_ret; auto; exact Logic.I]. unfold data_at at 1. rewrite Hb. intros s' r [= <- <-]. exists L. split; [apply ext_refl|]. split; [exact P|discriminate].
Qed.

Lemma tr_mutate_to L s unw o r ops x : PI L s -> Inv s -> s_obj s o = Some x -> may_become s o r ->
  (ops <> [] -> forall d t, object_domain s o d -> w_type (s_w s) r = Some t -> ops_fine E (s_w s) d (t_dom t) ops) -> trs L s (mutate_to E U unw o r ops) T.
Proof.
  intros P I Ho Hm Hf. unfold mutate_to. destruct ops as [|op ops]; [eapply tr_reset; eauto|]. specialize (Hf ltac:(discriminate)).
  destruct (may_fits s o x r Ho Hm) as (t & Ht & Hfi). tb tr_get_obj. intros x' ? ? _ _ (Hx & -> & ->). assert (x' = x) as -> by congruence. clear Hx. tb tr_the_type. intros [q t0] ? ? _ _ (Hq & Ht0 & -> & ->). cbn [fst snd] in *.
  destruct (tref_eqb q r); [apply tr_ret; auto; exact Logic.I|]. tb tr_get_ty. intros t' ? ? _ _ (Ht' & -> & ->). assert (t' = t) as -> by congruence. clear Ht'.
  assert (Hfine : ops_fine E (s_w s) (t_dom t0) (t_dom t) (op :: ops)) by (apply Hf; auto; exists q, t0; split; auto; exists x; auto).
  eapply tr_bnd; [apply (tr_const E mid0 _ L s (fun s => resolve_ops E (s_w s) (t_dom t0) t (op :: ops))); exact P|]. intros l ? ? _ _ (Hl & -> & ->).
  destruct (resolve_spec E (s_w s) (t_dom t0) t (op :: ops) (proj1 Hfine)) as (l' & Hl' & Hin). rewrite Hl in Hl'. injection Hl' as <-.
  destruct (sort_ops_ok l (resolve_nodup E (s_w s) r t (t_dom t0) (op :: ops) (iv_reach _ _ I) Ht Hfine l Hl)) as [Hasc Hso].
  eapply tr_perform; eauto. apply body_ops; auto. intros k m i Hi. apply Hso, Hin in Hi. destruct Hi as (op' & A & B & C & D).
  eapply (type_idx2 E (s_w s) r t); eauto; [apply (iv_reach _ _ I)|]. eapply (proj1 (proj2 Hfine)); eauto.
Qed.

Lemma made_pi L s d s1 res : made s d s1 res -> PI L s -> PI L s1.
Proof. intros [e ->|r t Hs Hb (Hm & _) _ _] P; auto. rewrite Hs. eapply pi_same; eauto. Qed.

Lemma tr_op L s op : PI L s -> Inv s -> typed s -> fair E s op -> (forall d, op <> ODom d) -> trs L s (op_run E U op) T.
Proof.
  intros P I Ty F Hd. destruct op; cbn [op_run fair] in *; try (now destruct (Hd op)).
  - unfold new_empty. tb tr_fresh. intros ? ? ? _ _ (_ & -> & ->). eapply tr_T. now apply tr_put_obj.
  - destruct F as [F1 F2]. unfold new_of_type. apply tr_with_new; auto. intros P1. destruct (blank_inv E s o a I Ty F1) as (I1 & Ty1 & Ho1). eapply tr_bnd; [eapply tr_reset; eauto; now apply blank_becomes|]. intros ? ? ? _ P' _. now apply tr_mod.
  - unfold new_moved. tb tr_get_obj. intros y ? ? _ _ (Hy & -> & ->). tb tr_fresh. intros ? ? ? _ _ (_ & -> & ->). tb tr_put_obj. intros ? ? ? _ P' _. now apply tr_usurp.
  - now apply tr_dtor.
  - unfold move_assign. tb tr_get_obj. intros x ? ? _ _ (Hx & -> & ->). tb tr_get_obj. intros y ? ? _ _ (Hy & -> & ->). destruct (o =? src); [apply tr_ret; auto; exact Logic.I|].
    destruct (o_alloc x =? o_alloc y); [destruct (o_sealed x)|]; [tb tr_the_type; intros ? ? ? _ P' _; now apply tr_raise| |tb tr_the_type; intros ? ? ? _ P' _; now apply tr_raise].
    tb tr_clear. intros ? ? ? _ P' _. now apply tr_usurp.
  - destruct F as [F1 F2]. unfold copy. tb tr_get_obj. intros y ? ? _ _ (Hy & -> & ->). apply tr_with_new; auto. intros P1. destruct (blank_inv E s o a I Ty F1) as (I1 & Ty1 & Ho1).
    destruct (o_data y) as [b|]; [|now apply tr_mod]. tb tr_the_type. intros [r t] ? ? _ _ (Hr & Ht & -> & ->). cbn [fst snd] in *. eapply tr_perform; eauto.
    + intros b' q t0 Hb'. discriminate.
    + apply body_each; [apply cn_copy|apply uc_noop].
  - destruct F as [(x & F1 & F2) (F3 & F4)]. unfold copy_from. tb tr_get_obj. intros x' ? ? _ _ (Hx & -> & ->). assert (x' = x) as -> by congruence. tb tr_get_obj. intros y ? ? _ _ (Hy & -> & ->).
    destruct (o_data y) as [b|] eqn:Hb.
    + tb tr_the_type. intros [r t] ? ? _ _ (Hr & Ht & -> & ->). tb tr_the_type. intros [q t0] ? ? _ _ (Hq & Ht0 & -> & ->). cbn [fst snd] in *. tb tr_mid. intros ? ? ? _ _ (-> & -> & ->).
      eapply tr_bnd; [apply (tr_const E mid0 _ L s (fun _ => check_copy E mid0 t0 (t_mixins t))); exact P|]. intros ? ? ? _ _ (_ & -> & ->). eapply tr_perform; eauto; [|apply body_each; [apply cn_checked|apply uc_copy]].
      intros b' q' t' Hb' Hq' Ht'. destruct (obj_fits L s o x b' P I F1 Hb') as (q2 & t2 & A1 & A2 & _ & A3). destruct (obj_fits L s src y b P I Hy Hb) as (q3 & t3 & B1 & B2 & _ & B3). eapply F4; eauto; congruence.
    + destruct (o_sealed x); [tb tr_the_type; intros ? ? ? _ P' _; now apply tr_raise|]. tb tr_clear. intros ? ? ? _ P' _. now apply tr_mod.
  - unfold copy_matching_from. tb tr_get_obj. intros x ? ? _ _ (_ & -> & ->). tb tr_get_obj. intros y ? ? _ _ (_ & -> & ->). tb tr_the_type. intros yt ? ? _ _ (_ & _ & -> & ->). tb tr_the_type. intros xt ? ? _ _ (_ & _ & -> & ->).
    tb tr_mid. intros ? ? ? _ _ (-> & -> & ->). eapply tr_bnd; [apply (tr_const E mid0 _ L s (fun _ => check_copy_matching E mid0 (snd xt) (t_mixins (snd yt)))); exact P|]. intros ? ? ? _ _ (_ & -> & ->). now apply tr_copy_loop.
  - destruct F as [(x & F1 & F2) [(y & F3 & F4) [F5 F6]]]. unfold move_matching_from. tb tr_get_obj. intros x' ? ? _ _ (Hx & -> & ->). assert (x' = x) as -> by congruence. tb tr_get_obj. intros y' ? ? _ _ (Hy & -> & ->). assert (y' = y) as -> by congruence.
    tb tr_the_type. intros [q t0] ? ? _ _ (Hq & Ht0 & -> & ->). tb tr_the_type. intros [r t] ? ? _ _ (Hr & Ht & -> & ->). cbn [fst snd] in *. tb tr_mid. intros ? ? ? _ _ (-> & -> & ->).
    eapply tr_bnd; [apply (tr_const E mid0 _ L s (fun _ => check_move_matching E fb mid0 t (t_mixins t0))); exact P|]. intros ? ? ? _ _ (_ & -> & ->).
    destruct (o_data x) as [b|] eqn:Hb; [|now apply tr_move_none]. destruct (obj_fits L s o x b P I F1 Hb) as (r' & t' & A1 & A2 & A3 & A4). assert (r' = r) as -> by congruence. assert (t' = t) as -> by congruence.
    eapply tr_move_loop; eauto. intros i m j Hin Hj. pose proof (pl_mid _ _ _ _ P) as Hmid. rewrite <- Hmid in Hj. eapply (type_idx E (s_w s) q t0 r t); eauto; [apply (iv_reach _ _ I)| |].
    + symmetry. eapply (F5 x y r q t t0); eauto. intros H0. apply MatchProofs.enum_nth in Hin. rewrite H0 in Hin. destruct i; discriminate.
    + apply MatchProofs.enum_nth in Hin. eapply nth_error_In. exact Hin.
  - unfold clear. tb tr_get_obj. intros x ? ? _ _ (_ & -> & ->). tb tr_the_type. intros rt ? ? _ _ (_ & _ & -> & ->). destruct (o_sealed x); [now apply tr_raise|]. tb tr_clear. intros ? ? ? _ P' _. now apply tr_mod.
  - destruct F as [(x & F1 & F2) F3]. eapply tr_reset; eauto.
  - unfold seal. now apply tr_mod.
  - destruct F as [(x & F1 & F2) (F3 & F4)]. eapply tr_mutate_to; eauto. intros Hn. now apply F4.
  - destruct F as [(x & F1 & F2) (F3 & F4 & F5)]. unfold mutate. tb tr_get_obj. intros x' ? ? _ _ (Hx & -> & ->). assert (x' = x) as -> by congruence. tb tr_the_type. intros [q t] ? ? _ _ (Hq & Ht & -> & ->). cbn [fst snd] in *.
    assert (Hto : type_of s o q t) by (exists x; auto). destruct (act_made E s o aok false _ q t I Ty Hto F4) as (s1 & tres & H1 & Hub & Hm & I1 & Ty1 & Hem & _). pose proof (made_pi L s _ s1 tres Hm P) as P1.
    eapply tr_bnd with (G := fun r L' s' => tres = Ok r /\ L' = L /\ s' = s1).
    { intros s' r Hr. rewrite H1 in Hr. injection Hr as <- <-. exists L. split; [apply ext_refl|]. auto. }
    intros r ? ? _ _ (-> & -> & ->). destruct (made_type E s _ s1 _ o x q t Hm I Ty F1 Hq Ht) as [Ho1 Ht1]. eapply tr_mutate_to; eauto; [eapply made_becomes; eauto|].
    intros _ d t1 (q' & t' & (x' & A1 & A2 & A3) & <-) Hr1. assert (x' = x) as -> by congruence. assert (q' = q) as -> by congruence. assert (t' = t) as -> by congruence.
    inversion Hm as [|r' t2 Hs Hb Hse Hr Hdd]; subst. assert (t1 = t2) as -> by congruence. rewrite Hdd. eapply ops_fine_elems; [exact Hse|]. apply F5. exists q, t. auto.
  - destruct F as [(x & F1 & F2) F3]. unfold gradual. tb tr_get_obj. intros x' ? ? _ _ (Hx & -> & ->). assert (x' = x) as -> by congruence. tb tr_the_type. intros [q t] ? ? _ _ (Hq & Ht & -> & ->). cbn [fst snd] in *.
    destruct unw; [eapply tr_T; apply tr_const; exact P|].
    assert (Hto : type_of s o q t) by (exists x; auto). destruct (act_made E s o aok true _ q t I Ty Hto F3) as (s1 & tres & H1 & Hub & Hm & I1 & Ty1 & Hem & _). pose proof (made_pi L s _ s1 tres Hm P) as P1.
    eapply tr_bnd with (G := fun r L' s' => tres = Ok r /\ L' = L /\ s' = s1).
    { intros s' r Hr. rewrite H1 in Hr. injection Hr as <- <-. exists L. split; [apply ext_refl|]. auto. }
    intros r ? ? _ _ (-> & -> & ->). destruct (made_type E s _ s1 _ o x q t Hm I Ty F1 Hq Ht) as [Ho1 Ht1]. eapply tr_reset; eauto. eapply made_becomes; eauto.
  - destruct F as [(x & F1 & F2) (F3 & F4)]. unfold c_mutate_to. tb tr_get_ty. intros t ? ? _ _ (Ht & -> & ->). destruct (may_fits s o x r F1 F3) as (t' & Ht' & Hf). assert (t' = t) as -> by congruence. eapply tr_perform; eauto. apply body_cover.
  - destruct F as [(x & F1 & F2) F3]. unfold c_mutate. tb tr_get_obj. intros x' ? ? _ _ (Hx & -> & ->). assert (x' = x) as -> by congruence. tb tr_the_type. intros [q t] ? ? _ _ (Hq & Ht & -> & ->). cbn [fst snd] in *.
    assert (Hto : type_of s o q t) by (exists x; auto). destruct (act_made E s o aok false _ q t I Ty Hto F3) as (s1 & tres & H1 & Hub & Hm & I1 & Ty1 & Hem & _). pose proof (made_pi L s _ s1 tres Hm P) as P1.
    eapply tr_bnd with (G := fun r L' s' => tres = Ok r /\ L' = L /\ s' = s1).
    { intros s' r Hr. rewrite H1 in Hr. injection Hr as <- <-. exists L. split; [apply ext_refl|]. auto. }
    intros r ? ? _ _ (-> & -> & ->). destruct (made_type E s _ s1 _ o x q t Hm I Ty F1 Hq Ht) as [Ho1 Ht1]. tb tr_get_ty. intros t1 ? ? _ _ (Ht1' & -> & ->).
    destruct (may_fits s1 o x r Ho1) as (t2 & Ht2 & Hf); [eapply made_becomes; eauto|]. assert (t2 = t1) as -> by congruence. eapply tr_perform; eauto. apply body_cop.
  - destruct F as [(x & F1 & F2) (F3 & F4 & F5)]. unfold piecewise. destruct (may_fits s o x r F1 F3) as (t & Ht & Hf). eapply tr_perform; eauto. apply body_psteps. eapply sound_of; eauto.
  - unfold use_mixin. tb tr_get_obj. intros x ? ? _ _ (_ & -> & ->). tb tr_the_type. intros xt ? ? _ _ (_ & _ & -> & ->). destruct (nth_error (t_mixins (snd xt)) i) as [m|]; [|apply tr_ret; auto; exact Logic.I].
    tb tr_data_at. intros p ? ? _ _ (_ & -> & ->). now apply tr_update.
Qed.
End Mid.

Lemma place_history tr s : history E U tr s -> exists L, PI E (w_mid (s_w s)) L s.
Proof.
  induction 1 as [|tr s op r s' H [L P] F Hrun Hub].
  - exists (fun _ => None). constructor; cbn; auto; try discriminate. tauto.
  - destruct (history_inv E U AM tr s H) as [I Ty]. assert (Hc : (exists d, op = ODom d) \/ forall d, op <> ODom d) by (destruct op; first [right; intros ?; discriminate|left; eexists; reflexivity]).
    destruct Hc as [[d ->]|Hd].
    + cbn [op_run] in Hrun. unfold on_world, bnd in Hrun. exists L. destruct (snd (dstep E (s_w s) d)); injection Hrun as <- <-; destruct P; constructor; auto.
    + destruct (tr_op _ L s op P I Ty F Hd _ _ Hrun) as (L' & _ & P' & _). exists L'. now rewrite (pl_mid _ _ _ _ P').
Qed.
End Ops.
