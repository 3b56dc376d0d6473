(** What functions of mixins see: operations on objects *)
From Coq Require Import List Arith ZArith NArith Lia Bool.
From Verif Require Import Base Sv BaseLemmas Info MixinInfo TypeMut TypeBuild TypeQuery Domain TypesProofs ElemProofs WorldProofs Heap HeapProofs Mutation Object SpecDom SpecObj SpecLog SpecSeen PartProofs ObjProofs ActProofs ActProofs2 MatchProofs ActProofs3 FinProofs PlaceProofs SeenProofs SeenProofs2.
Import ListNotations.

Section Ops.
Variable E : env.
Variable U : user.
Hypothesis AM : SpecLayout.aligned_mixins E.
Notation Inv := (Inv E).

(** ** The blocks of an object *)
Lemma foot_next s o c : Inv s -> foot s o c -> c < s_next s.
Proof.
  intros I H. destruct (Nat.lt_ge_cases c (s_next s)) as [|Hge]; auto. exfalso. pose proof (iv_next _ _ I c Hge) as Hn. destruct H as (x & b & r & t & A1 & A2 & A3 & A4 & A5).
  pose proof (iv_obj _ _ I o x A1) as Hk. unfold obj_ok in Hk. rewrite A2 in Hk. destruct Hk as (r' & t' & dd & B1 & B2 & B3 & Q). assert (r' = r) as -> by congruence. assert (t' = t) as -> by congruence.
  destruct A5 as [->|(i & m & d & D1 & D2 & D3)].
  - pose proof (pa_blk _ _ _ _ _ _ _ _ _ _ Q) as H. unfold battr in H. rewrite Hn in H. discriminate.
  - rewrite (pa_data _ _ _ _ _ _ _ _ _ _ Q) in D2. destruct (full t i) eqn:Hf; [|discriminate]. injection D2 as <-. destruct (pa_ext _ _ _ _ _ _ _ _ _ _ Q i m D1 Hf) as (_ & e & _ & He & Hb & _). rewrite He in D3. injection D3 as <-.
    unfold battr in Hb. rewrite Hn in Hb. discriminate.
Qed.
Lemma obj_had s o x b : Inv s -> s_obj s o = Some x -> o_data x = Some b ->
  had s o b /\ foot s o b /\ forall i d, bdat (s_blk s) b i = Some d -> foot s o (fst (md_mixin d)) /\ forall e, md_buf d = Some e -> foot s o e.
Proof.
  intros I Ho Hb. pose proof (iv_obj _ _ I o x Ho) as Hk. unfold obj_ok in Hk. rewrite Hb in Hk. destruct Hk as (r & t & dd & B1 & B2 & B3 & Q).
  assert (Hf : foot s o b) by (exists x, b, r, t; repeat (split; [assumption|]); now left).
  assert (Hd : forall i d, bdat (s_blk s) b i = Some d -> bback (s_blk s) (md_mixin d) = Some o /\ foot s o (fst (md_mixin d)) /\ forall e, md_buf d = Some e -> foot s o e).
  { intros i d Hd. pose proof Hd as Hd'. rewrite (pa_data _ _ _ _ _ _ _ _ _ _ Q) in Hd. destruct (full t i) eqn:Hfu; [|discriminate]. injection Hd as <-.
    destruct (pa_con _ _ _ _ _ _ _ _ _ _ Q i Hfu) as (m & off & v & Hs & _). destruct (N.eq_dec off 0) as [->|Hne].
    - destruct (pa_ext _ _ _ _ _ _ _ _ _ _ Q i m Hs Hfu) as (_ & e & _ & He & _ & Hbk). split; auto. assert (Hfe : foot s o e) by (exists x, b, r, t; repeat (split; [assumption|]); right; exists i, m, (dd i); split; auto; split; auto; rewrite He; auto).
      rewrite He. cbn. split; auto. intros e' [= <-]. auto.
    - destruct (pa_int _ _ _ _ _ _ _ _ _ _ Q i m off Hs Hfu Hne) as [He Hbk]. rewrite He. cbn. split; auto. split; auto. discriminate. }
  split; [|split; auto]; [split; [eapply foot_next; eauto|]|]; intros i d Hi; destruct (Hd i d Hi) as (X1 & X2 & X3); [split; auto; eapply foot_next; eauto|auto].
Qed.

(** ** One operation on object [o], from state [s0] *)
Section One.
Variable s0 : st.
Variable o : nat.
Variable so : fn -> nat.
Variable own : nat -> Prop.
Hypothesis I0 : Inv s0.
Hypothesis OW : forall c, foot s0 o c -> own c.
Notation K := (K s0 o so own).
Notation seen_ok := (seen_ok s0 o so own).

Lemma k_start common ph : K common ph s0.
Proof.
  constructor; auto.
  - intros b Hb Hh. auto.
  - intros b i d Hb Hd. unfold bdat in Hd. rewrite (iv_next _ _ I0 b Hb) in Hd. discriminate.
  - intros r t Ht. exists (t_nobj t). rewrite Ht. now destruct t.
  - intros _. split; auto. intros p x _ Hx. exists x. auto.
  - exists []. rewrite app_nil_r. auto.
  - split; auto.
Qed.
Lemma own_obj x b : s_obj s0 o = Some x -> o_data x = Some b -> own_old s0 own o b.
Proof.
  intros Ho Hb. destruct (obj_had s0 o x b I0 Ho Hb) as (H1 & H2 & H3). split; auto. split; auto. intros i d Hd. destruct (H3 i d Hd) as [X1 X2]. split; auto.
Qed.

(** Nothing was seen but what is right; after an exception the objects are as they were *)
Definition ends {A} (s : st) (x : M st A) : Prop :=
  forall s' r, x s = (s', r) -> match r with Ub _ => True | Throw _ => s_obj s' = s_obj s0 /\ seen_ok s' | Ok _ => seen_ok s' end.
Definition base (s : st) : Prop := s_obj s = s_obj s0 /\ seen_ok s.
Definition looks {A} (x : M st A) : Prop := forall s s' r, x s = (s', r) -> s' = s.
Definition calm {A} (x : M st A) : Prop := forall s s' r, x s = (s', r) -> s_seen s' = s_seen s /\ forall e, r <> Throw e.

Lemma base_k common ph s : K common ph s -> base s.
Proof. intros P. split; [apply (k_obj _ _ _ _ _ _ _ P)|apply (k_seen _ _ _ _ _ _ _ P)]. Qed.
Lemma base_start : base s0.
Proof. apply (base_k (fun _ => False) true), k_start. Qed.
Lemma ends_look A B s (x : M st A) (f : A -> M st B) : base s -> looks x -> (forall a, x s = (s, Ok a) -> ends s (f a)) -> ends s (bnd x f).
Proof.
  intros Hb Hx Hf s' r. unfold bnd. destruct (x s) as [s1 [a|e|u]] eqn:Hs; pose proof (Hx _ _ _ Hs) as ->.
  - intros Hr. exact (Hf a eq_refl s' r Hr).
  - intros [= <- <-]. exact Hb.
  - intros [= <- <-]. exact Logic.I.
Qed.
Lemma ends_calm A B s (x : M st A) (f : A -> M st B) : ends s x -> (forall a, calm (f a)) -> ends s (bnd x f).
Proof.
  intros Hx Hf s' r. unfold bnd. destruct (x s) as [s1 [a|e|u]] eqn:Hs; specialize (Hx _ _ Hs); cbn in Hx.
  - intros Hr. destruct (Hf a _ _ _ Hr) as [H1 H2]. assert (Hk : seen_ok s') by (destruct Hx as (l & L1 & L2); exists l; rewrite H1; auto). destruct r; auto. exfalso. eapply H2; eauto.
  - intros [= <- <-]. exact Hx.
  - intros [= <- <-]. exact Logic.I.
Qed.
Lemma ends_of_calm A s (x : M st A) : seen_ok s -> calm x -> ends s x.
Proof. intros Hs Hx s' r Hr. destruct (Hx _ _ _ Hr) as [H1 H2]. assert (Hk : seen_ok s') by (destruct Hs as (l & L1 & L2); exists l; rewrite H1; auto). destruct r; auto. exfalso. eapply H2; eauto. Qed.
Lemma ends_looks A s (x : M st A) : base s -> looks x -> ends s x.
Proof. intros [H1 H2] Hx s' r Hr. pose proof (Hx _ _ _ Hr) as ->. destruct r; auto. Qed.
Lemma ends_tr A common ph s (x : M st A) G : tr s0 o so own common ph s x G -> ends s x.
Proof. intros H s' r Hr. specialize (H s' r Hr). destruct r; auto; [destruct H as [H _]; apply (base_k _ _ _ H)|apply (base_k _ _ _ H)]. Qed.

Lemma looks_bnd A B (x : M st A) (f : A -> M st B) : looks x -> (forall a, looks (f a)) -> looks (bnd x f).
Proof.
  intros Hx Hf s s' r. unfold bnd. destruct (x s) as [s1 [a|e|u]] eqn:Hs; pose proof (Hx _ _ _ Hs) as ->; intros Hr; [exact (Hf a _ _ _ Hr)|injection Hr as <- <-; auto|injection Hr as <- <-; auto].
Qed.
Lemma looks_ret A (a : A) : looks (ret a).
Proof. intros s s' r [= <- <-]. auto. Qed.
Lemma looks_raise A e : looks (raise e : M st A).
Proof. intros s s' r [= <- <-]. auto. Qed.
Lemma looks_ub A u : looks (ub u : M st A).
Proof. intros s s' r [= <- <-]. auto. Qed.
Lemma looks_const A (f : st -> res A) : looks (fun s => (s, f s)).
Proof. intros s s' r [= <- <-]. auto. Qed.
Lemma looks_obj c : looks (get_obj c).
Proof. intros s s' r. unfold get_obj. destruct (s_obj s c); intros [= <- <-]; auto. Qed.
Lemma looks_ty c : looks (get_ty c).
Proof. intros s s' r. unfold get_ty. destruct (w_type (s_w s) c); intros [= <- <-]; auto. Qed.
Lemma looks_type x : looks (the_type x).
Proof. unfold the_type. destruct (o_type x); [apply looks_bnd; [apply looks_ty|intros; apply looks_ret]|apply looks_ub]. Qed.
Lemma looks_fresh c : looks (fresh_obj c).
Proof. intros s s' r. unfold fresh_obj. destruct (s_obj s c); intros [= <- <-]; auto. Qed.
Lemma obj_of s c x : get_obj c s = (s, Ok x) -> s_obj s c = Some x.
Proof. unfold get_obj. destruct (s_obj s c); intros [= <-]; auto. Qed.
Lemma ty_of s c x : get_ty c s = (s, Ok x) -> w_type (s_w s) c = Some x.
Proof. unfold get_ty. destruct (w_type (s_w s) c); intros [= <-]; auto. Qed.
Lemma type_of_ok s x rt : the_type x s = (s, Ok rt) -> o_type x = Some (fst rt) /\ w_type (s_w s) (fst rt) = Some (snd rt).
Proof. unfold the_type. destruct (o_type x) as [q|]; [|discriminate]. unfold bnd, get_ty. destruct (w_type (s_w s) q) eqn:Hq; intros [= <-]; auto. Qed.

Lemma calm_bnd A B (x : M st A) (f : A -> M st B) : calm x -> (forall a, calm (f a)) -> calm (bnd x f).
Proof.
  intros Hx Hf s s' r. unfold bnd. destruct (x s) as [s1 [a|e|u]] eqn:Hs; destruct (Hx _ _ _ Hs) as [H1 H2]; intros Hr.
  - destruct (Hf a _ _ _ Hr) as [H3 H4]. split; auto. congruence.
  - injection Hr as <- <-. split; auto. intros e' He. eapply H2; eauto.
  - injection Hr as <- <-. split; auto. discriminate.
Qed.
Lemma calm_ret A (a : A) : calm (ret a).
Proof. intros s s' r [= <- <-]. split; auto. discriminate. Qed.
Lemma calm_ub A u : calm (ub u : M st A).
Proof. intros s s' r [= <- <-]. split; auto. discriminate. Qed.
Lemma calm_obj c : calm (get_obj c).
Proof. intros s s' r. unfold get_obj. destruct (s_obj s c); intros [= <- <-]; split; auto; discriminate. Qed.
Lemma calm_ty c : calm (get_ty c).
Proof. intros s s' r. unfold get_ty. destruct (w_type (s_w s) c); intros [= <- <-]; split; auto; discriminate. Qed.
Lemma calm_put c x : calm (put_obj c x).
Proof. intros s s' r [= <- <-]. split; auto. discriminate. Qed.
Lemma calm_mod c f : calm (mod_obj c f).
Proof. apply calm_bnd; [apply calm_obj|intros; apply calm_put]. Qed.
Lemma calm_type x : calm (the_type x).
Proof. unfold the_type. destruct (o_type x); [apply calm_bnd; [apply calm_ty|intros; apply calm_ret]|apply calm_ub]. Qed.
Lemma calm_fresh c : calm (fresh_obj c).
Proof. intros s s' r. unfold fresh_obj. destruct (s_obj s c); intros [= <- <-]; split; auto; discriminate. Qed.
Lemma calm_read b i : calm (read_data b i).
Proof. intros s s' r Hr. destruct (read_cases s b i) as [(d & _ & H)|(u & H)]; rewrite H in Hr; injection Hr as <- <-; split; auto; discriminate. Qed.
Lemma calm_set q c : calm (set_object q c).
Proof. intros s s' r. unfold set_object, bnd, get_blk. destruct (s_blk s (fst q)); intros [= <- <-]; split; auto; discriminate. Qed.
Lemma calm_redirect b c l : calm (redirect_loop b c l).
Proof. induction l; cbn [redirect_loop]; [apply calm_ret|]. apply calm_bnd; [apply calm_read|]. intros d. apply calm_bnd; [apply calm_set|auto]. Qed.
Lemma calm_usurp c d : calm (usurp c d).
Proof.
  unfold usurp. apply calm_bnd; [apply calm_obj|]. intros y. apply calm_bnd; [apply calm_mod|]. intros _. apply calm_bnd; [apply calm_type|]. intros rt. apply calm_bnd; [|intros; apply calm_mod].
  destruct (o_data y); [apply calm_redirect|]. destruct (num_mixins (snd rt) =? 0); [apply calm_ret|apply calm_ub].
Qed.

(** ** The end of the mixins *)
Lemma ends_clear s : s = s0 -> so FMoveInit = o \/ True -> ends s (clear_mixin_data E o).
Proof.
  intros -> _. unfold clear_mixin_data. apply ends_look; [apply base_start|apply looks_obj|]. intros x Hx. apply obj_of in Hx. destruct (o_data x) as [b|] eqn:Hb; [|apply ends_looks; [apply base_start|apply looks_ret]].
  apply ends_look; [apply base_start|apply looks_type|]. intros rt Hrt. apply ends_calm; [|intros; apply calm_mod].
  intros s' r. unfold run_mut. destruct (rollback E (inverse_mut o x (fst rt) (snd rt), s0)) as [[mu' s1] r1] eqn:Hr. intros [= <- <-].
  assert (O : OK s0 o so own (snd rt) None None true false (inverse_mut o x (fst rt) (snd rt), s0)).
  { split; [apply k_start|]. constructor; cbn; auto; try discriminate. intros b' Hb'. right. eapply own_obj; eauto. }
  pose proof (m_rollback E s0 o so own (snd rt) None None true _ O _ _ Hr) as Hk. destruct r1; auto; [destruct Hk as [Hk _]; apply (base_k _ _ _ (proj1 Hk))|apply (base_k _ _ _ (proj1 Hk))].
Qed.

(** ** Mutations *)
Hypothesis SO : so FMoveInit = o.
Definition body_fine (t : type_rec) (body : M mst unit) : Prop := forall old od p, OK s0 o so own t old od false true p -> mtr s0 o so own t old od false true p body T.
Lemma ends_perform unw r t x body : s_obj s0 o = Some x -> w_type (s_w s0) r = Some t -> body_fine t body -> ends s0 (perform E U unw o r body).
Proof.
  intros Ho Ht Hb. unfold perform. apply ends_look; [apply base_start|apply looks_obj|]. intros x' Hx. apply obj_of in Hx. assert (x' = x) as -> by congruence. clear Hx.
  apply ends_look; [apply base_start| |].
  { unfold get_old. destruct (o_type x); [apply looks_bnd; [apply looks_ty|intros; apply looks_ret]|apply looks_ret]. }
  intros old Hold. apply ends_look; [apply base_start|apply looks_ty|]. intros t' Ht'. apply ty_of in Ht'. assert (t' = t) as -> by congruence. clear Ht'.
  assert (Hq : forall q k, old = Some (q, k) -> w_type (s_w s0) q = Some k).
  { intros q k ->. revert Hold. unfold get_old. destruct (o_type x) as [q'|]; [|discriminate]. unfold bnd, get_ty. destruct (w_type (s_w s0) q') eqn:Hw; intros [= <- <-]. auto. }
  assert (O : OK s0 o so own t old (o_data x) false true (new_mut o x old r t, s0)).
  { split; [apply k_start|]. constructor; cbn; auto; try discriminate. intros b Hbd. eapply own_obj; eauto. }
  assert (Hsb : mtr s0 o so own t old (o_data x) false true (new_mut o x old r t, s0) (start E U x;; body) T).
  { eapply m_bnd with (G := T); [|intros ? p' O' _; now apply Hb]. unfold start. destruct (o_sealed x); [now apply m_raise|]. eapply m_T. apply m_allocate; auto. cbn. intros Hs i m Hm Hod. unfold is_old.
    destruct (o_data x); [|congruence]. unfold same_type in Hs. cbn in Hs. destruct old as [[q k]|]; [|discriminate]. destruct (tref_eqb_spec q r) as [->|]; [|discriminate]. pose proof (Hq r k eq_refl) as Hk. assert (k = t) as -> by congruence.
    destruct (mixin_has E AM s0 r t m I0 Ht (nth_error_In _ _ Hm)) as (j & Hj). rewrite Hj. discriminate. }
  intros s' res Hr. destruct ((start E U x;; body) (new_mut o x old r t, s0)) as [p1 r1] eqn:Hs1. specialize (Hsb _ _ Hs1). destruct r1 as [[]|e|u].
  - destruct Hsb as [O1 _]. destruct (finish E U unw p1) as [p2 r2] eqn:Hf2. pose proof (fin_finish E U s0 o so SO own t old (o_data x) false eq_refl unw p1 O1 _ _ Hf2) as Hk. destruct p2 as [mu2 s2]. injection Hr as <- <-. cbn in Hk. destruct r2; auto. apply (base_k _ _ _ Hk).
  - destruct (unwind E e p1) as [p2 r2] eqn:Hf2. pose proof (m_unwind E s0 o so own t old (o_data x) false unit e p1 (ok_weak _ _ _ _ _ _ _ _ _ _ Hsb) _ _ Hf2) as Hk. destruct p2 as [mu2 s2]. injection Hr as <- <-. destruct r2; auto.
    + destruct Hk as [Hk _]. apply (base_k _ _ _ (proj1 Hk)).
    + apply (base_k _ _ _ (proj1 Hk)).
  - destruct p1. injection Hr as <- <-. exact Logic.I.
Qed.

Lemma body_default t u : body_fine t (default_each E U u).
Proof. intros old od p O. now apply m_default. Qed.

(** ** The functions of users and of copies *)
Section Cb.
Variables (t : type_rec) (old : option (tref * type_rec)) (od : option nat).
Notation cn_ok := (cn_ok s0 o so own t old od).
Notation uc_ok := (uc_ok s0 o so own t old od).
Lemma cn_user k : cn_ok (fun m p _ => construct E U (FOverride k) m p None).
Proof. intros s m p i P Hp H. apply tr_construct; auto. discriminate. Qed.
Lemma cn_wrap c : cn_ok (wrap_init E U c).
Proof. intros s m p i P Hp H. unfold wrap_init. destruct (co_init c); [apply tr_construct; auto; discriminate|now apply cn_default]. Qed.
Lemma cn_cop c : cn_ok (wrap_cop E U c).
Proof. intros s m p i P Hp H. unfold wrap_cop. destruct (cp_init c); [apply tr_construct; auto; discriminate|now apply tr_ub]. Qed.
Lemma uc_wrap c : uc_ok (wrap_update U c).
Proof. intros s m p i j P Hp. unfold wrap_update. destruct (co_update c); [now apply tr_update|now apply uc_noop]. Qed.
Lemma uc_user k : uc_ok (user_common U k).
Proof. intros s m p i j P Hp. unfold user_common. now apply tr_update. Qed.
Lemma cn_init k m : cn_ok (do_init E U k m).
Proof. intros s m' p i P Hp H. unfold do_init. apply tr_construct; auto. discriminate. Qed.
End Cb.

(** The source of a copy *)
Variable src : nat.
Variable y : obj.
Hypothesis HY : forall b, o_data y = Some b -> had s0 src b.
Lemma tr_data_at common ph s i c (x : obj) : (forall b, o_data x = Some b -> had s0 c b) -> K common ph s ->
  tr s0 o so own common ph s (data_at x i) (fun q s' => (exists b d, o_data x = Some b /\ bdat (s_blk s0) b i = Some d /\ q = md_mixin d) /\ fst q < s_next s0 /\ bback (s_blk s0) q = Some c /\ s' = s).
Proof.
  intros HX P. unfold data_at. destruct (o_data x) as [b|] eqn:Hb; [|apply tr_ub]. eapply tr_bnd; [apply tr_read_old with (c := c); auto|]. intros d ? _ (H0 & H1 & H2 & ->). apply tr_ret; auto. split; auto. exists b, d. auto.
Qed.
Lemma from_src common ph s f q : K common ph s -> fst q < s_next s0 -> bback (s_blk s0) q = Some src -> so f = src -> from_ok so s f (Some q).
Proof. intros P H1 H2 Hf q' [= <-] Hb. rewrite Hf. eapply old_back; eauto. Qed.
Lemma cn_copy t old od : so FCopyInit = src -> cn_ok s0 o so own t old od (copy_new E U y).
Proof.
  intros Hs s m p i P Hp H. unfold copy_new. eapply tr_bnd; [apply tr_data_at with (c := src); auto|]. intros q ? _ (_ & H1 & H2 & ->). destruct (m_copy_init (e_mixin E m)); [|now apply tr_raise]. apply tr_construct; auto. eapply from_src; eauto.
Qed.
Lemma cn_checked t old od : so FCopyInit = src -> cn_ok s0 o so own t old od (copy_new_checked E U y).
Proof.
  intros Hs s m p i P Hp H. unfold copy_new_checked. eapply tr_bnd; [apply tr_data_at with (c := src); auto|]. intros q ? _ (_ & H1 & H2 & ->). destruct (m_copy_init (e_mixin E m)); [|now apply tr_ub]. apply tr_construct; auto. eapply from_src; eauto.
Qed.
Lemma uc_copy t old od : so FCopyAsgn = src -> uc_ok s0 o so own t old od (copy_common E U y).
Proof.
  intros Hs s m p i j P Hp. unfold copy_common. eapply tr_bnd; [apply tr_data_at with (c := src); auto|]. intros q ? _ (_ & H1 & H2 & ->). destruct (m_copy_asgn (e_mixin E m)); [|now apply tr_ub]. apply tr_copy_asgn; auto. eapply from_src; eauto.
Qed.

Lemma body_cover t cs l : body_fine t (cover_loop E U cs l).
Proof.
  intros old od. induction l as [|[i m] l IH]; intros p O; cbn [cover_loop]; [apply m_ret; auto; exact Logic.I|]. eapply m_bnd; [instantiate (1 := T)|intros ? ? O' _; now apply IH].
  destruct (find (cover_matches E m) cs) as [c|]; [|apply m_ret; auto; exact Logic.I]. apply m_update_at; auto; [apply cn_wrap|apply uc_wrap].
Qed.
Lemma body_cop t cs l : body_fine t (cop_loop E U cs l).
Proof.
  intros old od. induction l as [|[i m] l IH]; intros p O; cbn [cop_loop]; [apply m_ret; auto; exact Logic.I|]. eapply m_bnd; [instantiate (1 := T)|intros ? ? O' _; now apply IH].
  destruct (find (cop_matches E m) cs) as [c|]; [|apply m_ret; auto; exact Logic.I]. apply m_update_at; auto; [apply cn_cop|apply uc_noop].
Qed.
Lemma body_psteps t n ps : steps_fine n ps -> body_fine t (run_psteps E U ps).
Proof.
  intros Hst old od. induction ps as [|q l IH]; intros p O; cbn [run_psteps]; [apply m_ret; auto; exact Logic.I|].
  eapply m_bnd; [instantiate (1 := T)|intros ? ? O' _; apply IH; auto; intros q' Hq'; apply Hst; now right].
  pose proof (Hst q (or_introl eq_refl)) as Hq. destruct q; cbn [run_pstep]; try now destruct Hq.
  - apply m_update_at; auto; [apply cn_user|apply uc_user].
  - apply m_update_next; auto; [apply cn_user|apply uc_user].
  - apply m_each; auto; [apply cn_user|apply uc_user].
  - now apply m_default.
Qed.
Lemma body_ops t l : body_fine t (ops_loop E U l).
Proof.
  intros old od. induction l as [|[[k m] i] l IH]; intros p O; cbn [ops_loop]; [apply m_ret; auto; exact Logic.I|].
  eapply m_bnd; [now apply m_default|]. intros ? p1 O1 _. eapply m_bnd; [apply m_update_next; auto; [apply cn_init|apply uc_noop]|]. intros ? p2 O2 _. now apply IH.
Qed.
Lemma body_copy t : so FCopyInit = src -> body_fine t (construct_each (copy_new E U y) None).
Proof. intros H old od p O. unfold construct_each. apply m_each; auto; [now apply cn_copy|apply uc_noop]. Qed.
Lemma body_copy_from t : so FCopyInit = src -> so FCopyAsgn = src -> body_fine t (update_each (copy_new_checked E U y) (copy_common E U y) None).
Proof. intros H1 H2 old od p O. apply m_each; auto; [now apply cn_checked|now apply uc_copy]. Qed.

Lemma ends_reset unw r x : s_obj s0 o = Some x -> may_become s0 o r -> ends s0 (reset_type E U unw o r).
Proof.
  intros Ho Hm. unfold reset_type. apply ends_look; [apply base_start|apply looks_obj|]. intros x' Hx. apply obj_of in Hx. assert (x' = x) as -> by congruence. clear Hx.
  destruct (o_sealed x); [apply ends_looks; [apply base_start|apply looks_bnd; [apply looks_type|intros; apply looks_raise]]|]. destruct (match o_type x with Some q => tref_eqb r q | None => false end); [apply ends_looks; [apply base_start|apply looks_ret]|].
  apply ends_look; [apply base_start|apply looks_ty|]. intros t Ht. apply ty_of in Ht. destruct (num_mixins t =? 0).
  - apply ends_look; [apply base_start|destruct (tref_eqb r (TEmpty (t_dom t))); [apply looks_ret|apply looks_ub]|]. intros _ _. apply ends_calm; [apply ends_clear; auto|intros; apply calm_mod].
  - eapply ends_perform; eauto. apply body_default.
Qed.
Lemma ends_mutate_to unw r ops x : s_obj s0 o = Some x -> may_become s0 o r -> ends s0 (mutate_to E U unw o r ops).
Proof.
  intros Ho Hm. unfold mutate_to. destruct ops as [|op ops]; [eapply ends_reset; eauto|]. apply ends_look; [apply base_start|apply looks_obj|]. intros x' Hx. apply obj_of in Hx. assert (x' = x) as -> by congruence. clear Hx.
  apply ends_look; [apply base_start|apply looks_type|]. intros xt _. destruct (tref_eqb (fst xt) r); [apply ends_looks; [apply base_start|apply looks_ret]|]. apply ends_look; [apply base_start|apply looks_ty|]. intros t Ht. apply ty_of in Ht.
  apply ends_look; [apply base_start|apply looks_const|]. intros l _. eapply ends_perform; eauto. apply body_ops.
Qed.
End One.
End Ops.
