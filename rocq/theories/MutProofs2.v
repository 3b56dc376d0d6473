(** Mutations, as the program sees them *)
From Coq Require Import List Arith ZArith NArith Lia Bool.
From Verif Require Import Base Sv BaseLemmas Info TypeBuild TypeQuery Domain TypesProofs SpecDom HistProofs DomTheorems SpecLayout Heap HeapProofs Mutation Object SpecObj SpecMut
  PartProofs RollProofs AllocProofs UpdProofs FinProofs PerfProofs WorldProofs ObjProofs OpProofs PlanProofs ActProofs ActProofs2 MutProofs.
Import ListNotations.

Section Mut2.
Variable E : env.
Variable U : user.
Hypothesis AM : aligned_mixins E.
Notation Inv := (Inv E).

(** ** Queries *)
Lemma mixin_holds s o i m : Inv s -> typed s -> has_mixin s o i m -> exists p v, holds s o i m p v.
Proof.
  intros I Ty H. destruct (mixin_whole E s o i m I Ty H) as (x & b & r & t & dd & W & Hm). destruct (whole_inst E s o x b r t dd i m I W Hm) as (v & Hv). eexists. exists v. eapply whole_holds; eauto.
Qed.
Lemma holds_mixin s o i m p v : holds s o i m p v -> has_some s o m.
Proof. intros (H & _). eexists; eauto. Qed.
Lemma has_dec s o m : has_some s o m \/ ~ has_some s o m.
Proof.
  destruct (s_obj s o) as [x|] eqn:Ho. 2:{ right. intros (i & r & t & (x & A & _) & _). congruence. }
  destruct (o_type x) as [r|] eqn:Hr. 2:{ right. intros (i & r & t & (y & A & B & _) & _). congruence. }
  destruct (w_type (s_w s) r) as [t|] eqn:Ht. 2:{ right. intros (i & r' & t & (y & A & B & C) & _). congruence. }
  assert (T : type_of s o r t) by (exists x; auto). destruct (In_dec Nat.eq_dec m (t_mixins t)) as [Hi|Hi].
  - left. apply In_nth_error in Hi. destruct Hi as (i & Hi). exists i, r, t. auto.
  - right. intros (i & r' & t' & T' & Hm). destruct (type_of_fun _ _ _ _ _ _ T T') as [-> ->]. apply Hi. eapply nth_error_In; eauto.
Qed.
Lemma holds_dec s o p : Inv s -> typed s -> (exists j m v, holds s o j m p v) \/ (forall j m v, ~ holds s o j m p v).
Proof.
  intros I Ty. destruct (instance s p) as [[m v]|] eqn:Hi. 2:{ right. intros j m v (_ & _ & H). congruence. }
  destruct (has_dec s o m) as [(j & Hj)|Hn].
  - destruct (mixin_holds s o j m I Ty Hj) as (p' & v' & H'). destruct (addr_eqb_spec p' p) as [->|Hne]; [left; eauto|]. right. intros j2 m2 v2 H2.
    pose proof H2 as (_ & _ & B). assert (m2 = m) as -> by congruence. destruct (mixin_whole E s o j m I Ty Hj) as (x & b & r & t & dd & W & Hm).
    destruct (holds_whole E s o _ _ _ _ x b r t dd W H2) as (C1 & C2 & _). destruct (holds_whole E s o _ _ _ _ x b r t dd W H') as (D1 & D2 & _).
    pose proof W as (_ & _ & _ & W4 & _). pose proof (tg_nodup _ _ _ (inv_good E AM s r t I W4)) as ND. rewrite NoDup_nth_error in ND. assert (j2 = j) as -> by (apply ND; [now apply nth_error_lt in C1|congruence]).
    congruence.
  - right. intros j m2 v2 H2. pose proof H2 as (_ & _ & B). assert (m2 = m) as -> by congruence. apply Hn. eapply holds_mixin; eauto.
Qed.
Lemma holds_fun s o i m p v p' v' : holds s o i m p v -> holds s o i m p' v' -> p' = p /\ v' = v.
Proof. intros (_ & A & B) (_ & C & D). assert (p' = p) as -> by congruence. split; congruence. Qed.
Lemma holds_index s o i j m p v p' v' : Inv s -> typed s -> holds s o i m p v -> holds s o j m p' v' -> j = i /\ p' = p /\ v' = v.
Proof.
  intros I Ty H H'. assert (j = i) as ->.
  { pose proof H as (Hm & _). destruct (mixin_whole E s o i m I Ty Hm) as (x & b & r & t & dd & W & _). destruct (holds_whole E s o _ _ _ _ x b r t dd W H) as (C1 & _).
    destruct (holds_whole E s o _ _ _ _ x b r t dd W H') as (D1 & _). pose proof W as (_ & _ & _ & W4 & _). pose proof (tg_nodup _ _ _ (inv_good E AM s r t I W4)) as ND. rewrite NoDup_nth_error in ND.
    apply ND; [now apply nth_error_lt in D1|congruence]. }
  split; auto. eapply holds_fun; eauto.
Qed.
Lemma holds_owns s o i m p v : Inv s -> typed s -> holds s o i m p v -> owns E s o (fst p).
Proof.
  intros I Ty H. pose proof H as (Hm & _). destruct (mixin_whole E s o i m I Ty Hm) as (x & b & r & t & dd & W & _). destruct (holds_whole E s o _ _ _ _ x b r t dd W H) as (C1 & -> & _).
  apply (foot_owns E AM s o); auto. eapply whole_foot; eauto. now apply nth_error_lt in C1.
Qed.
Lemma owns_alive s o b : Inv s -> owns E s o b -> allocation s b <> None.
Proof. intros I H. apply (foot_owns E AM s o) in H; auto. pose proof (foot_alive E s o b I H) as Ha. intros Hn. apply Ha. now apply alloc_none. Qed.
Lemma owns_lt s o b : Inv s -> owns E s o b -> b < s_next s.
Proof. intros I H. eapply alloc_lt; eauto. eapply owns_alive; eauto. Qed.
Lemma owns_one s o o' b : Inv s -> owns E s o b -> owns E s o' b -> o' = o.
Proof. intros I H H'. apply (foot_owns E AM s o) in H; auto. apply (foot_owns E AM s o') in H'; auto. apply (iv_sep E s I o' o b H' H). Qed.
Lemma owns_dec s o b : Inv s -> owns E s o b \/ ~ owns E s o b.
Proof.
  intros I. destruct (s_blk s b) as [k|] eqn:Hb.
  - destruct (iv_own _ _ I b) as (o' & Hf); [congruence|]. destruct (Nat.eq_dec o' o) as [->|Hne]; [left; now apply (foot_owns E AM s o)|]. right. intros H. apply Hne. eapply owns_one; eauto. now apply (foot_owns E AM s o').
  - right. intros H. apply (owns_alive s o b I H). now apply alloc_none.
Qed.

(** ** A failed mutation without updates changes nothing *)
Lemma failed_unchanged s s' o ms mk (up : updates) l : Inv s -> typed s -> failed E s s' o ms mk up l -> (forall i m c, up i m c -> c = None) -> unchanged s s'.
Proof.
  intros I Ty F Hup. split; [apply (fd_objects _ _ _ _ _ _ _ _ F)|]. intros b. split; [apply (fd_memory _ _ _ _ _ _ _ _ F)|]. split; [apply (fd_data _ _ _ _ _ _ _ _ F)|]. split; [|intros q; apply (fd_back _ _ _ _ _ _ _ _ F)].
  intros q. destruct (holds_dec s o (b, q) I Ty) as [(j & m & v & H)|Hn]; [|now apply (fd_other _ _ _ _ _ _ _ _ F)].
  destruct (fd_mixins _ _ _ _ _ _ _ _ F j m _ v H) as (v' & H' & Hc). pose proof H as (_ & _ & A). pose proof H' as (_ & _ & A'). rewrite A, A'. f_equal. f_equal. apply Hc.
  destruct (In_dec Nat.eq_dec m ms) as [Hi|Hi]; [|now apply (fd_quiet _ _ _ _ _ _ _ _ F)]. apply In_nth_error in Hi. destruct Hi as (i & Hi).
  destruct (fd_common _ _ _ _ _ _ _ _ F i j m _ v Hi H) as [|(f & src & err & Hu & _)]; auto. apply Hup in Hu. discriminate.
Qed.

(** ** Nothing happened *)
Lemma mutated_refl s o r t mk (up : updates) : Inv s -> typed s -> type_of s o r t -> (forall i m, up i m None) -> mutated E s s o r mk up [].
Proof.
  intros I Ty T Hup. constructor; auto.
  - unfold did. now rewrite app_nil_r.
  - eauto.
  - intros i m H Hn. destruct Hn. eexists; eauto.
  - intros i j m p v H Hh _. exists v, None. split; [|split; [apply Hup|split; reflexivity]]. destruct (mixin_holds s o i m I Ty H) as (p' & v' & H'). destruct (holds_index s o _ _ _ _ _ _ _ I Ty H' Hh) as (-> & -> & ->). auto.
  - intros i j m p v _ _ _ Hn. destruct Hn. eauto.
  - intros j m p v H Hn. destruct Hn. eapply holds_mixin; eauto.
  - intros o' q k _ H. exists (t_nobj k). now destruct k.
  - intros b _ _. repeat split.
  - intros b Hb. destruct (owns_dec s o b I); auto.
Qed.
Lemma unchanged_refl s : unchanged s s.
Proof. split; auto. intros b. repeat split. Qed.
Lemma failed_refl s o ms mk up : failed E s s o ms mk up [].
Proof.
  constructor; auto; intros.
  - unfold did. now rewrite app_nil_r.
  - eauto.
Qed.

(** ** Emptied objects *)
Lemma devs_at t dd u i m : NoDup (t_mixins t) -> nth_error (t_mixins t) i = Some m -> u <= length (t_mixins t) -> calls m (devs E t dd (full t) u) = if i <? u then destruction E m (md_mixin (dd i)) else [].
Proof.
  intros ND Hi. induction u as [|u IH]; intros Hu; [reflexivity|]. simpl devs. rewrite calls_app, IH by lia. destruct (Nat.eq_dec i u) as [->|Hne].
  - assert (u <? u = false) as -> by (apply Nat.ltb_ge; lia). assert (u <? S u = true) as -> by (apply Nat.ltb_lt; lia). rewrite (at_index t u m Hi). rewrite app_nil_r. unfold full.
    assert (u <? length (t_mixins t) = true) as -> by (apply Nat.ltb_lt; lia). simpl. unfold destruction. destruct (m_destroy _); auto. apply call_is.
  - assert (Hx : mixin_at t u <> m). { intros He. apply Hne. rewrite NoDup_nth_error in ND. apply ND; [now apply nth_error_lt in Hi|]. rewrite Hi, <- He. unfold mixin_at. symmetry. apply nth_error_nth'. lia. }
    assert (Hz : calls m (if full t u && m_destroy (e_mixin E (mixin_at t u)) then [EvCall FDestroy (mixin_at t u) (md_mixin (dd u)) None 0] else []) = []) by (destruct (full t u && _); auto; now apply call_not).
    rewrite Hz. simpl. assert (i <? S u = (i <? u)) as ->; auto. destruct (Nat.ltb_spec i (S u)), (Nat.ltb_spec i u); auto; lia.
Qed.
Lemma devs_other t dd u m f : ~ In m (t_mixins t) -> u <= length (t_mixins t) -> calls m (devs E t dd f u) = [].
Proof.
  intros Hi. induction u as [|u IH]; intros Hu; [reflexivity|]. simpl devs. rewrite calls_app, IH by lia. rewrite app_nil_r. destruct (f u && _); auto. apply call_not.
  intros <-. apply Hi. unfold mixin_at. apply nth_In. lia.
Qed.
Lemma fevs_other a t dd f u m : calls m (fevs E a t dd f u) = [].
Proof. induction u as [|u IH]; [reflexivity|]. simpl fevs. rewrite calls_app, IH, app_nil_r. destruct (f u); auto. destruct (md_buf (dd u)); auto. Qed.

Lemma same_block_eq s s' b : s_blk s' b = s_blk s b -> same_block s s' b.
Proof. intros H. unfold same_block, allocation, data_slot, instance, object_of. simpl. rewrite H. auto. Qed.

Lemma cleared_wiped s o x s' : Inv s -> typed s -> s_obj s o = Some x -> cleared E s o x s' -> exists l, wiped E s s' o l.
Proof.
  intros I Ty Ho C. assert (Hcm : forall c, owns E s o c -> allocation s c <> None /\ allocation s' c = None).
  { intros c Hc. split; [eapply owns_alive; eauto|]. apply alloc_none. apply (cl_free _ _ _ _ _ C). now apply (foot_owns E AM s o). }
  assert (Hfr : forall b, ~ owns E s o b -> same_block s s' b). { intros b Hb. apply same_block_eq. apply (cl_keep _ _ _ _ _ C). intros Hf. apply Hb. now apply (foot_owns E AM s o). }
  assert (Hob : forall o', o' <> o -> s_obj s' o' = s_obj s o'). { intros o' Hne. rewrite (cl_obj _ _ _ _ _ C). apply Nat.eqb_neq in Hne. now rewrite Hne. }
  assert (Htt : forall o' q t, o' <> o -> type_of s o' q t -> exists n, type_of s' o' q (set_nobj t n)).
  { intros o' q t Hne (z & A1 & A2 & A3). destruct (cl_type2 E s o x s' q t C A3) as (n & Hn). exists n, z. rewrite Hob by auto. auto. }
  pose proof (cl_log _ _ _ _ _ C) as Hl. destruct (o_data x) as [b|] eqn:Hb.
  - destruct Hl as (r & t & dd & Hr & Ht & P & Hw & Hlog). assert (W : whole E s o x b r t dd).
    { pose proof (whole_of E s o x b I Ho Hb) as (r1 & t1 & d1 & (_ & _ & B3 & B4 & B5 & _)). unfold whole. assert (r1 = r) as -> by congruence. assert (t1 = t) as -> by congruence. auto 10. }
    pose proof (tg_nodup _ _ _ (inv_good E AM s r t I Ht)) as ND. eexists. constructor; [exact Hlog| | |auto|auto|auto|auto].
    + intros j m p v Hh. destruct (holds_whole E s o _ _ _ _ x b r t dd W Hh) as (C1 & -> & _). rewrite !calls_app, fevs_other, (devs_at t dd _ j m ND C1) by auto. pose proof C1 as Hl. apply nth_error_lt in Hl.
      apply Nat.ltb_lt in Hl. rewrite Hl. simpl. now rewrite app_nil_r.
    + intros m Hn. rewrite !calls_app, fevs_other, devs_other; auto. rewrite <- (has_whole E s o x b r t dd m W). auto.
  - destruct Hl as [Hw Hlog]. exists []. constructor; auto.
    + unfold did. now rewrite app_nil_r.
    + intros j m p v Hh. exfalso. apply (has_nothing E s o x m I Ty Ho Hb). eapply holds_mixin; eauto.
Qed.
Lemma put_wiped s s1 o y l : wiped E s s1 o l -> wiped E s (set_obj s1 o y) o l.
Proof.
  intros [W1 W2 W3 W4 W5 W6 W7]. constructor; auto.
  - intros o' Hne. cbn. rewrite upd_other by auto. auto.
  - intros o' q t Hne Hq. destruct (W6 o' q t Hne Hq) as (n & z & A1 & A2). exists n, z. cbn. rewrite upd_other by auto. auto.
Qed.
Lemma emptied_wiped s o x y s' : Inv s -> typed s -> s_obj s o = Some x -> emptied E s o x y s' -> exists l, wiped E s s' o l.
Proof. intros I Ty Ho (s1 & C & ->). destruct (cleared_wiped s o x s1 I Ty Ho C) as (l & W). exists l. now apply put_wiped. Qed.

Lemma wiped_mutated s s' o y r t mk up l : Inv s -> typed s -> wiped E s s' o l -> s_obj s' o = Some y -> o_data y = None -> o_type y = Some r -> w_type (s_w s') r = Some t -> t_mixins t = [] ->
  mutated E s s' o r mk up l.
Proof.
  intros I Ty W Hy Hd Hr Ht Hn. assert (T : type_of s' o r t) by (exists y; auto).
  assert (Hm : forall i m, ~ has_mixin s' o i m). { intros i m (r' & t' & T' & Hm). destruct (type_of_fun _ _ _ _ _ _ T T') as [-> ->]. rewrite Hn in Hm. destruct i; discriminate. }
  assert (How : forall b, ~ owns E s' o b) by (intros b (z & c & A & B & _); congruence).
  constructor.
  - apply (wp_did _ _ _ _ _ W).
  - eauto.
  - intros i m H. destruct (Hm i m H).
  - intros i j m p v H. destruct (Hm i m H).
  - intros i j m p v H. destruct (Hm i m H).
  - intros j m p v Hh _. split; [apply (wp_calls _ _ _ _ _ W j m p v Hh)|]. apply (wp_freed _ _ _ _ _ W). eapply holds_owns; eauto.
  - intros m Hns _. now apply (wp_quiet _ _ _ _ _ W).
  - apply (wp_objects _ _ _ _ _ W).
  - apply (wp_types _ _ _ _ _ W).
  - intros b _ Hb. now apply (wp_frame _ _ _ _ _ W).
  - intros b Hb. left. destruct (owns_dec s o b I) as [Ho|Ho].
    + exfalso. apply Hb. apply (wp_freed _ _ _ _ _ W b Ho).
    + split; auto. destruct (wp_frame _ _ _ _ _ W b Ho) as (A & _). congruence.
  - intros b Hb. destruct (How b Hb).
Qed.

(** ** The outcome of a mutation *)
Lemma outcome_spec s o x r t np cp ord unw s' res mk up : Inv s -> typed s -> Inv s' -> typed s' -> outcome E U s o x r t np cp ord unw s' res ->
  (forall old r0 t0 ddo, setup E s o x old r t (o_data x) r0 t0 ddo -> match o_data x with Some _ => o_type x = Some r0 /\ t_mixins t0 <> [] | None => t_mixins t0 = [] end ->
    (forall i m f src, nth_error (t_mixins t) i = Some m -> np t0 i = Some (f, src) -> mk i m f src /\ (forall q, src = Some q -> exists v, instance s q = Some {| i_mixin := m; i_val := v |})) /\
    (forall i m, nth_error (t_mixins t) i = Some m -> up i m (act_of (cp i)) /\ (forall q, cp i = CCopy q -> exists v, instance s q = Some {| i_mixin := m; i_val := v |}))) ->
  match res with
  | Ok _ => o_sealed x = false /\ if unw then exists l, failed E s s' o (t_mixins t) mk up l else exists l, mutated E s s' o r mk up l
  | Throw _ => exists l, failed E s s' o (t_mixins t) mk up l
  | Ub _ => False
  end.
Proof.
  intros I Ty I' Ty' H Hp. destruct H as [old r0 t0 ddo SU H0 Hu Hse Hr Hc|old r0 t0 ddo SU H0 Hu Hse Hr Hc|old r0 t0 ddo SU H0 Hu Hse Hc|old r0 t0 ddo e SU H0 Hc Hre]; destruct (Hp old r0 t0 ddo SU H0) as [H1 H2].
  - subst unw. split; auto. eapply same_mutated; eauto.
  - subst unw. split; auto. eapply done_mutated; eauto.
  - subst unw. split; auto. eapply given_up_failed; eauto.
  - eapply given_up_failed; eauto.
Qed.

(** plans with overrides *)
Lemma ov_spec s o x r t ov uv (ovr uvr : mptr -> nat -> Prop) unw s' res ord : Inv s -> typed s -> Inv s' -> typed s' ->
  outcome E U s o x r t (fun _ => ov_new E t ov) (up_com uv) ord unw s' res ->
  (forall i m k, nth_error (t_mixins t) i = Some m -> (ov i = Some k <-> ovr m k)) -> (forall i m k, nth_error (t_mixins t) i = Some m -> (uv i = Some k <-> uvr m k)) ->
  match res with
  | Ok _ => o_sealed x = false /\ if unw then exists l, failed E s s' o (t_mixins t) (made_with E ovr) (updated_with uvr) l else exists l, mutated E s s' o r (made_with E ovr) (updated_with uvr) l
  | Throw _ => exists l, failed E s s' o (t_mixins t) (made_with E ovr) (updated_with uvr) l
  | Ub _ => False
  end.
Proof.
  intros I Ty I' Ty' H Ho Hu. eapply outcome_spec; eauto. intros old r0 t0 ddo SU H0. split.
  - intros i m f src Hm Hn. unfold ov_new in Hn. assert (src = None /\ made_with E ovr i m f src) as [-> Hk]; [|split; auto; discriminate]. unfold made_with. destruct (ov i) as [k|] eqn:Hk.
    + injection Hn as <- <-. split; auto. split; auto. left. exists k. split; auto. eapply Ho; eauto.
    + unfold def_new in Hn. rewrite Hm in Hn. destruct (m_init _) eqn:Hi; [|discriminate]. injection Hn as <- <-. split; auto. split; auto. right. split; auto. intros k Hx. eapply Ho in Hx; eauto. congruence.
  - intros i m Hm. unfold up_com. destruct (uv i) as [k|] eqn:Hk; (split; [|discriminate]).
    + left. exists k. split; [eapply Hu; eauto|reflexivity].
    + right. split; [|reflexivity]. intros k Hx. eapply Hu in Hx; eauto. congruence.
Qed.

Lemma mutated_weak s s' o r (mk mk' : makes) (up up' : updates) l : (forall i m f src, mk i m f src -> mk' i m f src) -> (forall i m c, up i m c -> up' i m c) -> mutated E s s' o r mk up l -> mutated E s s' o r mk' up' l.
Proof.
  intros Hk Hu [M1 M2 M3 M4 M5 M6 M7 M8 M9 M10 M11 M12]. constructor; auto.
  - intros i m A B. destruct (M3 i m A B) as (p & v & f & src & C1 & C2 & C3 & C4). exists p, v, f, src. split; auto.
  - intros i j m p v A B C. destruct (M4 i j m p v A B C) as (v' & c & D1 & D2 & D3). exists v', c. split; auto.
  - intros i j m p v A B C D. destruct (M5 i j m p v A B C D) as (p' & v' & c & D1 & D2 & D3 & D4 & D5). exists p', v', c. auto 10.
Qed.
Lemma failed_weak s s' o ms (mk mk' : makes) (up up' : updates) l : (forall i m f src, mk i m f src -> mk' i m f src) -> (forall i m c, up i m c -> up' i m c) -> failed E s s' o ms mk up l -> failed E s s' o ms mk' up' l.
Proof.
  intros Hk Hu [M1 M2 M3 M4 M5 M6 M7 M8 M9 M10 M11]. constructor; auto.
  - intros i m A B. destruct (M9 i m A B) as [C|(p & f & src & C & D)]; auto. right. exists p, f, src. auto.
  - intros i j m p v A B. destruct (M10 i j m p v A B) as [C|(f & src & e & C & D)]; auto. right. exists f, src, e. auto.
Qed.
Lemma made_default i m f src : made_with E (fun _ _ => False) i m f src -> default_made E i m f src.
Proof. intros (-> & [(k & [] & _)|(_ & H)]). destruct H. repeat split; auto. Qed.
Lemma updated_none i m c : updated_with (fun _ _ => False) i m c -> no_updates i m c.
Proof. intros [(k & [] & _)|(_ & H)]; auto. Qed.

(** ** After the type was made *)
Definition same_view (s s1 : st) (o : nat) : Prop := s_obj s1 = s_obj s /\ s_blk s1 = s_blk s /\ s_log s1 = s_log s /\ forall o' r t, type_of s o' r t -> type_of s1 o' r t.
Lemma view_type s s1 o r t : same_view s s1 o -> with_type_set s o -> Inv s -> typed s -> (type_of s1 o r t <-> type_of s o r t).
Proof.
  intros (V1 & V2 & V3 & V4) (x & Hx & Hn) I Ty. destruct (the_type_ok E s o x I Ty Hx Hn) as (q & k & Hq & Hk & _). assert (T : type_of s o q k) by (exists x; auto). split; auto.
  intros T1. destruct (type_of_fun _ _ _ _ _ _ (V4 o q k T) T1) as [-> ->]. auto.
Qed.
Section View.
Variables (s s1 : st) (o : nat).
Hypothesis V : same_view s s1 o.
Hypothesis I : Inv s.
Hypothesis Ty : typed s.
Hypothesis Ts : with_type_set s o.
Lemma view_mixin i m : has_mixin s1 o i m <-> has_mixin s o i m.
Proof. split; intros (r & t & T & H); exists r, t; split; auto; apply (view_type s s1 o r t V Ts I Ty); auto. Qed.
Lemma view_some m : has_some s1 o m <-> has_some s o m.
Proof. split; intros (i & H); exists i; now apply view_mixin. Qed.
Lemma view_holds i m p v : holds s1 o i m p v <-> holds s o i m p v.
Proof.
  destruct V as (V1 & V2 & V3 & V4). destruct Ts as (x & Hx & Hn). destruct (the_type_ok E s o x I Ty Hx Hn) as (q & k & Hq & Hk & H0). assert (T : type_of s o q k) by (exists x; auto).
  assert (Hg : get_at s1 o i = get_at s o i).
  { unfold get_at. assert (Hx1 : s_obj s1 o = Some x) by congruence. rewrite (bnd_ok _ _ _ _ _ (get_obj_step s o x Hx)), (bnd_ok _ _ _ _ _ (get_obj_step s1 o x Hx1)).
    pose proof (V4 o q k T) as (y & B1 & B2 & B3). assert (y = x) as -> by congruence. rewrite (bnd_ok _ _ _ _ _ (the_type_step s x q k Hq Hk)), (bnd_ok _ _ _ _ _ (the_type_step s1 x q k Hq B3)). cbn [snd].
    destruct (i <? num_mixins k); auto. unfold data_at. destruct (o_data x) as [b|]; auto. unfold read_data, get_blk, bnd. rewrite V2. destruct (s_blk s b) as [z|]; auto. destruct (b_data z i); auto. }
  unfold holds. rewrite Hg, view_mixin. unfold instance. rewrite V2. tauto.
Qed.
Lemma view_alloc b : allocation s1 b = allocation s b.
Proof. unfold allocation. destruct V as (_ & -> & _). auto. Qed.
Lemma view_inst p : instance s1 p = instance s p.
Proof. unfold instance. destruct V as (_ & -> & _). auto. Qed.
Lemma view_data b i : data_slot s1 b i = data_slot s b i.
Proof. unfold data_slot. destruct V as (_ & -> & _). auto. Qed.
Lemma view_back p : object_of s1 p = object_of s p.
Proof. unfold object_of. destruct V as (_ & -> & _). auto. Qed.
Lemma view_owns b : owns E s1 o b <-> owns E s o b.
Proof.
  unfold owns. destruct V as (V1 & _). rewrite V1. split; intros (x & c & A & B & C); exists x, c; split; auto; split; auto; (destruct C as [C|(i & m & d & C1 & C2 & C3 & C4)]; [auto|right; exists i, m, d]).
  - rewrite view_data in C3. apply view_mixin in C1. auto.
  - rewrite view_data. apply view_mixin in C1. auto.
Qed.
Lemma view_from m src v : value_from s1 m src v <-> value_from s m src v.
Proof. unfold value_from. split; intros H p Hp; specialize (H p Hp); now rewrite view_inst in *. Qed.
Lemma view_after m v c v' : value_after s1 m v c v' <-> value_after s m v c v'.
Proof. unfold value_after. destruct c as [[f src]|]; [apply view_from|tauto]. Qed.
Lemma view_block s' b : same_block s1 s' b <-> same_block s s' b.
Proof.
  unfold same_block. rewrite view_alloc. split; intros (A & B & C & D); (split; [exact A|]); (split; [|split]); intros q.
  - now rewrite B, view_data. - now rewrite C, view_inst. - now rewrite D, view_back.
  - now rewrite B, view_data. - now rewrite C, view_inst. - now rewrite D, view_back.
Qed.

Lemma view_mutated s' r mk up l : mutated E s1 s' o r mk up l -> mutated E s s' o r mk up l.
Proof.
  intros [M1 M2 M3 M4 M5 M6 M7 M8 M8b M9 M10 M11]. destruct V as (V1 & V2 & V3 & V4). assert (Hty : forall r, (exists t, type_of s1 o r t) <-> exists t, type_of s o r t).
  { intros q. split; intros (t & T); exists t; apply (view_type s s1 o q t V Ts I Ty); auto. }
  constructor.
  - unfold did in *. congruence.
  - auto.
  - intros i m A B. rewrite <- view_some in B. destruct (M3 i m A B) as (p & v & f & src & C1 & C2 & C3 & C4 & C5). exists p, v, f, src. rewrite <- view_alloc, <- view_from. auto 10.
  - intros i j m p v A B C. rewrite <- view_holds in B. rewrite <- Hty in C. destruct (M4 i j m p v A B C) as (v' & c & D1 & D2 & D3 & D4). exists v', c. rewrite <- view_after. auto.
  - intros i j m p v A B C D. rewrite <- view_holds in B. rewrite <- Hty in D. destruct (M5 i j m p v A B C D) as (p' & v' & c & D1 & D2 & D3 & D4 & D5 & D6). exists p', v', c. rewrite <- view_after, <- view_alloc. auto 10.
  - intros j m p v A B. rewrite <- view_holds in A. eauto.
  - intros m A B. rewrite <- view_some in A. eauto.
  - intros o' Hne. rewrite M8 by auto. now rewrite V1.
  - intros o' q t Hne T. apply M8b; auto.
  - intros b A B. rewrite <- view_alloc in A. rewrite <- view_owns in B. apply view_block. auto.
  - intros b A. rewrite <- view_alloc, <- view_owns. auto.
  - intros b A. rewrite <- view_alloc, <- view_owns. auto.
Qed.
Lemma view_failed s' ms mk up l : failed E s1 s' o ms mk up l -> failed E s s' o ms mk up l.
Proof.
  intros [M1 M2 M2b M3 M4 M5 M6 M7 M8 M9 M10]. destruct V as (V1 & V2 & V3 & V4). constructor; auto.
  - unfold did in *. congruence.
  - intros o'. rewrite M2. now rewrite V1.
  - intros b. now rewrite M3, view_alloc.
  - intros b i. now rewrite M4, view_data.
  - intros p. now rewrite M5, view_back.
  - intros p A. rewrite <- view_inst. apply M6. intros j m v B. apply (A j m v). now apply view_holds.
  - intros j m p v A. rewrite <- view_holds in A. auto.
  - intros i m A B. rewrite <- view_some in B. eauto.
  - intros i j m p v A B. rewrite <- view_holds in B. eauto.
Qed.
Lemma view_unchanged s' : unchanged s1 s' -> unchanged s s'.
Proof. intros [A B]. destruct V as (V1 & _). split; [intros o'; rewrite A; now rewrite V1|]. intros b. apply view_block. auto. Qed.
End View.
End Mut2.
