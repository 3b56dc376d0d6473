(** From the internal description of the outcome of a mutation to the one of the specification *)
From Coq Require Import List Arith ZArith NArith Lia Bool.
From Verif Require Import Base Sv BaseLemmas Info TypeBuild TypeQuery Domain TypesProofs SpecDom HistProofs DomTheorems SpecLayout Heap HeapProofs Mutation Object SpecObj SpecMut
  PartProofs RollProofs AllocProofs UpdProofs FinProofs PerfProofs WorldProofs ObjProofs OpProofs PlanProofs ActProofs ActProofs2.
Import ListNotations.

(** ** The calls in a list of events *)
Lemma calls_app m l l' : calls m (l ++ l') = calls m l ++ calls m l'.
Proof. apply filter_app. Qed.
Lemma calls_none {A} m (f : A -> list ev) l : (forall a, In a l -> calls m (f a) = []) -> calls m (flat_map f l) = [].
Proof. induction l as [|a l IH]; simpl; auto. intros H. rewrite calls_app, H, IH; auto. Qed.
Lemma calls_pick {A} m (f : A -> list ev) l a : NoDup l -> In a l -> (forall b, In b l -> b <> a -> calls m (f b) = []) -> calls m (flat_map f l) = calls m (f a).
Proof.
  induction l as [|b l IH]; simpl; [tauto|]. intros Hn Ha Hz. apply NoDup_cons_iff in Hn. destruct Hn as [Hb Hn]. rewrite calls_app. destruct Ha as [->|Ha].
  - rewrite (calls_none m f l), app_nil_r; auto. intros c Hc. apply Hz; auto. intros ->. auto.
  - rewrite (Hz b), IH; auto. intros ->. auto.
Qed.
Lemma at_index t i m : nth_error (t_mixins t) i = Some m -> mixin_at t i = m.
Proof. intros H. unfold mixin_at. now rewrite (nth_error_nth _ _ 0 H). Qed.

(** Events that belong to the mixins of a list *)
Section Listed.
Variable t : type_rec.
Hypothesis ND : NoDup (t_mixins t).
Variable f : nat -> list ev.
Hypothesis Hf : forall i m, mixin_at t i <> m -> calls m (f i) = [].
Lemma calls_at m i k : nth_error (t_mixins t) i = Some m -> k <= length (t_mixins t) -> calls m (flat_map f (seq 0 k)) = if i <? k then calls m (f i) else [].
Proof.
  intros Hi Hk. assert (Hne : forall j, j < k -> j <> i -> calls m (f j) = []).
  { intros j Hj Hji. apply Hf. intros He. apply Hji. rewrite NoDup_nth_error in ND. apply ND; [lia|].
    rewrite Hi. rewrite <- He. unfold mixin_at. apply nth_error_nth'. lia. }
  destruct (Nat.ltb_spec i k) as [Hl|Hl].
  - apply calls_pick; [apply seq_NoDup|apply in_seq; lia|]. intros j Hj Hji. apply in_seq in Hj. apply Hne; auto; lia.
  - apply calls_none. intros j Hj. apply in_seq in Hj. apply Hne; lia.
Qed.
Lemma calls_out m k : ~ In m (t_mixins t) -> k <= length (t_mixins t) -> calls m (flat_map f (seq 0 k)) = [].
Proof.
  intros Hi Hk. apply calls_none. intros j Hj. apply in_seq in Hj. apply Hf. intros <-. apply Hi. unfold mixin_at. apply nth_In. lia.
Qed.
End Listed.

Lemma call_is m f p src e l : calls m (EvCall f m p src e :: l) = EvCall f m p src e :: calls m l.
Proof. unfold calls. simpl. now rewrite Nat.eqb_refl. Qed.
Lemma call_not m m' f p src e l : m' <> m -> calls m (EvCall f m' p src e :: l) = calls m l.
Proof. intros H. unfold calls. simpl. destruct (Nat.eqb_spec m' m); congruence. Qed.

Section Mut.
Variable E : env.
Variable U : user.
Hypothesis AM : aligned_mixins E.
Notation Inv := (Inv E).


Lemma calls_dst m p : calls m (dst E m p) = destruction E m p.
Proof. unfold dst, destruction. destruct (m_destroy _); auto. apply call_is. Qed.
Lemma calls_dst_not m m' p : m' <> m -> calls m (dst E m' p) = [].
Proof. intros H. unfold dst. destruct (m_destroy _); auto. now apply call_not. Qed.

(** ** Objects as the program sees them *)
Lemma type_of_fun s o r t r' t' : type_of s o r t -> type_of s o r' t' -> r' = r /\ t' = t.
Proof. intros (x & A1 & A2 & A3) (y & B1 & B2 & B3). assert (y = x) as -> by congruence. assert (r' = r) as -> by congruence. split; congruence. Qed.
Lemma mixin_whole s o i m : Inv s -> typed s -> has_mixin s o i m -> exists x b r t dd, whole E s o x b r t dd /\ nth_error (t_mixins t) i = Some m.
Proof.
  intros I Ty (r & t & (x & A1 & A2 & A3) & Hm). destruct (o_data x) as [b|] eqn:Hb.
  - destruct (whole_of E s o x b I A1 Hb) as (r' & t' & dd & W). pose proof W as (_ & _ & B3 & B4 & _). exists x, b, r', t', dd. split; auto.
    assert (r' = r) as -> by congruence. assert (t' = t) as -> by congruence. auto.
  - exfalso. pose proof (Ty o x A1 Hb) as Hx. rewrite A2 in Hx. destruct r as [d|q]; [|destruct Hx]. destruct (type_empty E (s_w s) d (iv_reach _ _ I)) as (k & Hk).
    rewrite Hk in A3. injection A3 as <-. destruct i; discriminate.
Qed.
Lemma whole_type s o x b r t dd : whole E s o x b r t dd -> type_of s o r t.
Proof. intros (A1 & A2 & A3 & A4 & _). exists x. auto. Qed.
Lemma whole_get s o x b r t dd i m : whole E s o x b r t dd -> nth_error (t_mixins t) i = Some m -> get_at s o i = Ok (Some (md_mixin (dd i))).
Proof.
  intros W Hm. pose proof W as (A1 & A2 & A3 & A4 & _). unfold get_at. rewrite (bnd_ok _ _ _ _ _ (get_obj_step s o x A1)). unfold the_type. rewrite A3.
  rewrite (bnd_ok _ _ _ _ _ (bnd_ok _ _ _ _ _ (get_ty_step s r t A4))). cbn [snd]. unfold num_mixins. pose proof Hm as Hl. apply nth_error_lt in Hl.
  destruct (Nat.ltb_spec i (length (t_mixins t))); [|lia]. unfold data_at. rewrite A2.
  rewrite (bnd_ok _ _ _ _ _ (bnd_ok _ _ _ _ _ (read_data_step s b i (dd i) (whole_dat E s o x b r t dd i W Hl)))). reflexivity.
Qed.
Lemma whole_holds s o x b r t dd i m v : whole E s o x b r t dd -> nth_error (t_mixins t) i = Some m -> binst (s_blk s) (md_mixin (dd i)) = Some {| i_mixin := m; i_val := v |} ->
  holds s o i m (md_mixin (dd i)) v.
Proof.
  intros W Hm Hv. split; [|split]; auto.
  - exists r, t. split; auto. eapply whole_type; eauto.
  - eapply whole_get; eauto.
Qed.
Lemma holds_whole s o i m p v x b r t dd : whole E s o x b r t dd -> holds s o i m p v -> nth_error (t_mixins t) i = Some m /\ p = md_mixin (dd i) /\ binst (s_blk s) p = Some {| i_mixin := m; i_val := v |}.
Proof.
  intros W ((r' & t' & Ht & Hm) & Hg & Hv). destruct (type_of_fun _ _ _ _ _ _ (whole_type _ _ _ _ _ _ _ W) Ht) as [-> ->]. split; auto. split; auto.
  rewrite (whole_get _ _ _ _ _ _ _ i m W Hm) in Hg. congruence.
Qed.
Lemma has_whole s o x b r t dd m : whole E s o x b r t dd -> (has_some s o m <-> In m (t_mixins t)).
Proof.
  intros W. split.
  - intros (i & r' & t' & Ht & Hm). destruct (type_of_fun _ _ _ _ _ _ (whole_type _ _ _ _ _ _ _ W) Ht) as [-> ->]. now apply nth_error_In in Hm.
  - intros Hm. apply In_nth_error in Hm. destruct Hm as (i & Hi). exists i, r, t. split; auto. eapply whole_type; eauto.
Qed.
Lemma has_nothing s o x m : Inv s -> typed s -> s_obj s o = Some x -> o_data x = None -> ~ has_some s o m.
Proof. intros I Ty Ho Hb (i & Hm). destruct (mixin_whole s o i m I Ty Hm) as (x' & b & r & t & dd & (A1 & A2 & _) & _). congruence. Qed.

Lemma foot_owns s o c : Inv s -> (ObjProofs.foot s o c <-> owns E s o c).
Proof.
  intros I. split.
  - intros (x & b & r & t & A1 & A2 & A3 & A4 & A5). exists x, b. split; auto. split; auto. destruct A5 as [->|(i & m & d & Hs & Hd & Hb)]; auto. right.
    exists i, m, d. split. { exists r, t. split; [exists x; auto|]. apply Hs. } split; auto. apply (tg_ext _ _ _ (inv_good E AM s r t I A4) _ _ _ Hs). auto.
  - intros (x & b & A1 & A2 & A5). destruct (whole_of E s o x b I A1 A2) as (r & t & dd & W). pose proof W as (_ & _ & A3 & A4 & _). exists x, b, r, t.
    split; auto. split; auto. split; auto. split; auto. destruct A5 as [->|(i & m & d & (r' & t' & Ht & Hm) & He & Hd & Hb)]; auto. right. exists i, m, d.
    destruct (type_of_fun _ _ _ _ _ _ (whole_type _ _ _ _ _ _ _ W) Ht) as [-> ->]. pose proof (inv_good E AM s r t I A4) as G. pose proof Hm as Hl. apply nth_error_lt in Hl.
    destruct (slot_ex E _ t i G Hl) as (m' & off & Hs). assert (m' = m) as -> by (destruct Hs; congruence). split; auto.
    apply (tg_ext _ _ _ G _ _ _ Hs) in He. now subst off.
Qed.

Lemma agree_same s s' b : agree (s_blk s) (s_blk s') b -> same_block s s' b.
Proof. intros (A1 & A2 & A3 & A4). split; [exact A1|]. split; [exact A2|]. split; [exact A3|exact A4]. Qed.

Lemma alloc_none s b : allocation s b = None <-> s_blk s b = None.
Proof. apply battr_none. Qed.
Lemma alloc_lt s b : Inv s -> allocation s b <> None -> b < s_next s.
Proof. intros I H. destruct (Nat.lt_ge_cases b (s_next s)) as [|Hc]; auto. exfalso. apply H. apply alloc_none. now apply (iv_next _ _ I). Qed.

(** ** A mutation that was done *)
Section Done.
Variables (s : st) (o : nat) (x : obj) (old : option (tref * type_rec)) (r : tref) (t : type_rec) (r0 : tref) (t0 : type_rec) (ddo : nat -> mdata).
Variables (np : nat -> option (fn * option addr)) (cp : nat -> cact) (mk : makes) (up : updates) (s' : st).
Hypothesis I : Inv s.
Hypothesis Ty : typed s.
Hypothesis SU : setup E s o x old r t (o_data x) r0 t0 ddo.
Hypothesis H0 : match o_data x with Some _ => o_type x = Some r0 /\ t_mixins t0 <> [] | None => t_mixins t0 = [] end.
Hypothesis I' : Inv s'.
Hypothesis Ty' : typed s'.
Definition act_of (c : cact) : option (fn * option addr) := match c with CNone => None | CUpd k => Some (FUpdate k, None) | CCopy q => Some (FCopyAsgn, Some q) end.
Hypothesis Hmk : forall i m f src, nth_error (t_mixins t) i = Some m -> np i = Some (f, src) -> mk i m f src /\ (forall q, src = Some q -> exists v, instance s q = Some {| i_mixin := m; i_val := v |}).
Hypothesis Hup : forall i m, nth_error (t_mixins t) i = Some m -> up i m (act_of (cp i)) /\ (forall q, cp i = CCopy q -> exists v, instance s q = Some {| i_mixin := m; i_val := v |}).
Notation ob := (o_data x).
Notation n := (length (t_mixins t)).
Notation mid := (w_mid (s_w s)).
Notation oidx := (oidx s ob t0).
Notation nw := (nw s t ob t0).
Notation cev dd := (cev s t ob t0 ddo dd np cp).

Let G := su_good _ _ _ _ _ _ _ _ _ _ _ SU.
Lemma old_whole b : ob = Some b -> whole E s o x b r0 t0 ddo /\ tgood E mid t0.
Proof.
  intros Hb. destruct (su_old _ _ _ _ _ _ _ _ _ _ _ SU b Hb) as (_ & A2 & A3 & _ & P). rewrite Hb in H0. destruct H0 as [B1 B2]. split; auto. unfold whole.
  split; [apply (su_obj _ _ _ _ _ _ _ _ _ _ _ SU)|]. auto 10.
Qed.
Lemma held j m p v : holds s o j m p v -> exists b, ob = Some b /\ nth_error (t_mixins t0) j = Some m /\ p = md_mixin (ddo j) /\ instance s p = Some {| i_mixin := m; i_val := v |} /\ oidx m = Some j.
Proof.
  intros H. pose proof H as (Hm & _). destruct (mixin_whole s o j m I Ty Hm) as (x' & b & r' & t' & dd & W & _). pose proof (su_obj _ _ _ _ _ _ _ _ _ _ _ SU) as Ho.
  pose proof W as (A1 & A2 & _). assert (x' = x) as -> by congruence. exists b. split; auto. destruct (old_whole b A2) as [W0 G0].
  destruct (holds_whole s o j m p v x b r0 t0 ddo W0 H) as (B1 & B2 & B3). split; auto. split; auto. split; auto. unfold AllocProofs.oidx. rewrite A2. now apply (tg_idx _ _ _ G0).
Qed.
Lemma oidx_has m j i : nth_error (t_mixins t) i = Some m -> oidx m = Some j -> has_some s o m /\ nth_error (t_mixins t0) j = Some m.
Proof.
  intros Hm Hj. pose proof (oidx_in _ _ _ _ _ _ _ _ _ _ _ SU m j i Hm Hj) as H. split; auto. unfold AllocProofs.oidx in Hj. revert Hj. case_eq (o_data x); [intros b Hb _|discriminate].
  apply (has_whole s o x b r0 t0 ddo); [now apply old_whole|]. now apply nth_error_In in H.
Qed.
Lemma nw_has i m : nth_error (t_mixins t) i = Some m -> (nw i = true <-> ~ has_some s o m).
Proof.
  intros Hm. unfold AllocProofs.nw. rewrite Hm. destruct (oidx m) as [j|] eqn:Hj.
  - destruct (oidx_has m j i Hm Hj). split; [discriminate|tauto].
  - split; auto. intros _ (j & Hj'). destruct (mixin_whole s o j m I Ty Hj') as (x' & b & r' & t' & dd & W & Hn). pose proof W as (A1 & A2 & A3 & A4 & _).
    pose proof (su_obj _ _ _ _ _ _ _ _ _ _ _ SU) as Ho. assert (x' = x) as -> by congruence. destruct (old_whole b A2) as [W0 G0].
    destruct (type_of_fun _ _ _ _ _ _ (whole_type _ _ _ _ _ _ _ W0) (whole_type _ _ _ _ _ _ _ W)) as [-> ->]. unfold AllocProofs.oidx in Hj. rewrite A2 in Hj.
    rewrite (tg_idx _ _ _ G0 m j Hn) in Hj. discriminate.
Qed.
Lemma own_type : (exists q, type_of s o r q) <-> o_type x = Some r.
Proof.
  pose proof (su_obj _ _ _ _ _ _ _ _ _ _ _ SU) as Ho. split.
  - intros (q & y & A1 & A2 & _). congruence.
  - intros H. exists t, x. split; auto. split; auto. apply (su_ty _ _ _ _ _ _ _ _ _ _ _ SU).
Qed.

Lemma cev_not dd i m : mixin_at t i <> m -> calls m (cev dd i) = [].
Proof.
  intros H. unfold UpdProofs.cev. destruct (nw i).
  - destruct (np i) as [[f src]|]; auto. now apply call_not.
  - destruct (AllocProofs.oidx s ob t0 (mixin_at t i)); auto. destruct (cp i); auto; now apply call_not.
Qed.
Lemma cev_new dd i m f src : nth_error (t_mixins t) i = Some m -> nw i = true -> np i = Some (f, src) -> calls m (cev dd i) = [EvCall f m (md_mixin (dd i)) src 0].
Proof. intros Hm Hn Hp. unfold UpdProofs.cev. rewrite Hn, Hp, (at_index t i m Hm). apply call_is. Qed.
Lemma cev_com dd i m j : nth_error (t_mixins t) i = Some m -> oidx m = Some j -> calls m (cev dd i) = worked m (md_mixin (ddo j)) (act_of (cp i)).
Proof.
  intros Hm Hj. unfold UpdProofs.cev. assert (Hn : nw i = false) by (unfold AllocProofs.nw; now rewrite Hm, Hj). rewrite Hn, (at_index t i m Hm), Hj. destruct (cp i); auto; apply call_is.
Qed.
Lemma aevs_calls tb dd k m : calls m (aevs E s x t ob t0 tb dd k) = [].
Proof.
  unfold aevs. simpl. apply calls_none. intros i _. unfold aev. destruct (AllocProofs.nw s t ob t0 i); auto. destruct (md_buf (dd i)); auto.
Qed.
Notation fev dd := (fev E s x t t0 ddo dd).
Lemma fev_not dd j m : mixin_at t0 j <> m -> calls m (fev dd j) = [].
Proof.
  intros H. unfold FinProofs.fev. destruct (inT s t t0 j).
  - destruct (md_buf (ddo j)); auto. rewrite call_not; auto. now apply calls_dst_not.
  - rewrite calls_app, calls_dst_not; auto. destruct (md_buf (ddo j)); auto.
Qed.
Lemma fins_calls dd m : calls m (fins E s x t ob t0 ddo dd) = match ob with Some _ => calls m (flat_map (fev dd) (seq 0 (length (t_mixins t0)))) | None => [] end.
Proof. unfold fins. destruct ob; auto. rewrite calls_app. simpl. apply app_nil_r. Qed.
Lemma value_act m v oi v' i q : nth_error (t_mixins t) i = Some m -> q = md_mixin (ddo oi) -> instance s q = Some {| i_mixin := m; i_val := v |} -> vc_ok s ddo cp i oi v' -> value_after s m v (act_of (cp i)) v'.
Proof.
  intros Hm -> Hv Hc. unfold vc_ok in Hc. destruct (Hup i m Hm) as [_ Hu]. destruct (cp i) as [|k|src]; simpl in *.
  - rewrite Hc. unfold v0, oaddr. unfold instance in Hv. unfold binst. now rewrite Hv.
  - intros p. discriminate.
  - intros p [= <-]. destruct (Hu src eq_refl) as (w & Hw). rewrite Hw. f_equal. f_equal. symmetry. exact (Hc _ Hw).
Qed.

Lemma done_mutated : o_type x <> Some r -> done_to E s o x r t ob r0 t0 ddo np cp s' -> exists l, mutated E s s' o r mk up l.
Proof.
  intros Hr (tb & dd & oldv & newv & s1 & DM & Hlog & Hnf & Hcom & Hnx & Hlim & Hnew & Hcv).
  pose proof (su_obj _ _ _ _ _ _ _ _ _ _ _ SU) as Ho.
  assert (Hst : same_type (new_mut o x old r t) = false). { destruct (same_type _) eqn:H; auto. apply (same_type_iff E s o x old r t ob r0 t0 ddo SU) in H. congruence. }
  set (x' := {| o_type := Some r; o_data := Some tb; o_alloc := o_alloc x; o_sealed := o_sealed x |}).
  assert (Ho' : s_obj s' o = Some x') by (rewrite (dm_obj _ _ _ _ _ _ _ _ _ _ _ _ _ _ _ _ DM); apply upd_same).
  assert (exists t', whole E s' o x' tb r t' dd /\ t_mixins t' = t_mixins t) as (t' & W' & Hmx).
  { destruct (whole_of E s' o x' tb I' Ho' eq_refl) as (r' & t' & dd' & A1 & A2 & A3 & A4 & A5 & _). assert (r' = r) as -> by (simpl in A3; congruence). pose proof A4 as A4'.
    rewrite (dm_w _ _ _ _ _ _ _ _ _ _ _ _ _ _ _ _ DM) in A4. destruct (w2_type E s o x old r t r0 t0 ddo SU H0 r t' Hst A4) as (k0 & B1 & B2 & _).
    pose proof (su_ty _ _ _ _ _ _ _ _ _ _ _ SU) as Ht. assert (k0 = t) as -> by congruence. exists t'. split; [|rewrite B2; reflexivity]. unfold whole. repeat (split; [assumption|]).
    rewrite B2. apply part_nobj. exact (dm_part _ _ _ _ _ _ _ _ _ _ _ _ _ _ _ _ DM). }
  assert (Hhas : forall i m, has_mixin s' o i m -> nth_error (t_mixins t) i = Some m).
  { intros i m (r1 & t1 & Ht1 & Hm). destruct (type_of_fun _ _ _ _ _ _ (whole_type _ _ _ _ _ _ _ W') Ht1) as [-> ->]. congruence. }
  assert (Hhs : forall m, has_some s' o m <-> In m (t_mixins t)) by (intros m; rewrite (has_whole s' o x' tb r t' dd m W'), Hmx; tauto).
  assert (Hmem : forall c, s_blk s' c <> None -> c < s_next s /\ ~ ObjProofs.foot s o c \/ ObjProofs.foot s' o c).
  { intros c Hc. destruct (dm_own _ _ _ _ _ _ _ _ _ _ _ _ _ _ _ _ DM c Hc) as [[A B]|A].
    - left. split; auto. now rewrite (su_foot E s o x old r t r0 t0 ddo SU H0).
    - right. pose proof W' as (B1 & B2 & B3 & B4 & _ & P). apply (foot_fp E s' o x' tb r t' dd c B1 B2 B3 B4 P). destruct A as [->|(i & m & A1 & A2 & A3)]; [now left|]. right. exists i, m.
      split; [|split; auto]. + destruct A1. split; [congruence|]. rewrite (dm_w _ _ _ _ _ _ _ _ _ _ _ _ _ _ _ _ DM) in B4.
        destruct (w2_type E s o x old r t r0 t0 ddo SU H0 r t' Hst B4) as (k0 & C1 & C2 & _). pose proof (su_ty _ _ _ _ _ _ _ _ _ _ _ SU). assert (k0 = t) as -> by congruence. rewrite C2. auto.
      + unfold full in *. now rewrite Hmx. }
  assert (Hf' : forall c, ObjProofs.foot s' o c <-> fp t tb dd (full t) c).
  { intros c. pose proof W' as (B1 & B2 & B3 & B4 & _ & P). rewrite (foot_fp E s' o x' tb r t' dd c B1 B2 B3 B4 P). rewrite (dm_w _ _ _ _ _ _ _ _ _ _ _ _ _ _ _ _ DM) in B4.
    destruct (w2_type E s o x old r t r0 t0 ddo SU H0 r t' Hst B4) as (k0 & C1 & C2 & _). pose proof (su_ty _ _ _ _ _ _ _ _ _ _ _ SU). assert (k0 = t) as -> by congruence. rewrite C2. reflexivity. }
  (* blocks of the old object that are free *)
  assert (Hdead : forall b c, ob = Some b -> fp t0 b ddo (full t0) c -> (forall i oi m, slot_at t i m 0%N -> oidx m = Some oi -> md_buf (ddo oi) <> Some c) -> allocation s' c = None).
  { intros b c Hb Hc Hne. apply alloc_none. destruct (s_blk s' c) eqn:Hk; auto. exfalso. assert (Hfc : fp0 ob t0 ddo c) by (exists b; auto).
    assert (Hlt : c < s_next s) by (eapply fp0_lt; eauto).
    destruct (dm_own _ _ _ _ _ _ _ _ _ _ _ _ _ _ _ _ DM c) as [[A B]|A]; [congruence|auto|].
    destruct (fp_full E s o x old r t ob r0 t0 ddo SU tb dd Hnf Hcom c A) as [Hx|(i & m & oi & b' & B1 & B2 & B3 & B4 & B5)].
    - pose proof (Hnf c Hx). lia.
    - now apply (Hne i oi m). }
  exists (aevs E s x t ob t0 tb dd n ++ flat_map (cev dd) (seq 0 n) ++ fins E s x t ob t0 ddo dd). constructor.
  - exact Hlog.
  - exists t'. eapply whole_type; eauto.
  - intros i m Hm Hns. apply Hhas in Hm. assert (Hn : nw i = true) by (apply nw_has with (m := m); auto). pose proof Hm as Hl. apply nth_error_lt in Hl.
    destruct (Hnew i Hl Hn) as [Hnp Hvn]. destruct (np i) as [[f src]|] eqn:Hp; [|congruence]. destruct (Hmk i m f src Hm Hp) as [Hk Hs].
    exists (md_mixin (dd i)), (newv i), f, src. split.
    { apply (whole_holds s' o x' tb r t' dd); auto; [congruence|]. now apply (dm_new _ _ _ _ _ _ _ _ _ _ _ _ _ _ _ _ DM). }
    split. { apply alloc_none. apply (iv_next _ _ I). apply Hnf. destruct (slot_ex E _ t i G Hl) as (m' & off & Hsl). destruct (N.eq_dec off 0) as [->|Hz].
      - destruct (pa_ext _ _ _ _ _ _ _ _ _ _ (dm_part _ _ _ _ _ _ _ _ _ _ _ _ _ _ _ _ DM) i m' Hsl) as (_ & e & _ & He & _); [unfold full; now apply Nat.ltb_lt|].
        rewrite He. right. exists i, m'. split; auto. rewrite He. split; auto. unfold anew. rewrite Hn, andb_true_r. now apply Nat.ltb_lt.
      - destruct (pa_int _ _ _ _ _ _ _ _ _ _ (dm_part _ _ _ _ _ _ _ _ _ _ _ _ _ _ _ _ DM) i m' off Hsl) as (-> & _); auto; [unfold full; now apply Nat.ltb_lt|]. now left. }
    split; auto. split. { intros p Hsrc. destruct (Hs p Hsrc) as (v & Hv). rewrite Hv. f_equal. f_equal. symmetry. unfold vn_ok in Hvn. rewrite Hp, Hsrc in Hvn. exact (Hvn _ Hv). }
    rewrite !calls_app, aevs_calls, fins_calls. rewrite (calls_at t (tg_nodup _ _ _ G) _ (cev_not dd) m i n Hm) by auto. destruct (Nat.ltb_spec i n); [|lia].
    rewrite (cev_new dd i m f src Hm Hn Hp). simpl. f_equal. case_eq (o_data x); [intros b Hb|auto]. destruct (old_whole b Hb) as [W0 G0].
    apply (calls_out t0 _ (fev_not dd)); auto. rewrite <- (has_whole s o x b r0 t0 ddo m W0). auto.
  - intros i j m p v Hm Hh [He|Hst']; [|apply own_type in Hst'; congruence]. apply Hhas in Hm. destruct (held j m p v Hh) as (b & Hb & Hj & -> & Hv & Hoi).
    pose proof Hm as Hl. apply nth_error_lt in Hl. destruct (slot_ex E _ t i G Hl) as (m' & off & Hsl). assert (m' = m) as -> by (destruct Hsl; congruence).
    assert (off = 0%N) as -> by (apply (tg_ext _ _ _ G _ _ _ Hsl); auto). pose proof (Hcom i m j Hsl Hoi) as Hdd.
    exists (oldv j), (act_of (cp i)). split. { rewrite <- Hdd. apply (whole_holds s' o x' tb r t' dd); auto; [congruence|]. now apply (dm_com _ _ _ _ _ _ _ _ _ _ _ _ _ _ _ _ DM). }
    split; [now apply Hup|]. split; [now apply (value_act m v j _ i (md_mixin (ddo j))); auto; apply (Hcv i m)|].
    rewrite !calls_app, aevs_calls, fins_calls. rewrite (calls_at t (tg_nodup _ _ _ G) _ (cev_not dd) m i n Hm) by auto. destruct (Nat.ltb_spec i n); [|lia].
    rewrite (cev_com dd i m j Hm Hoi), Hb. destruct (old_whole b Hb) as [W0 G0]. pose proof Hj as Hlj. apply nth_error_lt in Hlj.
    rewrite (calls_at t0 (tg_nodup _ _ _ G0) _ (fev_not dd) m j _ Hj) by auto. destruct (Nat.ltb_spec j (length (t_mixins t0))); [|lia].
    unfold FinProofs.fev, inT. rewrite Hj, (tg_idx _ _ _ G m i Hm). destruct (slot_ex E _ t0 j G0 Hlj) as (m' & off & Hs0). assert (m' = m) as -> by (destruct Hs0; congruence).
    assert (off = 0%N) as -> by (apply (tg_ext _ _ _ G0 _ _ _ Hs0); auto). pose proof W0 as (_ & _ & _ & _ & _ & P0).
    destruct (pa_ext _ _ _ _ _ _ _ _ _ _ P0 j m Hs0) as (_ & e & _ & He' & _); [unfold full; now apply Nat.ltb_lt|]. rewrite He'. simpl. apply app_nil_r.
  - intros i j m p v Hm Hh He _. apply Hhas in Hm. destruct (held j m p v Hh) as (b & Hb & Hj & -> & Hv & Hoi).
    pose proof Hm as Hl. apply nth_error_lt in Hl. destruct (slot_ex E _ t i G Hl) as (m' & off & Hsl). assert (m' = m) as -> by (destruct Hsl; congruence).
    assert (Hz : off <> 0%N). { intros Hz. apply (tg_ext _ _ _ G _ _ _ Hsl) in Hz. congruence. } destruct (old_whole b Hb) as [W0 G0]. pose proof Hj as Hlj. apply nth_error_lt in Hlj.
    destruct (slot_ex E _ t0 j G0 Hlj) as (m' & off0 & Hs0). assert (m' = m) as -> by (destruct Hs0; congruence).
    assert (Hz0 : off0 <> 0%N). { intros Hz0. apply (tg_ext _ _ _ G0 _ _ _ Hs0) in Hz0. congruence. } pose proof W0 as (_ & _ & _ & _ & _ & P0).
    destruct (pa_int _ _ _ _ _ _ _ _ _ _ P0 j m off0 Hs0) as (Hd0 & _); auto; [unfold full; now apply Nat.ltb_lt|].
    destruct (pa_int _ _ _ _ _ _ _ _ _ _ (dm_part _ _ _ _ _ _ _ _ _ _ _ _ _ _ _ _ DM) i m off Hsl) as (Hd & _); auto; [unfold full; now apply Nat.ltb_lt|].
    exists (md_mixin (dd i)), (oldv j), (act_of (cp i)). split. { apply (whole_holds s' o x' tb r t' dd); auto; [congruence|]. now apply (dm_com _ _ _ _ _ _ _ _ _ _ _ _ _ _ _ _ DM). }
    split. { rewrite Hd. simpl. apply alloc_none. apply (iv_next _ _ I). apply Hnf. now left. }
    split. { rewrite Hd0. simpl. apply (Hdead b b Hb); [now left|]. intros i2 oi m2 A1 A2 A3. destruct (oidx_has m2 oi i2 (proj1 A1) A2) as [_ A4]. pose proof A4 as A5. apply nth_error_lt in A5.
      destruct (slot_ex E _ t0 oi G0 A5) as (m3 & off3 & Hs3). assert (m3 = m2) as -> by (destruct Hs3; congruence). assert (off3 = 0%N) as ->.
      { apply (tg_ext _ _ _ G0 _ _ _ Hs3). apply (tg_ext _ _ _ G _ _ _ A1). auto. } destruct (pa_ext _ _ _ _ _ _ _ _ _ _ P0 oi m2 Hs3) as (_ & e & Hne & He' & _); [unfold full; now apply Nat.ltb_lt|].
      rewrite He' in A3. simpl in A3. congruence. }
    split; [now apply Hup|]. split; [now apply (value_act m v j _ i (md_mixin (ddo j))); auto; apply (Hcv i m)|].
    rewrite !calls_app, aevs_calls, fins_calls. rewrite (calls_at t (tg_nodup _ _ _ G) _ (cev_not dd) m i n Hm) by auto. destruct (Nat.ltb_spec i n); [|lia].
    rewrite (cev_com dd i m j Hm Hoi), Hb. rewrite (calls_at t0 (tg_nodup _ _ _ G0) _ (fev_not dd) m j _ Hj) by auto. destruct (Nat.ltb_spec j (length (t_mixins t0))); [|lia].
    simpl. f_equal. unfold FinProofs.fev, inT. rewrite Hj, (tg_idx _ _ _ G m i Hm), (at_index t0 j m Hj). rewrite Hd0 at 1. cbn [md_buf]. rewrite call_is, calls_dst. reflexivity.
  - intros j m p v Hh Hns. destruct (held j m p v Hh) as (b & Hb & Hj & -> & Hv & Hoi). rewrite Hhs in Hns. destruct (old_whole b Hb) as [W0 G0]. pose proof Hj as Hlj. apply nth_error_lt in Hlj.
    destruct (slot_ex E _ t0 j G0 Hlj) as (m' & off0 & Hs0). assert (m' = m) as -> by (destruct Hs0; congruence). pose proof W0 as (_ & _ & _ & _ & _ & P0).
    assert (Hft : full t0 j = true) by (unfold full; now apply Nat.ltb_lt). split.
    + rewrite !calls_app, aevs_calls, fins_calls. rewrite (calls_out t _ (cev_not dd) m n Hns) by auto. rewrite Hb.
      rewrite (calls_at t0 (tg_nodup _ _ _ G0) _ (fev_not dd) m j _ Hj) by auto. destruct (Nat.ltb_spec j (length (t_mixins t0))); [|lia]. simpl.
      assert (Hni : inT s t t0 j = None). { unfold inT. rewrite Hj. destruct (index_of t (w_mid (s_w s) m)) as [i|] eqn:Hi; auto. exfalso. apply Hns.
        pose proof (su_idx0 _ _ _ _ _ _ _ _ _ _ _ SU b m i Hb (nth_error_In _ _ Hj) Hi) as Hin0. now apply nth_error_In in Hin0. }
      unfold FinProofs.fev. rewrite Hni, calls_app, (at_index t0 j m Hj), calls_dst. destruct (md_buf (ddo j)); simpl; apply app_nil_r.
    + assert (Hfp : fp t0 b ddo (full t0) (fst (md_mixin (ddo j)))). { destruct (part_con_mine E _ _ _ _ _ _ _ _ _ j P0 Hft) as (m' & off & v' & Hmine & _). eapply part_mine_fp; eauto. }
      apply (Hdead b _ Hb Hfp). intros i oi m2 A1 A2 A3. destruct (oidx_has m2 oi i (proj1 A1) A2) as [_ A4]. pose proof A4 as A5. apply nth_error_lt in A5.
      destruct (slot_ex E _ t0 oi G0 A5) as (m3 & off3 & Hs3). assert (m3 = m2) as -> by (destruct Hs3; congruence). assert (off3 = 0%N) as ->.
      { apply (tg_ext _ _ _ G0 _ _ _ Hs3). apply (tg_ext _ _ _ G _ _ _ A1). auto. }
      assert (Hft2 : full t0 oi = true) by (unfold full; now apply Nat.ltb_lt). destruct (pa_ext _ _ _ _ _ _ _ _ _ _ P0 oi m2 Hs3 Hft2) as (_ & e & Hne & He' & _).
      rewrite He' in A3. simpl in A3. destruct (N.eq_dec off0 0) as [->|Hz].
      * destruct (pa_ext _ _ _ _ _ _ _ _ _ _ P0 j m Hs0 Hft) as (_ & e0 & Hne0 & He0 & _). rewrite He0 in A3. simpl in A3.
        assert (oi = j). { apply (pa_inj _ _ _ _ _ _ _ _ _ _ P0 oi j m2 m Hs3 Hs0 Hft2 Hft). rewrite He', He0. simpl. congruence. } subst oi.
        apply Hns. assert (m2 = m) as -> by congruence. destruct A1 as [A1 _]. now apply nth_error_In in A1.
      * destruct (pa_int _ _ _ _ _ _ _ _ _ _ P0 j m off0 Hs0 Hft Hz) as (Hd0 & _). rewrite Hd0 in A3. simpl in A3. congruence.
  - intros m Hn1 Hn2. rewrite Hhs in Hn2. rewrite !calls_app, aevs_calls, fins_calls. rewrite (calls_out t _ (cev_not dd) m n Hn2) by auto. case_eq (o_data x); [intros b Hb|auto].
    destruct (old_whole b Hb) as [W0 G0]. rewrite (calls_out t0 _ (fev_not dd)); auto. rewrite <- (has_whole s o x b r0 t0 ddo m W0). auto.
  - intros o' Hne. rewrite (dm_obj _ _ _ _ _ _ _ _ _ _ _ _ _ _ _ _ DM). now apply upd_other.
  - intros o' q k Hne (z & A1 & A2 & A3). destruct (w2_some E s o x old r t r0 t0 ddo SU H0 q k A3) as (j & Hj). exists j, z.
    rewrite (dm_obj _ _ _ _ _ _ _ _ _ _ _ _ _ _ _ _ DM), upd_other, (dm_w _ _ _ _ _ _ _ _ _ _ _ _ _ _ _ _ DM) by auto. auto.
  - intros c Hc Hno. apply agree_same. apply (dm_oth _ _ _ _ _ _ _ _ _ _ _ _ _ _ _ _ DM); [now apply alloc_lt|]. rewrite <- (su_foot E s o x old r t r0 t0 ddo SU H0). now rewrite foot_owns.
  - intros c Hc. destruct (Hmem c) as [[A B]|A]; [intros H; apply Hc; now apply alloc_none| |].
    + left. rewrite <- (foot_owns s) by auto. split; auto.
      pose proof (dm_oth _ _ _ _ _ _ _ _ _ _ _ _ _ _ _ _ DM c A) as Hag. rewrite <- (su_foot E s o x old r t r0 t0 ddo SU H0) in Hag. destruct (Hag B) as (Hag' & _).
      unfold allocation in *. unfold battr in Hag'. congruence.
    + right. now apply (foot_owns s').
  - intros c Hc. apply (foot_owns s') in Hc; auto. apply Hf' in Hc. destruct (dm_fp _ _ _ _ _ _ _ _ _ _ _ _ _ _ _ _ DM c Hc) as [Hge|Hf].
    + left. apply alloc_none. now apply (iv_next _ _ I).
    + right. apply (foot_owns s); auto. now apply (su_foot E s o x old r t r0 t0 ddo SU H0).
Qed.

Lemma kept_whole oldv b : kept s r t ob t0 ddo cp oldv s' -> ob = Some b -> whole E s' o x b r0 t0 ddo.
Proof.
  intros K Hb. destruct (old_whole b Hb) as [(A1 & A2 & A3 & A4 & A5 & _) _]. unfold whole. split; [rewrite (kp_obj _ _ _ _ _ _ _ _ _ K); auto|]. repeat (split; [assumption|]).
  split; [rewrite (wl_type _ _ (kp_w _ _ _ _ _ _ _ _ _ K)); auto|]. split; auto. eapply kept_part; eauto.
Qed.
Lemma kept_holds oldv j m p v : kept s r t ob t0 ddo cp oldv s' -> holds s o j m p v -> holds s' o j m p (oldv j).
Proof.
  intros K Hh. destruct (held j m p v Hh) as (b & Hb & Hj & -> & Hv & Hoi). pose proof (kept_whole oldv b K Hb) as W. apply (whole_holds s' o x b r0 t0 ddo); auto.
  apply (om_own _ _ _ _ _ _ (kp_old _ _ _ _ _ _ _ _ _ K) b j m Hb Hj).
Qed.
Lemma kept_other oldv p : kept s r t ob t0 ddo cp oldv s' -> (forall j m v, ~ holds s o j m p v) -> instance s' p = instance s p.
Proof.
  intros K Hn. destruct (Nat.lt_ge_cases (fst p) (s_next s)) as [Hc|Hc].
  - apply (om_other _ _ _ _ _ _ (kp_old _ _ _ _ _ _ _ _ _ K)); auto. intros (b & oi & Hb & Hoi & Hp). destruct (old_whole b Hb) as [W G0]. apply nth_error_Some in Hoi.
    destruct (nth_error (t_mixins t0) oi) as [m|] eqn:Hm; [|congruence]. destruct (whole_inst E s o x b r0 t0 ddo oi m I W Hm) as (v & Hv). apply (Hn oi m v). rewrite Hp. eapply whole_holds; eauto.
  - unfold instance. now rewrite (kp_lim _ _ _ _ _ _ _ _ _ K), (iv_next _ _ I).
Qed.
Lemma kept_alloc oldv c : kept s r t ob t0 ddo cp oldv s' -> allocation s' c = allocation s c.
Proof.
  intros K. destruct (Nat.lt_ge_cases c (s_next s)) as [Hc|Hc].
  - apply (om_attr _ _ _ _ _ _ (kp_old _ _ _ _ _ _ _ _ _ K)); auto.
  - unfold allocation. now rewrite (kp_lim _ _ _ _ _ _ _ _ _ K), (iv_next _ _ I).
Qed.
Lemma same_types b : ob = Some b -> o_type x = Some r -> r0 = r /\ t0 = t.
Proof.
  intros Hb Hr. destruct (old_whole b Hb) as [(A1 & A2 & A3 & A4 & _) _]. assert (r0 = r) as -> by congruence. split; auto. pose proof (su_ty _ _ _ _ _ _ _ _ _ _ _ SU). congruence.
Qed.
Lemma same_none : ob = None -> o_type x = Some r -> t_mixins t = [].
Proof.
  intros Hb Hr. pose proof (su_obj _ _ _ _ _ _ _ _ _ _ _ SU) as Ho. pose proof (Ty o x Ho Hb) as Hx. rewrite Hr in Hx. destruct r as [d|q] eqn:Hq; [|destruct Hx].
  destruct (type_empty E (s_w s) d (iv_reach _ _ I)) as (k & Hk). pose proof (su_ty _ _ _ _ _ _ _ _ _ _ _ SU) as Ht. rewrite Hk in Ht. injection Ht as <-. reflexivity.
Qed.

Lemma same_mutated : o_type x = Some r -> done_same s r t ob t0 ddo np cp s' -> exists l, mutated E s s' o r mk up l.
Proof.
  intros Hr (oldv & dd & K & Hw & Hlog & Hcv). pose proof (su_obj _ _ _ _ _ _ _ _ _ _ _ SU) as Ho. pose proof (su_ty _ _ _ _ _ _ _ _ _ _ _ SU) as Ht.
  assert (Ho' : s_obj s' o = Some x) by (rewrite (kp_obj _ _ _ _ _ _ _ _ _ K); auto).
  assert (T : type_of s o r t) by (exists x; auto). assert (T' : type_of s' o r t) by (exists x; rewrite Hw; auto).
  assert (Hm' : forall i m, has_mixin s' o i m <-> nth_error (t_mixins t) i = Some m).
  { intros i m. split; [|intros H; exists r, t; auto]. intros (q & k & Hq & Hk). destruct (type_of_fun _ _ _ _ _ _ T' Hq) as [-> ->]. auto. }
  assert (Hm : forall i m, has_mixin s o i m <-> nth_error (t_mixins t) i = Some m).
  { intros i m. split; [|intros H; exists r, t; auto]. intros (q & k & Hq & Hk). destruct (type_of_fun _ _ _ _ _ _ T Hq) as [-> ->]. auto. }
  exists (flat_map (cev dd) (seq 0 n)). constructor.
  - exact Hlog.
  - eauto.
  - intros i m H Hn. exfalso. apply Hn. exists i. apply Hm. now apply Hm'.
  - intros i j m p v H Hh _. apply Hm' in H. destruct (held j m p v Hh) as (b & Hb & Hj & -> & Hv & Hoi). destruct (same_types b Hb Hr) as [Hrr Htt]. rewrite Htt in Hj.
    assert (i = j) as ->. { pose proof (tg_nodup _ _ _ G) as ND. rewrite NoDup_nth_error in ND. apply ND; [now apply nth_error_lt in H|congruence]. }
    exists (oldv j), (act_of (cp j)). split; [eapply kept_holds; eauto|]. split; [now apply Hup|]. split; [now apply (value_act m v j _ j (md_mixin (ddo j))); auto; apply (Hcv j m)|].
    rewrite (calls_at t (tg_nodup _ _ _ G) _ (cev_not dd) m j n H) by auto. pose proof H as Hl. apply nth_error_lt in Hl. destruct (Nat.ltb_spec j n); [|lia]. now apply cev_com.
  - intros i j m p v H Hh He Hn. destruct Hn. eauto.
  - intros j m p v (Hh & _) Hn. destruct Hn. exists j. apply Hm'. now apply Hm.
  - intros m Hn _. apply (calls_out t _ (cev_not dd)); auto. intros Hin. apply Hn. apply In_nth_error in Hin. destruct Hin as (i & Hi). exists i. now apply Hm.
  - intros o' _. now rewrite (kp_obj _ _ _ _ _ _ _ _ _ K).
  - intros o' q k _ (z & A1 & A2 & A3). exists (t_nobj k), z. rewrite (kp_obj _ _ _ _ _ _ _ _ _ K), Hw. split; auto. split; auto. rewrite A3. now destruct k.
  - intros c Hc Hno. apply agree_same. eapply kept_agree; eauto; [now apply alloc_lt|]. now rewrite foot_owns.
  - intros c Hc. rewrite (kept_alloc oldv c K) in Hc. destruct (iv_own _ _ I c) as (o' & Hf); [intros Hz; apply Hc; now apply alloc_none|].
    destruct (Nat.eq_dec o' o) as [->|Hne].
    + right. apply (foot_owns s'); auto. apply (kept_foot E s o x old r t r0 t0 ddo SU H0 cp oldv s' c K). exact Hf.
    + left. split; auto. rewrite <- (foot_owns s) by auto. intros Hf2. apply Hne. apply (iv_sep E s I o' o c Hf Hf2).
  - intros c Hc. right. apply (foot_owns s); auto. apply (foot_owns s') in Hc; auto. apply (kept_foot E s o x old r t r0 t0 ddo SU H0 cp oldv s' c K). exact Hc.
Qed.

Lemma devs_calls dd u i m : nth_error (t_mixins t) i = Some m -> u <= n -> calls m (devs E t dd nw u) = if (i <? u) && nw i then destruction E m (md_mixin (dd i)) else [].
Proof.
  intros Hi. induction u as [|u IH]; intros Hu; [reflexivity|]. simpl devs. rewrite calls_app, IH by lia. destruct (Nat.eq_dec i u) as [->|Hne].
  - assert (u <? u = false) as -> by (apply Nat.ltb_ge; lia). assert (u <? S u = true) as -> by (apply Nat.ltb_lt; lia). rewrite (at_index t u m Hi). simpl. rewrite app_nil_r.
    destruct (nw u); simpl; auto. unfold destruction. destruct (m_destroy _); auto. apply call_is.
  - assert (Hx : mixin_at t u <> m). { intros He. apply Hne. pose proof (tg_nodup _ _ _ G) as ND. rewrite NoDup_nth_error in ND. apply ND; [now apply nth_error_lt in Hi|].
      rewrite Hi, <- He. unfold mixin_at. symmetry. apply nth_error_nth'. lia. }
    assert (Hz : calls m (if nw u && m_destroy (e_mixin E (mixin_at t u)) then [EvCall FDestroy (mixin_at t u) (md_mixin (dd u)) None 0] else []) = []) by (destruct (nw u && _); auto; now apply call_not).
    rewrite Hz. simpl. assert (i <? S u = (i <? u)) as ->; auto. destruct (Nat.ltb_spec i (S u)), (Nat.ltb_spec i u); auto; lia.
Qed.
Lemma devs_out dd u m : ~ In m (t_mixins t) -> u <= n -> calls m (devs E t dd nw u) = [].
Proof.
  intros Hi. induction u as [|u IH]; intros Hu; [reflexivity|]. simpl devs. rewrite calls_app, IH by lia. rewrite app_nil_r. destruct (nw u && _); auto. apply call_not.
  intros <-. apply Hi. unfold mixin_at. apply nth_In. lia.
Qed.
Lemma fevs_calls a dd u m : calls m (fevs E a t dd nw u) = [].
Proof. induction u as [|u IH]; [reflexivity|]. simpl fevs. rewrite calls_app, IH, app_nil_r. destruct (nw u); auto. destruct (md_buf (dd u)); auto. Qed.

(** The calls of a mutation that was given up *)
Lemma undone_calls sm k tb dd u lx m : calls m (undone E s x t ob t0 ddo np cp sm k tb dd u lx) =
  calls m (flat_map (cev dd) (seq 0 u)) ++ calls m lx ++ (if sm then [] else calls m (devs E t dd nw u)).
Proof.
  unfold undone. destruct sm; rewrite !calls_app.
  - now rewrite app_nil_r.
  - rewrite aevs_calls, fevs_calls. simpl. rewrite app_nil_r. now rewrite app_assoc.
Qed.

Lemma given_up_failed : given_up E s o x old r t ob t0 ddo np cp s' -> exists l, failed E s s' o (t_mixins t) mk up l.
Proof.
  intros (oldv & k & tb & dd & u & lx & K & Htr & Hl). pose proof (su_obj _ _ _ _ _ _ _ _ _ _ _ SU) as Ho.
  assert (exists l, did s s' l /\ forall m, (l = [] /\ u = 0 /\ lx = []) \/ u <= n /\ calls m l = calls m (flat_map (cev dd) (seq 0 u)) ++ calls m lx ++ (if same_type (new_mut o x old r t) then [] else calls m (devs E t dd nw u))) as (l & Hd & Hc).
  { destruct Hl as [(Hu & Hx & Hl)|(_ & Hu & Hl)].
    - exists []. split; [unfold did; now rewrite app_nil_r|auto].
    - eexists. split; [exact Hl|]. intros m. right. split; auto. apply undone_calls. }
  assert (Hlx : forall m i, nth_error (t_mixins t) i = Some m -> calls m lx = [] \/ u = i /\ exists f p src err, calls m lx = [EvCall f m p src err] /\ err <> 0%Z /\
    (nw i = true /\ np i = Some (f, src) /\ p = md_mixin (dd i) \/ nw i = false /\ exists oi, oidx m = Some oi /\ p = md_mixin (ddo oi) /\ com_call (cp i) f src)).
  { intros m i Hi. destruct (td_last _ _ _ _ _ _ _ _ _ _ _ Htr) as [->|(f & p & src & err & -> & Hu & He & Hx)]; auto. destruct (Nat.eq_dec (mixin_at t u) m) as [Hm|Hm]; [right|left; now apply call_not].
    assert (u = i). { pose proof (tg_nodup _ _ _ G) as ND. rewrite NoDup_nth_error in ND. apply ND; auto. rewrite Hi, <- Hm. unfold mixin_at. now apply nth_error_nth'. }
    split; auto. subst u. rewrite Hm in *. exists f, p, src, err. split; [apply call_is|]. split; auto. }
  exists l. constructor.
  - auto.
  - intros o'. now rewrite (kp_obj _ _ _ _ _ _ _ _ _ K).
  - intros o' q kk (z & A1 & A2 & A3). exists z. rewrite (kp_obj _ _ _ _ _ _ _ _ _ K), (wl_type _ _ (kp_w _ _ _ _ _ _ _ _ _ K)). auto.
  - intros c. now apply (kept_alloc oldv).
  - intros c i. destruct (Nat.lt_ge_cases c (s_next s)) as [Hlt|Hge].
    + apply (om_dat _ _ _ _ _ _ (kp_old _ _ _ _ _ _ _ _ _ K)); auto.
    + unfold data_slot. now rewrite (kp_lim _ _ _ _ _ _ _ _ _ K), (iv_next _ _ I).
  - intros [c q]. destruct (Nat.lt_ge_cases c (s_next s)) as [Hlt|Hge].
    + apply (om_back _ _ _ _ _ _ (kp_old _ _ _ _ _ _ _ _ _ K)); auto.
    + unfold object_of. simpl. now rewrite (kp_lim _ _ _ _ _ _ _ _ _ K), (iv_next _ _ I).
  - intros p. now apply (kept_other oldv).
  - intros j m p v Hh. exists (oldv j). split; [eapply kept_holds; eauto|]. intros Hn. destruct (held j m p v Hh) as (b & Hb & Hj & -> & Hv & Hoi).
    assert (Hv0 : v0 s ddo j = v) by (unfold v0, oaddr; unfold instance in Hv; unfold binst; now rewrite Hv). rewrite <- Hv0.
    assert (Hsame : forall i' m', nth_error (t_mixins t) i' = Some m' -> oidx m' = Some j -> m' = m). { intros i' m' Hi' Hm'. destruct (oidx_has m' j i' Hi' Hm') as [_ Hj']. congruence. }
    assert (Hone : forall i i', nth_error (t_mixins t) i = Some m -> nth_error (t_mixins t) i' = Some m -> i' = i).
    { intros i i' Hi Hi'. pose proof (tg_nodup _ _ _ G) as ND. rewrite NoDup_nth_error in ND. apply ND; [now apply nth_error_lt in Hi'|congruence]. }
    destruct (Hc m) as [(-> & -> & ->)|[Hu Hcm]]; [apply (td_v0 _ _ _ _ _ _ _ _ _ _ _ Htr); [intros; lia|congruence]|].
    rewrite Hcm in Hn. apply app_eq_nil in Hn. destruct Hn as [Hn1 Hn]. apply app_eq_nil in Hn. destruct Hn as [Hn2 _].
    assert (Hlast : lx <> [] -> AllocProofs.oidx s ob t0 (mixin_at t u) <> Some j).
    { intros Hx Hy. destruct (td_last _ _ _ _ _ _ _ _ _ _ _ Htr) as [|(f & p & src & err & -> & Hu' & _)]; [congruence|].
      rewrite (Hsame u (mixin_at t u)) in Hn2; auto; [|unfold mixin_at; now apply nth_error_nth']. rewrite call_is in Hn2. discriminate. }
    destruct (In_dec Nat.eq_dec m (t_mixins t)) as [Hin|Hin].
    + apply In_nth_error in Hin. destruct Hin as (i & Hi). destruct (Nat.lt_ge_cases i u) as [Hiu|Hiu].
      * apply (kp_v0 _ _ _ _ _ _ _ _ _ K j). intros i' m' Hi' Hm'. assert (m' = m) as -> by eauto. rewrite (Hone i i') by auto.
        rewrite (calls_at t (tg_nodup _ _ _ G) _ (cev_not dd) m i u Hi Hu) in Hn1. destruct (Nat.ltb_spec i u); [|lia]. rewrite (cev_com dd i m j Hi Hoi) in Hn1. destruct (cp i); auto; discriminate.
      * apply (td_v0 _ _ _ _ _ _ _ _ _ _ _ Htr); auto. intros i' m' Hlt Hi' Hm'. assert (m' = m) as -> by eauto. rewrite (Hone i i') in Hlt by auto. lia.
    + apply (td_v0 _ _ _ _ _ _ _ _ _ _ _ Htr); auto. intros i' m' Hlt Hi' Hm'. assert (m' = m) as -> by eauto. apply Hin. now apply nth_error_In in Hi'.
  - intros i m Hi Hns. assert (Hn : nw i = true) by (apply nw_has with (m := m); auto). destruct (Hc m) as [(-> & _)|[Hu Hcm]]; [now left|]. rewrite Hcm.
    assert (Hsm : same_type (new_mut o x old r t) = false).
    { destruct (same_type _) eqn:Hst; auto. exfalso. apply (same_type_iff E s o x old r t ob r0 t0 ddo SU) in Hst. apply Hns. exists i, r, t. split; auto. exists x. split; auto. split; auto. apply (su_ty _ _ _ _ _ _ _ _ _ _ _ SU). }
    rewrite Hsm, (devs_calls dd u i m Hi Hu), (calls_at t (tg_nodup _ _ _ G) _ (cev_not dd) m i u Hi Hu), Hn, andb_true_r. destruct (Hlx m i Hi) as [Hz|(Hui & f & p & src & err & Hz & He & Hw)]; rewrite Hz.
    + destruct (Nat.ltb_spec i u); [|now left]. destruct (np i) as [[f src]|] eqn:Hp.
      * right. exists (md_mixin (dd i)), f, src. split; [now apply Hmk|]. left. rewrite (cev_new dd i m f src Hi Hn Hp). reflexivity.
      * exfalso. now apply (td_np _ _ _ _ _ _ _ _ _ _ _ Htr i).
    + subst u. rewrite Nat.ltb_irrefl. right. destruct Hw as [(_ & Hp & ->)|(Hx & _)]; [|congruence]. exists (md_mixin (dd i)), f, src. split; [now apply Hmk|]. right. exists err. auto.
  - intros i j m p v Hi Hh. destruct (held j m p v Hh) as (b & Hb & Hj & -> & Hv & Hoi). assert (Hn : nw i = false) by (unfold AllocProofs.nw; now rewrite Hi, Hoi).
    destruct (Hc m) as [(-> & _)|[Hu Hcm]]; [now left|]. rewrite Hcm, (devs_calls dd u i m Hi Hu), (calls_at t (tg_nodup _ _ _ G) _ (cev_not dd) m i u Hi Hu), Hn, andb_false_r.
    assert (Hz2 : (if same_type (new_mut o x old r t) then [] else ([] : list ev)) = []) by (destruct (same_type _); auto). rewrite Hz2, app_nil_r.
    destruct (Hlx m i Hi) as [Hz|(Hui & f & p & src & err & Hz & He & Hw)]; rewrite Hz.
    + rewrite app_nil_r. destruct (Nat.ltb_spec i u); [|now left]. rewrite (cev_com dd i m j Hi Hoi). destruct (act_of (cp i)) as [[f src]|] eqn:Ha; [|now left].
      right. exists f, src, 0%Z. split; auto. rewrite <- Ha. now apply Hup.
    + subst u. rewrite Nat.ltb_irrefl. right. destruct Hw as [(Hx & _)|(_ & oi & Hoi' & -> & Hcc)]; [congruence|]. assert (oi = j) as -> by congruence. exists f, src, err. split; auto.
      pose proof (proj1 (Hup i m Hi)) as Hui. unfold com_call in Hcc. destruct (cp i); [tauto| |]; destruct Hcc as [-> ->]; exact Hui.
  - intros m Hni. destruct (Hc m) as [(-> & _)|[Hu Hcm]]; auto. rewrite Hcm, (calls_out t _ (cev_not dd) m u Hni Hu), (devs_out dd u m Hni Hu).
    assert (Hz : calls m lx = []). { destruct (td_last _ _ _ _ _ _ _ _ _ _ _ Htr) as [->|(f & p & src & err & -> & Hu' & _)]; auto. apply call_not. intros <-. apply Hni. unfold mixin_at. now apply nth_In. }
    rewrite Hz. destruct (same_type _); auto.
Qed.
End Done.
End Mut.
