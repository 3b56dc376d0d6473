(** The setting of a mutation, and what allocate_mixin_data does *)
From Coq Require Import List Arith ZArith NArith Lia Bool.
From Verif Require Import Base Sv BaseLemmas Info TypeBuild TypeQuery Domain TypesProofs Heap HeapProofs Mutation PartProofs RollProofs.
Import ListNotations.

Section Alloc.
Variable E : env.
Variable U : user.
Notation part := (part E).

Lemma part_extend B B' o a t tb dd k d m off (nw : nat -> bool) mid : tgood E mid t ->
  part B o a t tb dd (fun i => i <? k) (fun i => (i <? k) && nw i) (fun _ => false) -> slot_at t k m off ->
  (forall b, fp t tb dd (fun i => (i <? k) && nw i) b -> battr B' b = battr B b /\ (forall n, binst B' (b, n) = binst B (b, n)) /\
     (forall n, bback B (b, n) = Some o -> bback B' (b, n) = Some o)) ->
  (forall i, bdat B' tb i = if i =? k then Some d else bdat B tb i) ->
  (off <> 0%N -> d = {| md_buf := None; md_mixin := (tb, off) |} /\ bback B' (tb, off) = Some o) ->
  (off = 0%N -> nw k = true -> exists e, ~ fp t tb dd (fun i => (i <? k) && nw i) e /\
     d = {| md_buf := Some e; md_mixin := (e, m_buf_off (e_mixin E m)) |} /\
     battr B' e = Some (ext_al E a m, m_buf_size (e_mixin E m), m_buf_off (e_mixin E m)) /\ bback B' (md_mixin d) = Some o /\ (forall n, binst B' (e, n) = None)) ->
  part B' o a t tb (upd dd k d) (fun i => i <? S k) (fun i => (i <? S k) && nw i) (fun _ => false).
Proof.
  intros G P Hs Hf Hd Hint Hext.
  assert (Hlt : forall i, (i <? S k) = true -> i = k \/ ((i <? k) = true /\ i <> k)).
  { intros i Hi. apply Nat.ltb_lt in Hi. destruct (Nat.eq_dec i k); auto. right. split; auto. apply Nat.ltb_lt. lia. }
  assert (Htb : fp t tb dd (fun i => (i <? k) && nw i) tb) by now left.
  assert (Hold : forall i m', slot_at t i m' 0%N -> (i <? k) = true -> nw i = true -> forall e, md_buf (dd i) = Some e -> fp t tb dd (fun i => (i <? k) && nw i) e).
  { intros i m' H1 H2 H3 e He. right. exists i, m'. rewrite H2, H3. auto. }
  constructor.
  - destruct (Hf tb Htb) as (-> & _). apply (pa_blk _ _ _ _ _ _ _ _ _ _ P).
  - intros i Hi. destruct (Hlt i Hi) as [->|[H1 _]]; [eapply slot_lt; eauto|]. now apply (pa_range _ _ _ _ _ _ _ _ _ _ P).
  - intros i. rewrite Hd. unfold upd. destruct (Nat.eqb_spec i k) as [->|Hne].
    + destruct (Nat.ltb_spec k (S k)); [auto|lia].
    + rewrite (pa_data _ _ _ _ _ _ _ _ _ _ P). destruct (Nat.ltb_spec i k), (Nat.ltb_spec i (S k)); auto; lia.
  - intros i m' off' H1 H2 H3. destruct (Hlt i H2) as [->|[H4 H5]].
    + destruct (slot_fun _ _ _ _ _ _ Hs H1) as (-> & ->). rewrite upd_same. auto.
    + rewrite upd_other by auto. destruct (pa_int _ _ _ _ _ _ _ _ _ _ P i m' off' H1 H4 H3) as (A1 & A2). split; auto. now apply Hf.
  - intros i m' H1 H2. apply andb_true_iff in H2. destruct H2 as [H2 H2']. split; auto. destruct (Hlt i H2) as [->|[H4 H5]].
    + destruct (slot_fun _ _ _ _ _ _ Hs H1) as (-> & Hz). destruct (Hext (eq_sym Hz) H2') as (e & A1 & A2 & A3 & A4 & A5). exists e. rewrite upd_same.
      split; [intros ->; auto|]. auto.
    + rewrite upd_other by auto. assert (H6 : (i <? k) && nw i = true) by now rewrite H4, H2'.
      destruct (pa_ext _ _ _ _ _ _ _ _ _ _ P i m' H1 H6) as (_ & e & A1 & A2 & A3 & A4). exists e. split; auto. split; auto.
      assert (He : fp t tb dd (fun i => (i <? k) && nw i) e) by (eapply Hold; eauto; rewrite A2; auto).
      destruct (Hf e He) as (-> & _ & K). split; auto. rewrite A2 in *. simpl in *. auto.
  - intros i j m1 m2 H1 H2 H3 H4. apply andb_true_iff in H3, H4. destruct H3 as [H3 H3'], H4 as [H4 H4'].
    destruct (Hlt i H3) as [->|[H5 H5']], (Hlt j H4) as [->|[H6 H6']]; auto.
    + rewrite upd_same, upd_other by auto. destruct (slot_fun _ _ _ _ _ _ Hs H1) as (-> & Hz). destruct (Hext (eq_sym Hz) H3') as (e & A1 & A2 & _).
      rewrite A2. cbn [md_buf]. intros He. exfalso. apply A1. apply (Hold j m2 H2 H6 H4' e). congruence.
    + rewrite upd_same, upd_other by auto. destruct (slot_fun _ _ _ _ _ _ Hs H2) as (-> & Hz). destruct (Hext (eq_sym Hz) H4') as (e & A1 & A2 & _).
      rewrite A2. cbn [md_buf]. intros He. exfalso. apply A1. apply (Hold i m1 H1 H5 H3' e). congruence.
    + rewrite !upd_other by auto. apply (pa_inj _ _ _ _ _ _ _ _ _ _ P i j m1 m2); auto; now rewrite ?H5, ?H6, ?H3', ?H4'.
  - discriminate.
  - intros [b n] y Hfp Hy Hn. exfalso. cbn [fst] in Hfp.
    assert (Hcase : fp t tb dd (fun i => (i <? k) && nw i) b \/ (off = 0%N /\ nw k = true /\ md_buf d = Some b)).
    { destruct Hfp as [->|(i & m' & A1 & A2 & A3)]; [now left; left|]. apply andb_true_iff in A2. destruct A2 as [A2 A2']. destruct (Hlt i A2) as [->|[H4 H5]].
      - rewrite upd_same in A3. destruct (slot_fun _ _ _ _ _ _ Hs A1) as (-> & Hz). right. auto.
      - rewrite upd_other in A3 by auto. left. right. exists i, m'. rewrite H4, A2'. auto. }
    destruct Hcase as [Hb|(Hz & Hnk & Hb)].
    + destruct (Hf b Hb) as (_ & K & _). rewrite K in Hy. destruct (pa_live _ _ _ _ _ _ _ _ _ _ P (b, n) y Hb Hy Hn) as (j & Hj & _). discriminate.
    + destruct (Hext Hz Hnk) as (e & _ & A2 & _ & _ & A5). rewrite A2 in Hb. injection Hb as ->. rewrite A5 in Hy. discriminate.
Qed.

(** ** One index of the loop *)
Lemma get_mu_step mu s : get_mu (mu, s) = ((mu, s), Ok mu).
Proof. reflexivity. Qed.
Lemma get_mid_step mu s : get_mid (mu, s) = ((mu, s), Ok (w_mid (s_w s))).
Proof. reflexivity. Qed.
Lemma target_offset_step mu s i off : nth_error (t_offsets (mu_ty mu)) i = Some off -> target_offset mu i (mu, s) = ((mu, s), Ok off).
Proof. unfold target_offset. now intros ->. Qed.
Lemma target_mixin_step mu s i m : nth_error (t_mixins (mu_ty mu)) i = Some m -> target_mixin mu i (mu, s) = ((mu, s), Ok m).
Proof. unfold target_mixin. now intros ->. Qed.
Lemma target_data_step mu s tb : mu_tdata mu = Some tb -> target_data mu (mu, s) = ((mu, s), Ok tb).
Proof. unfold target_data. now intros ->. Qed.

Lemma alloc_one_int mu s k m off tb : slot_at (mu_ty mu) k m off -> off <> 0%N -> mu_tdata mu = Some tb -> has_blk s tb ->
  alloc_one E U k (mu, s) = ((with_au mu (S k), st_back (st_data s tb k {| md_buf := None; md_mixin := (tb, off) |}) (tb, off) (mu_obj mu)), Ok tt).
Proof.
  intros [Hm Ho] Hz Ht Hb. unfold alloc_one. rewrite (bnd_ok _ _ _ _ _ (get_mu_step mu s)), (bnd_ok _ _ _ _ _ (target_offset_step _ s _ _ Ho)), (bnd_ok _ _ _ _ _ (target_data_step _ s _ Ht)).
  destruct (N.eqb_spec off 0); [congruence|]. cbn [negb].
  etransitivity; [apply bnd_ok with (a := tt) (s1 := (mu, st_back (st_data s tb k {| md_buf := None; md_mixin := (tb, off) |}) (tb, off) (mu_obj mu)))|reflexivity].
  rewrite (bnd_ok _ _ _ _ _ (lift_eq _ mu _ _ _ (write_data_step s tb k _ Hb))). apply lift_eq, set_object_step.
  cbn [fst]. unfold has_blk. destruct (st_data_views s tb k {| md_buf := None; md_mixin := (tb, off) |} Hb) as (-> & _). exact Hb.
Qed.

Lemma alloc_one_com mu s k m tb b oi d : slot_at (mu_ty mu) k m 0%N -> mu_tdata mu = Some tb -> has_blk s tb ->
  old_slot mu (w_mid (s_w s)) m = Some (b, oi) -> bdat (s_blk s) b oi = Some d ->
  alloc_one E U k (mu, s) = ((with_au mu (S k), st_data s tb k d), Ok tt).
Proof.
  intros [Hm Ho] Ht Hb Hos Hd. unfold alloc_one. rewrite (bnd_ok _ _ _ _ _ (get_mu_step mu s)), (bnd_ok _ _ _ _ _ (target_offset_step _ s _ _ Ho)), (bnd_ok _ _ _ _ _ (target_data_step _ s _ Ht)).
  cbn [negb N.eqb].
  etransitivity; [apply bnd_ok with (a := tt) (s1 := (mu, st_data s tb k d))|reflexivity].
  rewrite (bnd_ok _ _ _ _ _ (target_mixin_step _ s _ _ Hm)), (bnd_ok _ _ _ _ _ (get_mid_step mu s)), Hos.
  rewrite (bnd_ok _ _ _ _ _ (lift_eq _ mu _ _ _ (read_data_step s b oi d Hd))). apply lift_eq, write_data_step, Hb.
Qed.

Lemma alloc_one_new mu s k m tb x : slot_at (mu_ty mu) k m 0%N -> mu_tdata mu = Some tb -> has_blk s tb -> tb <> s_next s ->
  old_slot mu (w_mid (s_w s)) m = None -> s_obj s (mu_obj mu) = Some x ->
  let al := ext_al E (o_alloc x) m in let sz := m_buf_size (e_mixin E m) in let bo := m_buf_off (e_mixin E m) in let e := s_next s in
  alloc_one E U k (mu, s) = if (an_err (u_ans U (s_calls s)) =? 0)%Z
    then ((with_au mu (S k), st_back (st_data (st_alloc s al sz bo) tb k {| md_buf := Some e; md_mixin := (e, bo) |}) (e, bo) (mu_obj mu)), Ok tt)
    else ((mu, add_call s), Throw EBadAlloc).
Proof.
  intros [Hm Ho] Ht Hb Hne Hos Hx al sz bo e. unfold alloc_one. rewrite (bnd_ok _ _ _ _ _ (get_mu_step mu s)), (bnd_ok _ _ _ _ _ (target_offset_step _ s _ _ Ho)), (bnd_ok _ _ _ _ _ (target_data_step _ s _ Ht)).
  cbn [negb N.eqb]. pose proof (alloc_step U s al sz bo) as Ha.
  destruct (an_err (u_ans U (s_calls s)) =? 0)%Z.
  - etransitivity; [apply bnd_ok with (a := tt) (s1 := (mu, st_back (st_data (st_alloc s al sz bo) tb k {| md_buf := Some e; md_mixin := (e, bo) |}) (e, bo) (mu_obj mu)))|reflexivity].
    rewrite (bnd_ok _ _ _ _ _ (target_mixin_step _ s _ _ Hm)), (bnd_ok _ _ _ _ _ (get_mid_step mu s)), Hos, (bnd_ok _ _ _ _ _ (lift_eq _ mu _ _ _ (get_obj_step s _ x Hx))).
    rewrite (bnd_ok _ _ _ _ _ (lift_eq _ mu _ _ _ Ha)). cbv beta. fold e. fold bo.
    assert (Hb1 : has_blk (st_alloc s al sz bo) tb).
    { unfold has_blk, battr. cbn. rewrite upd_other by auto. exact Hb. }
    rewrite (bnd_ok _ _ _ _ _ (lift_eq _ mu _ _ _ (write_data_step _ tb k _ Hb1))). apply lift_eq, set_object_step. cbn [fst].
    unfold has_blk, battr, st_data. rewrite in_blk_other by auto. cbn. unfold e. rewrite upd_same. discriminate.
  - apply bnd_throw.
    rewrite (bnd_ok _ _ _ _ _ (target_mixin_step _ s _ _ Hm)), (bnd_ok _ _ _ _ _ (get_mid_step mu s)), Hos, (bnd_ok _ _ _ _ _ (lift_eq _ mu _ _ _ (get_obj_step s _ x Hx))).
    apply bnd_throw. apply lift_eq. exact Ha.
Qed.

(** ** The setting *)
Record setup (s0 : st) (o : nat) (x : obj) (old : option (tref * type_rec)) (r : tref) (t : type_rec) (ob : option nat) (r0 : tref) (t0 : type_rec) (ddo : nat -> mdata) : Prop := {
  su_obj : s_obj s0 o = Some x;
  su_dat : o_data x = ob;
  su_otype : old = match o_type x with Some q => match w_type (s_w s0) q with Some k => Some (q, k) | None => None end | None => None end;
  su_ty : w_type (s_w s0) r = Some t;
  su_good : tgood E (w_mid (s_w s0)) t;
  su_next : forall b, s_next s0 <= b -> s_blk s0 b = None;
  su_old : forall b, ob = Some b -> old = Some (r0, t0) /\ w_type (s_w s0) r0 = Some t0 /\ tgood E (w_mid (s_w s0)) t0 /\ t_nobj t0 <> 0 /\
    part (s_blk s0) o (o_alloc x) t0 b ddo (fun i => i <? length (t_mixins t0)) (fun i => i <? length (t_mixins t0)) (fun i => i <? length (t_mixins t0));
  su_idx : forall b m i, ob = Some b -> In m (t_mixins t) -> index_of t0 (w_mid (s_w s0) m) = Some i -> nth_error (t_mixins t0) i = Some m;
  su_idx0 : forall b m i, ob = Some b -> In m (t_mixins t0) -> index_of t (w_mid (s_w s0) m) = Some i -> nth_error (t_mixins t) i = Some m
}.

Section Mut.
Variables (s0 : st) (o : nat) (x : obj) (old : option (tref * type_rec)) (r : tref) (t : type_rec) (ob : option nat) (r0 : tref) (t0 : type_rec) (ddo : nat -> mdata).
Hypothesis SU : setup s0 o x old r t ob r0 t0 ddo.
Notation mid := (w_mid (s_w s0)).
Notation N0 := (s_next s0).
Notation a := (o_alloc x).

(** The index in the old type of a mixin of the target *)
Definition oidx (m : mptr) : option nat := match ob with Some _ => index_of t0 (mid m) | None => None end.
Definition nw (i : nat) : bool := match nth_error (t_mixins t) i with Some m => match oidx m with None => true | Some _ => false end | None => false end.
Lemma nw_slot i m off : slot_at t i m off -> nw i = match oidx m with None => true | Some _ => false end.
Proof. intros [A _]. unfold nw. now rewrite A. Qed.

Definition mu_same (mu : omut) : Prop :=
  mu_obj mu = o /\ mu_old mu = old /\ mu_odata mu = ob /\ mu_ref mu = r /\ mu_ty mu = t /\ mu_moved mu = false.
Lemma old_slot_eq mu m : mu_same mu -> old_slot mu mid m = match ob with Some b => match oidx m with Some oi => Some (b, oi) | None => None end | None => None end.
Proof.
  intros (_ & H1 & H2 & _). unfold old_slot, oidx. rewrite H1, H2. pose proof (su_old _ _ _ _ _ _ _ _ _ _ SU) as Ho. destruct ob as [b|]; auto.
  destruct (Ho b eq_refl) as (-> & _). reflexivity.
Qed.
Lemma is_new_eq mu i : mu_same mu -> is_new mu mid i = nw i.
Proof.
  intros H. unfold is_new, nw. pose proof H as (_ & _ & _ & _ & -> & _). destruct (nth_error (t_mixins t) i) as [m|]; auto. rewrite old_slot_eq by auto.
  unfold oidx. destruct ob; auto. destruct (index_of t0 (mid m)); auto.
Qed.
Lemma oidx_in m oi i : nth_error (t_mixins t) i = Some m -> oidx m = Some oi -> nth_error (t_mixins t0) oi = Some m.
Proof.
  unfold oidx. pose proof (su_idx _ _ _ _ _ _ _ _ _ _ SU) as Ho. destruct ob as [b|]; [|discriminate]. intros Hi H. apply (Ho b); auto. now apply nth_error_In in Hi.
Qed.

Lemma old_blk_lt b : ob = Some b -> b < N0.
Proof.
  intros Hb. destruct (su_old _ _ _ _ _ _ _ _ _ _ SU b Hb) as (_ & _ & _ & _ & P0). destruct (Nat.lt_ge_cases b N0); auto. exfalso.
  pose proof (pa_blk _ _ _ _ _ _ _ _ _ _ P0) as Hbb. unfold battr in Hbb. rewrite (su_next _ _ _ _ _ _ _ _ _ _ SU b) in Hbb; [discriminate|auto].
Qed.

(** The world while the buffer of the target exists *)
Definition w1 : world := with_type (s_w s0) r (set_nobj t (S (t_nobj t))).
Lemma w1_incr : incr_nobj (s_w s0) r = (w1, Ok tt).
Proof. unfold incr_nobj. now rewrite (su_ty _ _ _ _ _ _ _ _ _ _ SU). Qed.

(** The events of the allocation *)
Definition aev (dd : nat -> mdata) (i : nat) : list ev :=
  if nw i then match md_buf (dd i) with
    | Some e => [EvAlloc (ext_al E a (mixin_at t i)) e (m_buf_size (e_mixin E (mixin_at t i))) (m_buf_off (e_mixin E (mixin_at t i)))]
    | None => []
    end else [].
Definition aevs (tb : nat) (dd : nat -> mdata) (k : nat) : list ev := EvAlloc (AObj a) tb (t_buf_size t) (t_buf_align t) :: flat_map (aev dd) (seq 0 k).

Record AI (k : nat) (tb : nat) (dd : nat -> mdata) (mu : omut) (s : st) : Prop := {
  ai_mu : mu_same mu;
  ai_td : mu_tdata mu = Some tb;
  ai_au : mu_au mu = k;
  ai_uu : mu_uu mu = 0;
  ai_co : mu_complete mu = false;
  ai_k : k <= length (t_mixins t);
  ai_obj : s_obj s = s_obj s0;
  ai_w : s_w s = w1;
  ai_part : part (s_blk s) o a t tb dd (fun i => i <? k) (fun i => (i <? k) && nw i) (fun _ => false);
  ai_lt : forall b, b < N0 -> s_blk s b = s_blk s0 b;
  ai_fp : forall b, N0 <= b -> s_blk s b <> None -> fp t tb dd (fun i => (i <? k) && nw i) b;
  ai_ge : forall b, fp t tb dd (fun i => (i <? k) && nw i) b -> N0 <= b < s_next s;
  ai_next : forall b, s_next s <= b -> s_blk s b = None;
  ai_com : forall i m oi, i < k -> slot_at t i m 0%N -> oidx m = Some oi -> dd i = ddo oi;
  ai_log : s_log s = s_log s0 ++ aevs tb dd k
}.

Lemma flat_map_ext_in {A B} (f g : A -> list B) l : (forall y, In y l -> f y = g y) -> flat_map f l = flat_map g l.
Proof. induction l as [|y l IH]; simpl; auto. intros H. rewrite H, IH; auto. Qed.

Lemma aevs_snoc tb dd k d : aevs tb (upd dd k d) (S k) = aevs tb dd k ++ aev (upd dd k d) k.
Proof.
  unfold aevs. rewrite seq_S, flat_map_app. simpl. rewrite app_nil_r. f_equal. f_equal. apply flat_map_ext_in. intros i Hi. apply in_seq in Hi.
  unfold aev. rewrite upd_other by lia. reflexivity.
Qed.

Lemma fp_grow tb dd k d b : fp t tb (upd dd k d) (fun i => (i <? S k) && nw i) b ->
  fp t tb dd (fun i => (i <? k) && nw i) b \/ (nw k = true /\ md_buf d = Some b /\ exists m, slot_at t k m 0%N).
Proof.
  intros [->|(i & m & A1 & A2 & A3)]; [now left; left|]. apply andb_true_iff in A2. destruct A2 as [A2 A2']. apply Nat.ltb_lt in A2.
  destruct (Nat.eq_dec i k) as [->|Hne].
  - rewrite upd_same in A3. right. eauto.
  - rewrite upd_other in A3 by auto. left. right. exists i, m. split; auto. rewrite A2', andb_true_r. split; auto. apply Nat.ltb_lt. lia.
Qed.
Lemma fp_mono tb dd k d b : fp t tb dd (fun i => (i <? k) && nw i) b -> fp t tb (upd dd k d) (fun i => (i <? S k) && nw i) b.
Proof.
  intros [->|(i & m & A1 & A2 & A3)]; [now left|]. right. exists i, m. apply andb_true_iff in A2. destruct A2 as [A2 A2']. apply Nat.ltb_lt in A2.
  rewrite upd_other by lia. split; auto. rewrite A2', andb_true_r. split; auto. apply Nat.ltb_lt. lia.
Qed.

Lemma st_data_other s b i d c : c <> b -> s_blk (st_data s b i d) c = s_blk s c.
Proof. apply in_blk_other. Qed.
Lemma st_back_other s p q c : c <> fst p -> s_blk (st_back s p q) c = s_blk s c.
Proof. apply in_blk_other. Qed.

Lemma alloc_one_step k tb dd mu s : AI k tb dd mu s -> k < length (t_mixins t) ->
  (exists d mu' s', alloc_one E U k (mu, s) = ((mu', s'), Ok tt) /\ AI (S k) tb (upd dd k d) mu' s') \/
  (exists s', alloc_one E U k (mu, s) = ((mu, s'), Throw EBadAlloc) /\ AI k tb dd mu s' /\ exists n, an_err (u_ans U n) <> 0%Z).
Proof.
  intros I Hk. destruct (slot_ex E _ _ k (su_good _ _ _ _ _ _ _ _ _ _ SU) Hk) as (m & off & Hs).
  pose proof (ai_mu _ _ _ _ _ I) as Hmu. pose proof Hmu as (M1 & M2 & M3 & M4 & M5 & M6).
  pose proof (ai_part _ _ _ _ _ I) as P. pose proof (su_good _ _ _ _ _ _ _ _ _ _ SU) as G.
  assert (Htb : has_blk s tb) by (unfold has_blk; rewrite (pa_blk _ _ _ _ _ _ _ _ _ _ P); congruence).
  assert (HN : N0 <= tb < s_next s) by (apply (ai_ge _ _ _ _ _ I); now left).
  assert (Hmid : w_mid (s_w s) = mid) by (rewrite (ai_w _ _ _ _ _ I); reflexivity).
  assert (Hx : s_obj s o = Some x) by (rewrite (ai_obj _ _ _ _ _ I); apply (su_obj _ _ _ _ _ _ _ _ _ _ SU)).
  assert (Hs' : slot_at (mu_ty mu) k m off) by now rewrite M5.
  destruct (N.eqb_spec off 0) as [->|Hz].
  - assert (Hnk : nw k = match oidx m with None => true | Some _ => false end) by (eapply nw_slot; eauto).
    pose proof (old_slot_eq mu m Hmu) as Hos. rewrite <- Hmid in Hos.
    destruct (oidx m) as [oi|] eqn:Hoi.
    + left. assert (exists b, ob = Some b) as [b Hb] by (unfold oidx in Hoi; destruct ob; eauto; discriminate). rewrite Hb in Hos.
      destruct (su_old _ _ _ _ _ _ _ _ _ _ SU b Hb) as (_ & _ & G0 & _ & P0).
      assert (Hm0 : nth_error (t_mixins t0) oi = Some m) by (eapply oidx_in; eauto; apply Hs).
      assert (Hrd : bdat (s_blk s) b oi = Some (ddo oi)).
      { assert (Hbl : b < N0) by now apply old_blk_lt.
        unfold bdat. rewrite (ai_lt _ _ _ _ _ I) by auto. pose proof (pa_data _ _ _ _ _ _ _ _ _ _ P0 oi) as Hd. unfold bdat in Hd. rewrite Hd.
        apply nth_error_lt in Hm0. apply Nat.ltb_lt in Hm0. now rewrite Hm0. }
      exists (ddo oi). eexists. eexists. split; [eapply alloc_one_com; eauto; apply (ai_td _ _ _ _ _ I)|].
      destruct (st_data_views s tb k (ddo oi) Htb) as (V1 & V2 & V3 & V4).
      pose proof (in_blk_rest s tb (fun b => with_data b k (ddo oi))) as ((R1 & R2 & R3) & R4 & R5).
      assert (Hfpeq : forall c, fp t tb (upd dd k (ddo oi)) (fun i => (i <? S k) && nw i) c -> fp t tb dd (fun i => (i <? k) && nw i) c).
      { intros c Hc. destruct (fp_grow _ _ _ _ _ Hc) as [|(Hn & _)]; auto. congruence. }
      constructor; cbn [with_au mu_obj mu_old mu_odata mu_ref mu_ty mu_tdata mu_au mu_uu mu_complete mu_moved].
      * repeat split; auto.
      * apply (ai_td _ _ _ _ _ I).
      * reflexivity.
      * apply (ai_uu _ _ _ _ _ I).
      * apply (ai_co _ _ _ _ _ I).
      * lia.
      * unfold st_data. rewrite R2. apply (ai_obj _ _ _ _ _ I).
      * unfold st_data. rewrite R1. apply (ai_w _ _ _ _ _ I).
      * eapply part_extend; eauto.
        -- intros c Hc. split; auto. split; intros n; [apply V4|]. rewrite V3. auto.
        -- intros i. rewrite V2, Nat.eqb_refl. reflexivity.
        -- congruence.
        -- congruence.
      * intros c Hc. rewrite st_data_other by lia. now apply (ai_lt _ _ _ _ _ I).
      * intros c Hc Hn. apply fp_mono. apply (ai_fp _ _ _ _ _ I); auto. intros Hc0. apply Hn. unfold st_data. now apply in_blk_none.
      * intros c Hc. unfold st_data. rewrite R3. apply (ai_ge _ _ _ _ _ I). auto.
      * intros c Hc. unfold st_data in *. rewrite R3 in Hc. apply in_blk_none. now apply (ai_next _ _ _ _ _ I).
      * intros i m' oi' Hi Hsi Hoi'. destruct (Nat.eq_dec i k) as [->|Hne].
        -- rewrite upd_same. destruct (slot_fun _ _ _ _ _ _ Hs Hsi) as (-> & _). congruence.
        -- rewrite upd_other by auto. apply (ai_com _ _ _ _ _ I i m'); auto. lia.
      * unfold st_data. rewrite R5, (ai_log _ _ _ _ _ I), aevs_snoc. unfold aev. rewrite Hnk. now rewrite app_nil_r.
    + assert (Hos' : old_slot mu (w_mid (s_w s)) m = None) by (rewrite Hos; destruct ob; auto). clear Hos.
      assert (Hx' : s_obj s (mu_obj mu) = Some x) by now rewrite M1.
      assert (Hne : tb <> s_next s) by lia.
      pose proof (alloc_one_new mu s k m tb x Hs' (ai_td _ _ _ _ _ I) Htb Hne Hos' Hx') as Hal. cbv zeta in Hal. rewrite M1 in Hal.
      set (sz := m_buf_size (e_mixin E m)) in *. set (bo := m_buf_off (e_mixin E m)) in *.
      destruct (Z.eqb_spec (an_err (u_ans U (s_calls s))) 0) as [He|He].
      * left. set (s1 := st_alloc s (ext_al E a m) sz bo) in *. set (e := s_next s) in *. set (d := {| md_buf := Some e; md_mixin := (e, bo) |}) in *.
        assert (B1 : forall c, s_blk s1 c = if c =? e then Some (new_blk (ext_al E a m) sz bo) else s_blk s c) by reflexivity.
        assert (Htb1 : has_blk s1 tb).
        { unfold has_blk, battr. rewrite B1. destruct (Nat.eqb_spec tb e); [congruence|]. exact Htb. }
        set (s2 := st_data s1 tb k d) in *.
        assert (He2 : s_blk s2 e = Some (new_blk (ext_al E a m) sz bo)) by (unfold s2; rewrite st_data_other, B1, Nat.eqb_refl by congruence; auto).
        assert (Hbe : has_blk s2 (fst (e, bo))) by (unfold has_blk, battr; cbn [fst]; rewrite He2; congruence).
        exists d. eexists. eexists. split; [exact Hal|].
        set (s3 := st_back s2 (e, bo) o).
        destruct (st_data_views s1 tb k d Htb1) as (V1 & V2 & V3 & V4). fold s2 in V1, V2, V3, V4.
        destruct (st_back_views s2 (e, bo) o Hbe) as (W1 & W2 & W3 & W4). fold s3 in W1, W2, W3, W4.
        pose proof (in_blk_rest s1 tb (fun b => with_data b k d)) as ((R1 & R2 & R3) & R4 & R5). fold (st_data s1 tb k d) in R1, R2, R3, R4, R5. fold s2 in R1, R2, R3, R4, R5.
        pose proof (in_blk_rest s2 (fst (e, bo)) (fun k => with_back k (snd (e, bo)) o)) as ((T1 & T2 & T3) & T4 & T5). fold (st_back s2 (e, bo) o) in T1, T2, T3, T4, T5. fold s3 in T1, T2, T3, T4, T5.
        assert (Q : forall c, c <> e -> s_blk s1 c = s_blk s c) by (intros c Hc; rewrite B1; destruct (Nat.eqb_spec c e); congruence).
        assert (Qe : ~ fp t tb dd (fun i => (i <? k) && nw i) e) by (intros Hf; apply (ai_ge _ _ _ _ _ I) in Hf; unfold e in Hf; lia).
        constructor; cbn [with_au mu_obj mu_old mu_odata mu_ref mu_ty mu_tdata mu_au mu_uu mu_complete mu_moved].
        -- repeat split; auto.
        -- apply (ai_td _ _ _ _ _ I).
        -- reflexivity.
        -- apply (ai_uu _ _ _ _ _ I).
        -- apply (ai_co _ _ _ _ _ I).
        -- lia.
        -- rewrite T2, R2. apply (ai_obj _ _ _ _ _ I).
        -- rewrite T1, R1. apply (ai_w _ _ _ _ _ I).
        -- eapply part_extend; eauto.
           ++ intros c Hc. assert (c <> e) by (intros ->; auto). rewrite W1, V1. split; [unfold battr; now rewrite Q|]. split; intros n.
              ** rewrite W4, V4. unfold binst. cbn [fst snd]. now rewrite Q.
              ** rewrite W3, V3. destruct (addr_eqb (c, n) (e, bo)); auto. unfold bback. cbn [fst snd]. now rewrite Q.
           ++ intros i. rewrite W2, V2, Nat.eqb_refl. cbn [andb]. destruct (i =? k); auto. unfold bdat. now rewrite Q.
           ++ congruence.
           ++ intros _ _. exists e. split; auto. split; [reflexivity|]. split.
              { rewrite W1, V1. unfold battr. rewrite B1, Nat.eqb_refl. reflexivity. }
              split.
              { cbn [md_mixin d]. rewrite W3, addr_eqb_refl. reflexivity. }
              intros n. rewrite W4, V4. unfold binst. cbn [fst snd]. rewrite B1, Nat.eqb_refl. reflexivity.
        -- intros c Hc. unfold s3. rewrite st_back_other by (cbn [fst]; unfold e; lia). unfold s2. rewrite st_data_other by lia. rewrite Q by (unfold e; lia). now apply (ai_lt _ _ _ _ _ I).
        -- intros c Hc Hn. destruct (Nat.eq_dec c e) as [->|Hce].
           ++ right. exists k, m. rewrite upd_same. split; auto. split; auto. rewrite Hnk, andb_true_r. apply Nat.ltb_lt. lia.
           ++ apply fp_mono. apply (ai_fp _ _ _ _ _ I); auto. intros Hc0. apply Hn. unfold s3, st_back. apply in_blk_none. unfold s2, st_data. apply in_blk_none. now rewrite Q.
        -- intros c Hc. rewrite T3, R3. cbn. destruct (fp_grow _ _ _ _ _ Hc) as [Hc'|(_ & Hc' & _)].
           ++ apply (ai_ge _ _ _ _ _ I) in Hc'. lia.
           ++ cbn [md_buf d] in Hc'. injection Hc' as <-. unfold e. lia.
        -- intros c Hc. rewrite T3, R3 in Hc. cbn in Hc. unfold s3, st_back. apply in_blk_none. unfold s2, st_data. apply in_blk_none. rewrite Q by (unfold e; lia). apply (ai_next _ _ _ _ _ I). lia.
        -- intros i m' oi' Hi Hsi Hoi'. destruct (Nat.eq_dec i k) as [->|Hnik].
           ++ destruct (slot_fun _ _ _ _ _ _ Hs Hsi) as (-> & _). congruence.
           ++ rewrite upd_other by auto. apply (ai_com _ _ _ _ _ I i m'); auto. lia.
        -- rewrite T5, R5. cbn [s_log s1 st_alloc add_log set_blk add_next add_call]. rewrite (ai_log _ _ _ _ _ I), aevs_snoc. unfold aev. rewrite Hnk, upd_same. cbn [md_buf d].
           rewrite (mixin_at_slot _ _ _ _ Hs). now rewrite <- app_assoc.
      * right. exists (add_call s). split; [exact Hal|]. split; [|eauto]. destruct I. constructor; auto.
  - left. set (d := {| md_buf := None; md_mixin := (tb, off) |}).
    set (s2 := st_data s tb k d) in *.
    assert (Hbe : has_blk s2 (fst (tb, off))).
    { cbn [fst]. unfold has_blk, s2. destruct (st_data_views s tb k d Htb) as (-> & _). exact Htb. }
    set (s3 := st_back s2 (tb, off) o).
    exists d, (with_au mu (S k)), s3. split; [unfold s3; rewrite <- M1; apply (alloc_one_int mu s k m off tb Hs' Hz (ai_td _ _ _ _ _ I) Htb)|].
    destruct (st_data_views s tb k d Htb) as (V1 & V2 & V3 & V4). fold s2 in V1, V2, V3, V4.
    destruct (st_back_views s2 (tb, off) o Hbe) as (W1 & W2 & W3 & W4). fold s3 in W1, W2, W3, W4.
    pose proof (in_blk_rest s tb (fun b => with_data b k d)) as ((R1 & R2 & R3) & R4 & R5). fold (st_data s tb k d) in R1, R2, R3, R4, R5. fold s2 in R1, R2, R3, R4, R5.
    pose proof (in_blk_rest s2 (fst (tb, off)) (fun k => with_back k (snd (tb, off)) o)) as ((T1 & T2 & T3) & T4 & T5). fold (st_back s2 (tb, off) o) in T1, T2, T3, T4, T5. fold s3 in T1, T2, T3, T4, T5.
    constructor; cbn [with_au mu_obj mu_old mu_odata mu_ref mu_ty mu_tdata mu_au mu_uu mu_complete mu_moved].
    + repeat split; auto.
    + apply (ai_td _ _ _ _ _ I).
    + reflexivity.
    + apply (ai_uu _ _ _ _ _ I).
    + apply (ai_co _ _ _ _ _ I).
    + lia.
    + rewrite T2, R2. apply (ai_obj _ _ _ _ _ I).
    + rewrite T1, R1. apply (ai_w _ _ _ _ _ I).
    + eapply part_extend; eauto.
      * intros c Hc. rewrite W1, V1. split; auto. split; intros n.
        -- now rewrite W4, V4.
        -- rewrite W3, V3. destruct (addr_eqb (c, n) (tb, off)); auto.
      * intros i. rewrite W2, V2, Nat.eqb_refl. reflexivity.
      * intros _. split; [reflexivity|]. now rewrite W3, addr_eqb_refl.
      * congruence.
    + intros c Hc. unfold s3. rewrite st_back_other by (cbn [fst]; lia). unfold s2. rewrite st_data_other by lia. now apply (ai_lt _ _ _ _ _ I).
    + intros c Hc Hn. apply fp_mono. apply (ai_fp _ _ _ _ _ I); auto. intros Hc0. apply Hn. unfold s3, st_back. apply in_blk_none. unfold s2, st_data. apply in_blk_none. auto.
    + intros c Hc. rewrite T3, R3. destruct (fp_grow _ _ _ _ _ Hc) as [Hc'|(_ & Hc' & _)]; [|discriminate]. now apply (ai_ge _ _ _ _ _ I).
    + intros c Hc. rewrite T3, R3 in Hc. unfold s3, st_back. apply in_blk_none. unfold s2, st_data. apply in_blk_none. apply (ai_next _ _ _ _ _ I). lia.
    + intros i m' oi' Hi Hsi Hoi'. destruct (Nat.eq_dec i k) as [->|Hnik].
      * destruct (slot_fun _ _ _ _ _ _ Hs Hsi) as (_ & Hz'). congruence.
      * rewrite upd_other by auto. apply (ai_com _ _ _ _ _ I i m'); auto. lia.
    + rewrite T5, R5, (ai_log _ _ _ _ _ I), aevs_snoc. unfold aev. rewrite upd_same. cbn [md_buf d]. destruct (nw k); now rewrite app_nil_r.
Qed.

Lemma alloc_loop_step : forall n k tb dd mu s, AI k tb dd mu s -> k + n = length (t_mixins t) ->
  (exists dd' mu' s', alloc_loop E U (seq k n) (mu, s) = ((mu', s'), Ok tt) /\ AI (length (t_mixins t)) tb dd' mu' s') \/
  (exists k' dd' mu' s', alloc_loop E U (seq k n) (mu, s) = ((mu', s'), Throw EBadAlloc) /\ AI k' tb dd' mu' s' /\ exists n, an_err (u_ans U n) <> 0%Z).
Proof.
  induction n as [|n IH]; intros k tb dd mu s I Hk.
  - left. exists dd, mu, s. split; auto. replace (length (t_mixins t)) with k by lia. auto.
  - cbn [seq alloc_loop]. destruct (alloc_one_step k tb dd mu s I) as [(d & mu' & s' & H1 & I1)|(s' & H1 & I1 & He)]; [lia| |].
    + rewrite (bnd_ok _ _ _ _ _ H1). apply IH with (dd := upd dd k d); auto. lia.
    + right. exists k, dd, mu, s'. rewrite (bnd_throw _ _ _ _ _ H1). auto.
Qed.

Lemma allocate_step mu : mu = new_mut o x old r t -> same_type mu = false ->
  (exists tb dd mu' s', allocate_mixin_data E U (mu, s0) = ((mu', s'), Ok tt) /\ AI (length (t_mixins t)) tb dd mu' s') \/
  (exists k tb dd mu' s', allocate_mixin_data E U (mu, s0) = ((mu', s'), Throw EBadAlloc) /\ AI k tb dd mu' s' /\ exists n, an_err (u_ans U n) <> 0%Z) \/
  (allocate_mixin_data E U (mu, s0) = ((mu, add_call s0), Throw EBadAlloc) /\ exists n, an_err (u_ans U n) <> 0%Z).
Proof.
  intros -> Hsame. set (mu := new_mut o x old r t) in *.
  set (s1 := st_alloc s0 (AObj a) (t_buf_size t) (t_buf_align t)). set (s2 := set_w s1 w1).
  assert (Hal : allocate_mixin_data E U (mu, s0) = if (an_err (u_ans U (s_calls s0)) =? 0)%Z
    then alloc_loop E U (seq 0 (length (t_mixins t))) (with_tdata mu (Some N0), s2) else ((mu, add_call s0), Throw EBadAlloc)).
  { unfold allocate_mixin_data. rewrite (bnd_ok _ _ _ _ _ (get_mu_step mu s0)), Hsame.
    assert (Hx : s_obj s0 (mu_obj mu) = Some x) by apply (su_obj _ _ _ _ _ _ _ _ _ _ SU).
    rewrite (bnd_ok _ _ _ _ _ (lift_eq _ mu _ _ _ (get_obj_step s0 _ x Hx))).
    unfold allocate_object_buffer. pose proof (alloc_step U s0 (AObj a) (t_buf_size t) (t_buf_align t)) as Ha. fold s1 in Ha.
    destruct (an_err (u_ans U (s_calls s0)) =? 0)%Z.
    - etransitivity; [apply bnd_ok with (a := N0) (s1 := (mu, s2))|reflexivity]. apply lift_eq. cbn [mu_ref mu_ty mu new_mut]. rewrite (bnd_ok _ _ _ _ _ Ha).
      etransitivity; [apply bnd_ok with (a := tt) (s1 := s2)|reflexivity]. unfold on_world. change (s_w s1) with (s_w s0). now rewrite w1_incr.
    - apply bnd_throw. apply lift_eq. cbn [mu_ref mu_ty mu new_mut]. apply bnd_throw. exact Ha. }
  rewrite Hal. clear Hal. destruct (Z.eqb_spec (an_err (u_ans U (s_calls s0))) 0) as [He|He].
  -
    assert (HA : AI 0 N0 (fun _ => {| md_buf := None; md_mixin := (0, 0%N) |}) (with_tdata mu (Some N0)) s2).
    { constructor; cbn [mu with_tdata new_mut mu_obj mu_old mu_odata mu_ref mu_ty mu_tdata mu_au mu_uu mu_complete mu_moved]; auto.
      - repeat split; auto. apply (su_dat _ _ _ _ _ _ _ _ _ _ SU).
      - lia.
      - assert (Hb : forall c, s_blk s2 c = if c =? N0 then Some (new_blk (AObj a) (t_buf_size t) (t_buf_align t)) else s_blk s0 c) by reflexivity.
        constructor.
        + unfold battr. rewrite Hb, Nat.eqb_refl. reflexivity.
        + discriminate.
        + intros i. unfold bdat. rewrite Hb, Nat.eqb_refl. reflexivity.
        + discriminate.
        + discriminate.
        + discriminate.
        + discriminate.
        + intros p y [Hp|(i & m & _ & Hf & _)]; [|discriminate]. unfold binst. rewrite Hp, Hb, Nat.eqb_refl. discriminate.
      - intros b Hb. cbn. apply upd_other. lia.
      - intros b Hb Hn. destruct (Nat.eq_dec b N0) as [->|Hne]; [now left|]. exfalso. apply Hn. cbn. rewrite upd_other by auto. apply (su_next _ _ _ _ _ _ _ _ _ _ SU). auto.
      - intros b [->|(i & m & _ & Hf & _)]; [cbn; lia|discriminate].
      - intros b Hb. cbn in *. rewrite upd_other by lia. apply (su_next _ _ _ _ _ _ _ _ _ _ SU). lia.
      - intros i m oi Hi. lia. }
    destruct (alloc_loop_step (length (t_mixins t)) 0 N0 _ _ s2 HA) as [(dd' & mu' & s' & H1 & I1)|(k' & dd' & mu' & s' & H1 & I1 & Hn)]; [lia| |].
    + left. exists N0, dd', mu', s'. auto.
    + right. left. exists k', N0, dd', mu', s'. auto.
  - right. right. split; [reflexivity|eauto].
Qed.

End Mut.
End Alloc.
