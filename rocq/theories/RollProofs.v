(** What the rollback of a mutation does *)
From Coq Require Import List Arith ZArith NArith Lia Bool.
From Verif Require Import Base Sv BaseLemmas Info TypeBuild TypeQuery Domain Heap HeapProofs Mutation PartProofs.
Import ListNotations.

Lemma bnd_ok {S A B} (x : M S A) (f : A -> M S B) s s1 a : x s = (s1, Ok a) -> bnd x f s = f a s1.
Proof. unfold bnd. now intros ->. Qed.
Lemma bnd_throw {S A B} (x : M S A) (f : A -> M S B) s s1 e : x s = (s1, Throw e) -> bnd x f s = (s1, Throw e).
Proof. unfold bnd. now intros ->. Qed.
Lemma lift_eq {A} (x : M st A) mu s s' r : x s = (s', r) -> lift x (mu, s) = ((mu, s'), r).
Proof. unfold lift. cbn [snd fst]. now intros ->. Qed.

Section Roll.
Variable E : env.

Definition mixin_at (t : type_rec) (i : nat) : mptr := nth i (t_mixins t) 0.
Lemma mixin_at_slot t i m off : slot_at t i m off -> mixin_at t i = m.
Proof. intros [A _]. unfold mixin_at. now apply nth_error_nth. Qed.

(** Is the mixin at the index one that the old type does not have? *)
Definition is_new (mu : omut) (mid : mptr -> option nat) (i : nat) : bool :=
  match nth_error (t_mixins (mu_ty mu)) i with
  | Some m => match old_slot mu mid m with None => true | Some _ => false end
  | None => false
  end.
Lemma is_new_slot mu mid i m off : slot_at (mu_ty mu) i m off -> is_new mu mid i = match old_slot mu mid m with None => true | Some _ => false end.
Proof. intros [A _]. unfold is_new. now rewrite A. Qed.

(** The events of destroy_new_mixins and deallocate_mixin_data *)
Fixpoint devs (t : type_rec) (dd : nat -> mdata) (nw : nat -> bool) (k : nat) : list ev :=
  match k with
  | O => []
  | S j => (if nw j && m_destroy (e_mixin E (mixin_at t j)) then [EvCall FDestroy (mixin_at t j) (md_mixin (dd j)) None 0] else []) ++ devs t dd nw j
  end.
Definition free_ev (a : nat) (m : mptr) (e : nat) : ev := EvFree (ext_al E a m) e (m_buf_size (e_mixin E m)) (m_buf_off (e_mixin E m)).
Fixpoint fevs (a : nat) (t : type_rec) (dd : nat -> mdata) (nw : nat -> bool) (k : nat) : list ev :=
  match k with
  | O => []
  | S j => (if nw j then match md_buf (dd j) with Some e => [free_ev a (mixin_at t j) e] | None => [] end else []) ++ fevs a t dd nw j
  end.

Section Mut.
Variables (mid : mptr -> option nat) (o a : nat) (t : type_rec) (tb : nat) (dd : nat -> mdata).
Variable mu : omut.
Hypothesis G : tgood E mid t.
Hypothesis Hty : mu_ty mu = t.
Hypothesis Htd : mu_tdata mu = Some tb.
Hypothesis Hob : mu_obj mu = o.
Notation nw := (is_new mu mid).
Notation part := (part E).

Lemma destroy_one_step s k m off dat own con : part (s_blk s) o a t tb dd dat own con -> w_mid (s_w s) = mid -> slot_at t k m off ->
  con k = nw k ->
  exists s', destroy_one E k (mu, s) = ((mu, s'), Ok tt) /\
    part (s_blk s') o a t tb dd dat own (fun j => if j =? k then false else con j) /\
    same_rest s s' /\ s_calls s' = s_calls s /\
    (forall b, ~ fp t tb dd own b -> s_blk s' b = s_blk s b) /\ (forall b, s_blk s' b = None <-> s_blk s b = None) /\
    s_log s' = s_log s ++ (if nw k && m_destroy (e_mixin E m) then [EvCall FDestroy m (md_mixin (dd k)) None 0] else []).
Proof.
  intros P Hmid Hs Hc.
  assert (Hn : nw k = match old_slot mu mid m with None => true | Some _ => false end) by (apply (is_new_slot _ _ _ _ off); now rewrite Hty).
  unfold destroy_one. cbv beta delta [bnd get_mu]. cbn [fst snd]. unfold target_mixin. rewrite Hty. rewrite (proj1 Hs). cbn [ret].
  unfold ret at 1. unfold get_mid. cbn [fst snd]. rewrite Hmid.
  destruct (old_slot mu mid m) as [q|] eqn:Hq.
  - exists s. split; auto. rewrite Hn in *. split.
    { eapply part_ext; eauto. intros i. simpl. destruct (Nat.eqb_spec i k); congruence. }
    split; [apply same_rest_refl|]. split; auto. split; auto. split; [tauto|]. simpl. now rewrite app_nil_r.
  - rewrite Hn in *. destruct (m_destroy (e_mixin E m)) eqn:Hd.
    + unfold target_data. rewrite Htd. unfold ret at 1.
      destruct (part_con_mine _ _ _ _ _ _ _ _ _ _ _ P Hc) as (m' & off' & v & Hm & Hv). pose proof Hm as (Hs' & Hdt & Hown).
      destruct (slot_fun _ _ _ _ _ _ Hs Hs') as (-> & ->).
      assert (Hrd : read_data tb k s = (s, Ok (dd k))) by (apply read_data_step; rewrite (pa_data _ _ _ _ _ _ _ _ _ _ P), Hdt; auto).
      rewrite (lift_eq _ mu _ _ _ Hrd).
      assert (Hde := destroy_step E s m (md_mixin (dd k)) _ Hv eq_refl Hd).
      rewrite (lift_eq _ mu _ _ _ Hde). eexists. split; [reflexivity|].
      set (s1 := add_log s (EvCall FDestroy m (md_mixin (dd k)) None 0)) in *.
      assert (Hb : has_blk s1 (fst (md_mixin (dd k)))) by (apply (binst_has _ _ _ Hv)).
      pose proof (st_del_views s1 _ Hb) as (V1 & V2 & V3 & V4).
      split.
      { eapply (part_del E mid); [exact G|exact P|exact Hm| |intros; reflexivity]. split; [|split; [|split]]; auto. }
      pose proof (in_blk_rest s1 (fst (md_mixin (dd k))) (fun k0 => with_inst k0 (adel (snd (md_mixin (dd k))) (b_inst k0)))) as (R1 & R2 & R3).
      split; [destruct R1 as (R4 & R5 & R6); split; [|split]; auto|]. split; [exact R2|]. split.
      { intros b Hnf. unfold st_del. rewrite in_blk_other; auto. intros ->. apply Hnf. eapply part_mine_fp; eauto. }
      split; [intros b; apply (in_blk_none s1)|]. unfold st_del. rewrite R3. reflexivity.
    + exists s. split; auto. split.
      { eapply part_forget; eauto. }
      split; [apply same_rest_refl|]. split; auto. split; auto. split; [tauto|]. simpl. now rewrite app_nil_r.
Qed.

Lemma destroy_loop dat own : forall k s, k <= length (t_mixins t) ->
  part (s_blk s) o a t tb dd dat own (fun i => (i <? k) && nw i) -> w_mid (s_w s) = mid ->
  exists s', down_loop (destroy_one E) k (mu, s) = ((mu, s'), Ok tt) /\
    part (s_blk s') o a t tb dd dat own (fun _ => false) /\
    same_rest s s' /\ s_calls s' = s_calls s /\
    (forall b, ~ fp t tb dd own b -> s_blk s' b = s_blk s b) /\ (forall b, s_blk s' b = None <-> s_blk s b = None) /\
    s_log s' = s_log s ++ devs t dd nw k.
Proof.
  induction k as [|k IH]; intros s Hk P Hmid.
  - exists s. split; auto. split; [eapply part_ext; eauto|]. split; [apply same_rest_refl|]. split; auto. split; auto. split; [tauto|]. simpl. now rewrite app_nil_r.
  - destruct (slot_ex E mid t k G) as (m & off & Hs); [lia|].
    destruct (destroy_one_step s k m off dat own _ P Hmid Hs) as (s1 & H1 & P1 & R1 & C1 & B1 & D1 & L1).
    { cbn beta. destruct (Nat.ltb_spec k (S k)); [reflexivity|lia]. }
    destruct (IH s1) as (s2 & H2 & P2 & R2 & C2 & B2 & D2 & L2); [lia| | |].
    { eapply part_ext; [exact P1| | |]; auto. intros i. simpl.
      destruct (Nat.eqb_spec i k) as [->|Hne]; [now rewrite Nat.ltb_irrefl|].
      destruct (Nat.ltb_spec i k), (Nat.ltb_spec i (S k)); auto; lia. }
    { destruct R1 as (-> & _). auto. }
    exists s2. split. { cbn [down_loop]. rewrite (bnd_ok _ _ _ _ _ H1). exact H2. }
    split; auto. split; [eapply same_rest_trans; eauto|]. split; [congruence|]. split; [intros b Hb; rewrite B2, B1; auto|].
    split; [intros b; rewrite D2; apply D1|]. rewrite L2, L1, <- app_assoc. simpl. now rewrite (mixin_at_slot _ _ _ _ Hs).
Qed.

Lemma dealloc_one_step s k m off dat own x : part (s_blk s) o a t tb dd dat own (fun _ => false) -> w_mid (s_w s) = mid -> slot_at t k m off ->
  s_obj s o = Some x -> o_alloc x = a -> dat k = true -> own k = nw k ->
  exists s', dealloc_one E k (mu, s) = ((mu, s'), Ok tt) /\
    part (s_blk s') o a t tb dd dat (fun j => if j =? k then false else own j) (fun _ => false) /\
    same_rest s s' /\ s_calls s' = s_calls s /\
    (forall b, s_blk s' b = if nw k && opt_eqb (md_buf (dd k)) (Some b) then None else s_blk s b) /\
    s_log s' = s_log s ++ (if nw k then match md_buf (dd k) with Some e => [free_ev a m e] | None => [] end else []).
Proof.
  intros P Hmid Hs Hx Ha Hdt Ho.
  assert (Hn : nw k = match old_slot mu mid m with None => true | Some _ => false end) by (apply (is_new_slot _ _ _ _ off); now rewrite Hty).
  assert (Hrd : read_data tb k s = (s, Ok (dd k))) by (apply read_data_step; rewrite (pa_data _ _ _ _ _ _ _ _ _ _ P), Hdt; auto).
  unfold dealloc_one. cbv beta delta [bnd get_mu]. cbn [fst snd]. unfold target_data. rewrite Htd. unfold ret at 1.
  rewrite (lift_eq _ mu _ _ _ Hrd).
  destruct (N.eq_dec off 0) as [->|Hz].
  - destruct (nw k) eqn:Hnk.
    + destruct (pa_ext _ _ _ _ _ _ _ _ _ _ P k m Hs Ho) as (_ & e & Hne & Hd & Hat & Hbk). rewrite Hd. cbn [md_buf].
      unfold target_mixin. rewrite Hty, (proj1 Hs). unfold ret at 1. unfold get_mid. cbn [fst snd]. rewrite Hmid.
      destruct (old_slot mu mid m); [discriminate|].
      rewrite Hob. rewrite (lift_eq _ mu _ _ _ (get_obj_step s o x Hx)). unfold free_external. rewrite ext_al_eq, Ha.
      assert (Hfr : free E (ext_al E a m) e (m_buf_size (e_mixin E m)) (m_buf_off (e_mixin E m)) s = (st_free s (ext_al E a m) e (m_buf_size (e_mixin E m)) (m_buf_off (e_mixin E m)), Ok tt)).
      { apply free_step; auto. intros off y Hy. destruct (needs_destroy E y) eqn:Hnd; auto. exfalso.
        destruct (pa_live _ _ _ _ _ _ _ _ _ _ P (e, off) y) as (j & Hj & _); auto; [|discriminate].
        right. exists k, m. rewrite Hd. auto. }
      rewrite (lift_eq _ mu _ _ _ Hfr). eexists. split; [reflexivity|]. split.
      { eapply part_disown with (i := k) (e := e); eauto. { now rewrite Hd. }
        intros b Hb. apply agree_eq. simpl. now apply upd_other. }
      split; [repeat split|]. split; auto. split; [|reflexivity].
      intros b. simpl. unfold upd. rewrite Nat.eqb_sym. reflexivity.
    + exists s. split.
      { destruct (md_buf (dd k)) as [e|]; auto. unfold target_mixin. rewrite Hty, (proj1 Hs). unfold ret at 1. unfold get_mid. cbn [fst snd]. rewrite Hmid.
        destruct (old_slot mu mid m); [auto|discriminate]. }
      split; [eapply part_ext; eauto; intros i; simpl; destruct (Nat.eqb_spec i k); congruence|].
      split; [apply same_rest_refl|]. split; auto. split; auto. now rewrite app_nil_r.
  - destruct (pa_int _ _ _ _ _ _ _ _ _ _ P k m off Hs Hdt Hz) as (Hd & _). rewrite Hd. cbn [md_buf]. exists s. split; auto.
    split.
    { assert (Hsub : forall b, fp t tb dd (fun j => if j =? k then false else own j) b -> fp t tb dd own b).
      { intros b [->|(j & m' & A1 & A2 & A3)]; [now left|]. right. exists j, m'. destruct (j =? k); [discriminate|auto]. }
      destruct P as [P1 P2 P3 P4 P5 P6 P7 P8]. constructor; [exact P1|exact P2|exact P3|exact P4| | |discriminate|].
      - intros j m' H1 H2. destruct (j =? k); [discriminate|]. auto.
      - intros i j m1 m2 H1 H2 H3 H4. destruct (i =? k); [discriminate|]. destruct (j =? k); [discriminate|]. eauto.
      - intros p y Hf. apply P8. auto. }
    split; [apply same_rest_refl|]. split; auto. split.
    { intros b. simpl. now rewrite andb_false_r. }
    destruct (nw k); simpl; now rewrite app_nil_r.
Qed.

Lemma dealloc_loop dat x : forall k s, k <= length (t_mixins t) ->
  part (s_blk s) o a t tb dd dat (fun i => (i <? k) && nw i) (fun _ => false) -> w_mid (s_w s) = mid ->
  s_obj s o = Some x -> o_alloc x = a -> (forall i, i < k -> dat i = true) ->
  exists s', down_loop (dealloc_one E) k (mu, s) = ((mu, s'), Ok tt) /\
    part (s_blk s') o a t tb dd dat (fun _ => false) (fun _ => false) /\
    same_rest s s' /\ s_calls s' = s_calls s /\
    (forall b, fp t tb dd (fun i => (i <? k) && nw i) b -> b <> tb -> s_blk s' b = None) /\
    (forall b, ~ (fp t tb dd (fun i => (i <? k) && nw i) b /\ b <> tb) -> s_blk s' b = s_blk s b) /\
    s_log s' = s_log s ++ fevs a t dd nw k.
Proof.
  induction k as [|k IH]; intros s Hk P Hmid Hx Ha Hdt.
  - exists s. split; auto. split; [eapply part_ext; eauto|]. split; [apply same_rest_refl|]. split; auto.
    split. { intros b [->|(i & m & _ & Hf & _)]; [congruence|discriminate]. }
    split; auto. simpl. now rewrite app_nil_r.
  - destruct (slot_ex E mid t k G) as (m & off & Hs); [lia|].
    assert (Hdk : dat k = true) by (apply Hdt; lia).
    destruct (dealloc_one_step s k m off dat _ x P Hmid Hs Hx Ha Hdk) as (s1 & H1 & P1 & R1 & C1 & B1 & L1).
    { cbn beta. destruct (Nat.ltb_spec k (S k)); [reflexivity|lia]. }
    destruct (IH s1) as (s2 & H2 & P2 & R2 & C2 & F2 & B2 & L2); [lia| | | | | |].
    { eapply part_ext; [exact P1| | |]; auto. intros i. simpl.
      destruct (Nat.eqb_spec i k) as [->|Hne]; [now rewrite Nat.ltb_irrefl|].
      destruct (Nat.ltb_spec i k), (Nat.ltb_spec i (S k)); auto; lia. }
    { destruct R1 as (-> & _). auto. }
    { destruct R1 as (_ & -> & _). auto. }
    { exact Ha. }
    { intros i Hi. apply Hdt. lia. }
    exists s2. split. { cbn [down_loop]. rewrite (bnd_ok _ _ _ _ _ H1). exact H2. }
    split; auto. split; [eapply same_rest_trans; eauto|]. split; [congruence|].
    assert (Hmono : forall b, fp t tb dd (fun i => (i <? k) && nw i) b -> fp t tb dd (fun i => (i <? S k) && nw i) b).
    { intros b [->|(i & m' & A1 & A2 & A3)]; [now left|]. right. exists i, m'. split; auto. split; auto.
      apply andb_true_iff in A2. destruct A2 as [A2 A4]. rewrite A4, andb_true_r. apply Nat.ltb_lt in A2. apply Nat.ltb_lt. lia. }
    split.
    { intros b Hf Hb. destruct (nw k && opt_eqb (md_buf (dd k)) (Some b)) eqn:Hfk.
      - destruct (s_blk s2 b) eqn:Hb2; auto. exfalso.
        assert (Hnf : ~ (fp t tb dd (fun i => (i <? k) && nw i) b /\ b <> tb)) by (intros [H3 H4]; rewrite F2 in Hb2; [discriminate|auto|auto]).
        rewrite B2, B1, Hfk in Hb2 by auto. discriminate.
      - apply F2; auto. destruct Hf as [->|(i & m' & A1 & A2 & A3)]; [congruence|]. right. exists i, m'. split; auto. split; auto.
        apply andb_true_iff in A2. destruct A2 as [A2 A4]. rewrite A4, andb_true_r. apply Nat.ltb_lt in A2. apply Nat.ltb_lt.
        destruct (Nat.eq_dec i k) as [->|]; [|lia]. rewrite A4, A3 in Hfk. destruct (opt_eqb_spec (Some b) (Some b)); [discriminate|congruence]. }
    split.
    { intros b Hf. rewrite B2 by (intros [H3 H4]; apply Hf; auto). rewrite B1.
      destruct (nw k) eqn:Hnk; auto. destruct (opt_eqb_spec (md_buf (dd k)) (Some b)) as [He|]; auto. exfalso. apply Hf.
      assert (Hz : off = 0%N). { destruct (N.eq_dec off 0); auto. destruct (pa_int _ _ _ _ _ _ _ _ _ _ P k m off Hs Hdk n) as (Hd & _). rewrite Hd in He. discriminate. }
      subst off. assert (Ho : (k <? S k) && nw k = true) by (rewrite Hnk, andb_true_r; apply Nat.ltb_lt; lia).
      split; [right; exists k, m; auto|]. destruct (pa_ext _ _ _ _ _ _ _ _ _ _ P k m Hs Ho) as (_ & e & Hne & Hd & _). rewrite Hd in He. simpl in He. congruence. }
    rewrite L2, L1, <- app_assoc. simpl. now rewrite (mixin_at_slot _ _ _ _ Hs).
Qed.

End Mut.

(** The rollback of a mutation whose target is a part *)
Lemma rollback_ok mid o a t tb dd mu s x au uu r tt0 n0 : tgood E mid t -> mu_ty mu = t -> mu_tdata mu = Some tb -> mu_obj mu = o ->
  let nw := is_new mu mid in
  mu_au mu = au -> mu_uu mu = uu -> mu_ref mu = r -> same_type mu = false -> uu <= au -> au <= length (t_mixins t) ->
  part E (s_blk s) o a t tb dd (fun i => i <? au) (fun i => (i <? au) && nw i) (fun i => (i <? uu) && nw i) -> w_mid (s_w s) = mid ->
  s_obj s o = Some x -> o_alloc x = a -> w_type (s_w s) r = Some tt0 -> t_nobj tt0 = S n0 ->
  exists mu' s', rollback E (mu, s) = ((mu', s'), Ok tt) /\ mu_moved mu' = true /\
    s_w s' = with_type (s_w s) r (set_nobj tt0 n0) /\ s_obj s' = s_obj s /\ s_next s' = s_next s /\ s_calls s' = s_calls s /\
    (forall b, fp t tb dd (fun i => (i <? au) && nw i) b -> s_blk s' b = None) /\
    (forall b, ~ fp t tb dd (fun i => (i <? au) && nw i) b -> s_blk s' b = s_blk s b) /\
    s_log s' = s_log s ++ devs t dd nw uu ++ fevs a t dd nw au ++ [EvFree (AObj a) tb (t_buf_size t) (t_buf_align t)].
Proof.
  intros G Hty Htd Hob nw Hau Huu Hrf Hst Hle1 Hle2 P Hmid Hx Ha Hty0 Hnb.
  set (mu1 := with_uu mu (mu_uu mu) false).
  destruct (destroy_loop mid o a t tb dd mu1 G Hty Htd Hob _ _ uu s (Nat.le_trans _ _ _ Hle1 Hle2) P Hmid) as (s1 & H1 & P1 & R1 & C1 & B1 & D1 & L1).
  set (mu2 := with_uu mu1 0 false).
  assert (Hle : forall i, i < au -> (i <? au) = true) by (intros i; apply Nat.ltb_lt).
  assert (Hx1 : s_obj s1 o = Some x) by (destruct R1 as (_ & -> & _); auto).
  assert (Hmid1 : w_mid (s_w s1) = mid) by (destruct R1 as (-> & _); auto).
  destruct (dealloc_loop mid o a t tb dd mu2 G Hty Htd Hob _ x au s1 Hle2 P1 Hmid1 Hx1 Ha Hle) as (s2 & H2 & P2 & R2 & C2 & F2 & B2 & L2).
  assert (Hx2 : s_obj s2 o = Some x) by (destruct R2 as (_ & -> & _); auto).
  assert (Hw2 : s_w s2 = s_w s) by (destruct R1 as (<- & _), R2 as (-> & _); auto).
  assert (Hfr : free E (AObj a) tb (t_buf_size t) (t_buf_align t) s2 = (st_free s2 (AObj a) tb (t_buf_size t) (t_buf_align t), Ok tt)).
  { apply free_step; [apply (pa_blk _ _ _ _ _ _ _ _ _ _ P2)|]. intros off y Hy. destruct (needs_destroy E y) eqn:Hnd; auto. exfalso.
    destruct (pa_live _ _ _ _ _ _ _ _ _ _ P2 (tb, off) y) as (j & Hj & _); auto; [now left|discriminate]. }
  assert (Hde : deallocate_object_buffer E r t a tb s2 = (set_w (st_free s2 (AObj a) tb (t_buf_size t) (t_buf_align t)) (with_type (s_w s) r (set_nobj tt0 n0)), Ok tt)).
  { unfold deallocate_object_buffer. rewrite (bnd_ok _ _ _ _ _ Hfr). unfold on_world. cbn [s_w st_free add_log set_blk]. rewrite Hw2.
    unfold decr_nobj. rewrite Hty0, Hnb. reflexivity. }
  eexists. eexists. split.
  { unfold rollback. unfold set_mu at 1. unfold bnd at 1. cbn [fst snd]. fold mu1. unfold get_mu at 1. unfold bnd at 1.
    cbn [fst]. replace (same_type mu1) with false by (symmetry; exact Hst). cbn [negb].
    etransitivity; [apply bnd_ok with (a := tt) (s1 := (with_tdata (with_au mu2 0) None, set_w (st_free s2 (AObj a) tb (t_buf_size t) (t_buf_align t)) (with_type (s_w s) r (set_nobj tt0 n0))))|reflexivity].
    etransitivity.
    { apply bnd_ok with (a := tt) (s1 := (mu2, s1)). unfold destroy_new_mixins. unfold get_mu at 1. unfold bnd at 1. cbn [fst].
      replace (mu_uu mu1) with uu. rewrite (bnd_ok _ _ _ _ _ H1). reflexivity. }
    unfold deallocate_mixin_data. unfold get_mu at 1. unfold bnd at 1. cbn [fst]. cbn [mu_uu mu2 with_uu Nat.eqb negb].
    replace (mu_au mu2) with au. rewrite (bnd_ok _ _ _ _ _ H2). unfold set_mu at 1. unfold bnd at 1. cbn [fst snd].
    replace (mu_tdata mu2) with (Some tb). replace (mu_obj mu2) with o. replace (mu_ref mu2) with r. replace (mu_ty mu2) with t.
    rewrite (bnd_ok _ _ _ _ _ (lift_eq _ _ _ _ _ (get_obj_step s2 o x Hx2))). rewrite Ha.
    rewrite (bnd_ok _ _ _ _ _ (lift_eq _ _ _ _ _ Hde)). reflexivity. }
  split; [reflexivity|]. cbn [snd s_w s_obj s_next s_calls s_blk s_log set_w st_free add_log set_blk]. split; [reflexivity|].
  destruct R1 as (_ & R1 & R1'), R2 as (_ & R2 & R2'). split; [rewrite R2; exact R1|]. split; [rewrite R2'; exact R1'|]. split; [rewrite C2; exact C1|].
  split. { intros b Hb. unfold upd. destruct (Nat.eqb_spec b tb); auto. }
  split. { intros b Hb. rewrite upd_other by (intros ->; apply Hb; now left). rewrite B2, B1; auto. tauto. }
  rewrite L2, L1, <- !app_assoc. reflexivity.
Qed.
End Roll.
