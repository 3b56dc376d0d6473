(** A whole mutation: allocation, updates by a plan, and finalize or rollback *)
From Coq Require Import List Arith ZArith NArith Lia Bool.
From Verif Require Import Base Sv BaseLemmas Info TypeBuild TypeQuery Domain TypesProofs Heap HeapProofs Mutation PartProofs RollProofs AllocProofs UpdProofs FinProofs.
Import ListNotations.

(** Two worlds with the same contents *)
Record wlike (w w' : world) : Prop := {
  wl_mid : w_mid w' = w_mid w;
  wl_mdom : w_mdom w' = w_mdom w;
  wl_fid : w_fid w' = w_fid w;
  wl_dom : w_dom w' = w_dom w;
  wl_next : w_next w' = w_next w;
  wl_type : forall q, w_type w' q = w_type w q
}.
Lemma wlike_refl w : wlike w w.
Proof. constructor; auto. Qed.

Section Perf.
Variable E : env.
Variable U : user.
Variables (s0 : st) (o : nat) (x : obj) (old : option (tref * type_rec)) (r : tref) (t : type_rec) (ob : option nat) (r0 : tref) (t0 : type_rec) (ddo : nat -> mdata).
Hypothesis SU : setup E s0 o x old r t ob r0 t0 ddo.
Notation part := (part E).
Notation mid := (w_mid (s_w s0)).
Notation N0 := (s_next s0).
Notation a := (o_alloc x).
Notation oidx := (oidx s0 ob t0).
Notation nw := (nw s0 t ob t0).
Notation n := (length (t_mixins t)).
Notation n0 := (length (t_mixins t0)).
Notation B0 := (s_blk s0).
Notation oaddr := (oaddr ddo).
Notation anew := (anew s0 t ob t0).
Variables (np : nat -> option (fn * option addr)) (cp : nat -> cact) (ord : Prop).
Hypothesis PK : plan_ok s0 t ob t0 ddo np cp.
Notation mu0 := (new_mut o x old r t).
Notation sm := (same_type mu0).
Hypothesis Hot : match o_type x with Some q => w_type (s_w s0) q <> None | None => True end.

Notation PBs := (fun sm tb dd nx ws lg => PB E s0 o x old r t ob t0 ddo sm tb dd nx ws lg np cp).
Definition side (sm : bool) (tb : nat) (dd : nat -> mdata) (nx : nat) (ws : world) : Prop :=
  (sm = true -> forall i, nw i = false) /\ w_mid ws = mid /\ (sm = false -> forall b, fp t tb dd anew b -> N0 <= b).
Definition body_ok (body : M mst unit) : Prop := forall sm tb dd nx ws lg mu s oldv newv, side sm tb dd nx ws -> PBs sm tb dd nx ws lg 0 None [] oldv newv mu s ->
  went E U s0 o x old r t ob t0 ddo sm tb dd nx ws lg np cp ord (body (mu, s)) (fun u => forall i, u <= i < n -> dflt E t np cp i).

Variable body : M mst unit.
Hypothesis BO : body_ok body.

(** The object and everything but its updated mixins is as before *)
Record kept (oldv : nat -> Z) (s : st) : Prop := {
  kp_obj : s_obj s = s_obj s0;
  kp_w : wlike (s_w s0) (s_w s);
  kp_ws : s_w s = s_w s0 \/ s_w s = with_type (w1 s0 r t) r (set_nobj (set_nobj t (S (t_nobj t))) (t_nobj t));
  kp_next : N0 <= s_next s;
  kp_lim : forall c, N0 <= c -> s_blk s c = None;
  kp_old : oldmem s0 ob t0 ddo oldv (s_blk s);
  kp_v0 : forall oi, (forall i m, nth_error (t_mixins t) i = Some m -> oidx m = Some oi -> cp i = CNone) -> oldv oi = v0 s0 ddo oi
}.
(** the events of a mutation that was given up *)
Definition undone (sm : bool) (k tb : nat) (dd : nat -> mdata) (u : nat) (lx : list ev) : list ev :=
  if sm then flat_map (cev s0 t ob t0 ddo dd np cp) (seq 0 u) ++ lx
  else aevs E s0 x t ob t0 tb dd k ++ (flat_map (cev s0 t ob t0 ddo dd np cp) (seq 0 u) ++ lx) ++
       devs E t dd nw u ++ fevs E a t dd nw k ++ [EvFree (AObj a) tb (t_buf_size t) (t_buf_align t)].

Inductive reason (e : exn) : Prop :=
| rs_sealed : o_sealed x = true -> e = ESealed -> reason e
| rs_alloc k : e = EBadAlloc -> an_err (u_ans U k) <> 0%Z -> reason e
| rs_missing u : u < n -> nw u = true -> np u = None -> e = EMissingFunc -> reason e
| rs_user k u : u < n -> (nw u = true -> exists q, np u = Some q) -> (nw u = false -> cp u <> CNone) -> an_err (u_ans U k) <> 0%Z -> e = EUserFunc (an_err (u_ans U k)) -> reason e
| rs_order : ord -> e = EBadPiecewise -> reason e.

(** the call that failed, if it was one *)
Definition last_call (dd : nat -> mdata) (u : nat) (lx : list ev) : Prop := lx = [] \/ exists f p src err, lx = [EvCall f (mixin_at t u) p src err] /\ u < n /\ err <> 0%Z /\
  (nw u = true /\ np u = Some (f, src) /\ p = md_mixin (dd u) \/ nw u = false /\ exists oi, oidx (mixin_at t u) = Some oi /\ p = oaddr oi /\ com_call (cp u) f src).
(** the mixins before [u] were updated *)
Record tried (oldv : nat -> Z) (dd : nat -> mdata) (u : nat) (lx : list ev) : Prop := {
  td_last : last_call dd u lx;
  td_np : forall i, i < u -> nw i = true -> np i <> None;
  td_v0 : forall oi, (forall i m, i < u -> nth_error (t_mixins t) i = Some m -> oidx m <> Some oi) -> (lx <> [] -> oidx (mixin_at t u) <> Some oi) -> oldv oi = v0 s0 ddo oi
}.
Definition given_up (s : st) : Prop := exists oldv k tb dd u lx, kept oldv s /\ tried oldv dd u lx /\ (u = 0 /\ lx = [] /\ s_log s = s_log s0 \/ u <= k /\ u <= n /\ s_log s = s_log s0 ++ undone sm k tb dd u lx).

(** The mutation was done, to another type *)
Definition done_to (s : st) : Prop := exists tb dd oldv newv s1,
  done_mem E s0 o x r t ob r0 t0 ddo tb dd oldv newv s1 s /\
  s_log s = s_log s0 ++ aevs E s0 x t ob t0 tb dd n ++ flat_map (cev s0 t ob t0 ddo dd np cp) (seq 0 n) ++ fins E s0 x t ob t0 ddo dd /\
  (forall b, fp t tb dd anew b -> N0 <= b) /\ (forall i m oi, slot_at t i m 0%N -> oidx m = Some oi -> dd i = ddo oi) /\
  N0 <= s_next s /\ (forall c, s_next s <= c -> s_blk s c = None) /\
  (forall i, i < n -> nw i = true -> np i <> None /\ vn_ok s0 np i (newv i)) /\
  (forall i m oi, nth_error (t_mixins t) i = Some m -> oidx m = Some oi -> vc_ok s0 ddo cp i oi (oldv oi)).
(** The updates of a mutation to the same type were done *)
Definition done_same (s : st) : Prop := exists oldv dd, kept oldv s /\ s_w s = s_w s0 /\ s_log s = s_log s0 ++ flat_map (cev s0 t ob t0 ddo dd np cp) (seq 0 n) /\
  (forall i m oi, nth_error (t_mixins t) i = Some m -> oidx m = Some oi -> vc_ok s0 ddo cp i oi (oldv oi)).

Lemma oldmem_refl : oldmem s0 ob t0 ddo (v0 s0 ddo) B0.
Proof.
  constructor; auto. intros b oi m Hb Hm. pose proof Hm as Hl. apply nth_error_lt in Hl.
  destruct (old_fp _ _ _ _ _ _ _ _ _ _ _ SU b oi Hb Hl) as (_ & m' & Hm' & Hi). assert (m' = m) as -> by congruence. exact Hi.
Qed.
Lemma kept_refl s : s_obj s = s_obj s0 -> s_w s = s_w s0 -> s_next s = s_next s0 -> (forall b, s_blk s b = B0 b) -> kept (v0 s0 ddo) s.
Proof.
  intros H1 H2 H3 H4. constructor; auto.
  - rewrite H2. apply wlike_refl.
  - lia.
  - intros c Hc. rewrite H4. now apply (su_next _ _ _ _ _ _ _ _ _ _ _ SU).
  - pose proof oldmem_refl as O. constructor; intros; unfold battr, bdat, bback, binst; try rewrite H4; auto. apply (om_own _ _ _ _ _ _ O b oi m); auto.
Qed.

Lemma rollback_none mu s : mu_tdata mu = None -> mu_au mu = 0 -> mu_uu mu = 0 -> exists mu', rollback E (mu, s) = ((mu', s), Ok tt).
Proof.
  intros H1 H2 H3. unfold rollback, bnd at 1, set_mu at 1. cbn [fst snd].
  set (mu1 := with_uu mu (mu_uu mu) false). rewrite (bnd_ok _ _ _ _ _ (get_mu_step mu1 s)). destruct (same_type mu1); cbn [negb]; [eexists; reflexivity|].
  eexists. etransitivity; [apply bnd_ok with (a := tt) (s1 := (with_au (with_uu mu1 0 false) 0, s))|reflexivity].
  etransitivity. { apply bnd_ok with (a := tt) (s1 := (with_uu mu1 0 false, s)). unfold destroy_new_mixins. rewrite (bnd_ok _ _ _ _ _ (get_mu_step mu1 s)).
    replace (mu_uu mu1) with 0. cbn [down_loop]. rewrite (bnd_ok (ret tt) _ (mu1, s) (mu1, s) tt eq_refl). unfold set_mu. cbn [fst snd]. reflexivity. }
  unfold deallocate_mixin_data. rewrite (bnd_ok _ _ _ _ _ (get_mu_step _ s)). cbn [mu_uu with_uu Nat.eqb negb].
  replace (mu_au (with_uu mu1 0 false)) with 0. cbn [down_loop]. rewrite (bnd_ok (ret tt) _ (with_uu mu1 0 false, s) (with_uu mu1 0 false, s) tt eq_refl).
  unfold set_mu, bnd. cbn [fst snd]. replace (mu_tdata (with_uu mu1 0 false)) with (@None nat). reflexivity.
Qed.

Lemma rollback_same mu s : same_type mu = true -> exists mu', rollback E (mu, s) = ((mu', s), Ok tt).
Proof.
  intros H. eexists. unfold rollback, bnd at 1, set_mu at 1. cbn [fst snd]. rewrite (bnd_ok _ _ _ _ _ (get_mu_step _ s)).
  change (same_type (with_uu mu (mu_uu mu) false)) with (same_type mu). rewrite H. cbn [negb]. rewrite (bnd_ok (ret tt) _ _ _ tt eq_refl). reflexivity.
Qed.

Lemma same_type_eq mu : mu_same o old r t ob mu -> same_type mu = sm.
Proof. intros (_ & H1 & _ & H2 & _). unfold same_type. rewrite H1, H2. reflexivity. Qed.

Lemma devs_ext dd f g k : (forall i, f i = g i) -> devs E t dd f k = devs E t dd g k.
Proof. intros H. induction k as [|k IH]; simpl; auto. now rewrite H, IH. Qed.
Lemma fevs_ext dd f g k : (forall i, f i = g i) -> fevs E a t dd f k = fevs E a t dd g k.
Proof. intros H. induction k as [|k IH]; simpl; auto. now rewrite H, IH. Qed.

(** Giving up in the middle *)
Lemma abort au tb dd u mu s oldv : mu_same o old r t ob mu -> sm = false -> mu_tdata mu = Some tb -> mu_au mu = au -> mu_uu mu = u -> u <= au -> au <= n ->
  part (s_blk s) o a t tb dd (fun i => i <? au) (fun i => (i <? au) && nw i) (fun i => (i <? u) && nw i) ->
  s_w s = w1 s0 r t -> s_obj s = s_obj s0 -> N0 <= s_next s -> oldmem s0 ob t0 ddo oldv (s_blk s) ->
  (forall b, fp t tb dd (fun i => (i <? au) && nw i) b -> N0 <= b) ->
  (forall b, N0 <= b -> s_blk s b <> None -> fp t tb dd (fun i => (i <? au) && nw i) b) ->
  (forall oi, (forall i m, nth_error (t_mixins t) i = Some m -> oidx m = Some oi -> cp i = CNone) -> oldv oi = v0 s0 ddo oi) ->
  exists mu' s', rollback E (mu, s) = ((mu', s'), Ok tt) /\ kept oldv s' /\
    s_log s' = s_log s ++ devs E t dd nw u ++ fevs E a t dd nw au ++ [EvFree (AObj a) tb (t_buf_size t) (t_buf_align t)].
Proof.
  intros Hmu Hsm Htd Hau Huu Hu Ha P Hw Ho Hnx O F1 F2 Hv. pose proof Hmu as (M1 & M2 & M3 & M4 & M5 & M6).
  pose proof (su_good _ _ _ _ _ _ _ _ _ _ _ SU) as G.
  assert (Hnw : forall i, is_new mu mid i = nw i) by (intros i; eapply is_new_eq; eauto).
  set (tt1 := set_nobj t (S (t_nobj t))).
  assert (Hx : s_obj s o = Some x) by (rewrite Ho; apply (su_obj _ _ _ _ _ _ _ _ _ _ _ SU)).
  assert (Hty : w_type (s_w s) r = Some tt1). { rewrite Hw. unfold w1, with_type. cbn [w_type]. unfold tupd. destruct (tref_eqb_spec r r); [reflexivity|congruence]. }
  assert (Hst : same_type mu = false) by (rewrite same_type_eq; auto).
  assert (P' : part (s_blk s) o a t tb dd (fun i => i <? au) (fun i => (i <? au) && is_new mu mid i) (fun i => (i <? u) && is_new mu mid i)).
  { eapply part_ext; [exact P| | |]; auto; intros i; now rewrite Hnw. }
  assert (Hmid : w_mid (s_w s) = mid) by (rewrite Hw; reflexivity).
  destruct (rollback_ok E mid o a t tb dd mu s x au u r tt1 (t_nobj t) G M5 Htd M1 Hau Huu M4 Hst Hu Ha P' Hmid Hx eq_refl Hty eq_refl)
    as (mu' & s' & H1 & H2 & H3 & H4 & H5 & H6 & H7 & H8 & H9).
  exists mu', s'. split; auto. split.
  - assert (Hfe : forall b, fp t tb dd (fun i => (i <? au) && is_new mu mid i) b <-> fp t tb dd (fun i => (i <? au) && nw i) b).
    { intros b. unfold fp. split; intros [->|(i & m & A1 & A2 & A3)]; auto; right; exists i, m; rewrite Hnw in *; auto. }
    assert (Hlt : forall b, b < N0 -> s_blk s' b = s_blk s b).
    { intros b Hb. apply H8. intros Hf. apply Hfe, F1 in Hf. lia. }
    constructor.
    + now rewrite H4.
    + rewrite H3, Hw. constructor; auto. intros q. unfold with_type, w1, with_type. cbn [w_type]. unfold tupd. destruct (tref_eqb_spec q r) as [->|]; auto.
      rewrite (su_ty _ _ _ _ _ _ _ _ _ _ _ SU). unfold set_nobj. cbn. now destruct t.
    + right. rewrite H3, Hw. reflexivity.
    + lia.
    + intros c Hc. destruct (s_blk s c) as [k|] eqn:Hk.
      * apply H7, Hfe, F2; auto. congruence.
      * rewrite H8; auto. intros Hf. apply Hfe in Hf. destruct Hf as [->|(i & m & A1 & A2 & A3)].
        -- pose proof (pa_blk _ _ _ _ _ _ _ _ _ _ P) as Hbb. unfold battr in Hbb. rewrite Hk in Hbb. discriminate.
        -- destruct (pa_ext _ _ _ _ _ _ _ _ _ _ P i m A1 A2) as (_ & e & _ & C2 & C3 & _). rewrite C2 in A3. simpl in A3. injection A3 as ->. unfold battr in C3. rewrite Hk in C3. discriminate.
    + assert (Hlt2 : forall q, fst q < N0 -> binst (s_blk s') q = binst (s_blk s) q) by (intros q Hq; unfold binst; now rewrite Hlt).
      constructor.
      * intros b Hb. unfold battr. rewrite Hlt by auto. now apply (om_attr _ _ _ _ _ _ O).
      * intros b i Hb. unfold bdat. rewrite Hlt by auto. now apply (om_dat _ _ _ _ _ _ O).
      * intros b q Hb. unfold bback. cbn [fst]. rewrite Hlt by auto. now apply (om_back _ _ _ _ _ _ O).
      * intros b oi m Hb Hm. rewrite Hlt2; [now apply (om_own _ _ _ _ _ _ O b)|]. apply nth_error_lt in Hm. apply (old_fp _ _ _ _ _ _ _ _ _ _ _ SU b oi Hb Hm).
      * intros q Hq Hn. rewrite Hlt2 by auto. now apply (om_other _ _ _ _ _ _ O).
    + exact Hv.
  - rewrite H9. f_equal. f_equal; [now apply devs_ext|]. f_equal. now apply fevs_ext.
Qed.

Lemma get_old_step : get_old x s0 = (s0, Ok old).
Proof.
  unfold get_old. rewrite (su_otype _ _ _ _ _ _ _ _ _ _ _ SU). destruct (o_type x) as [q|] eqn:Hq; auto.
  destruct (w_type (s_w s0) q) as [k|] eqn:Hk; [|congruence]. rewrite (bnd_ok _ _ _ _ _ (get_ty_step s0 q k Hk)). reflexivity.
Qed.

Lemma perform_eq unw : perform E U unw o r body s0 =
  let '((_, s'), res) :=
      match bnd (start E U x) (fun _ => body) (mu0, s0) with
      | (p, Ok _) => finish E U unw p
      | (p, Throw e) => unwind E e p
      | (p, Ub u) => (p, Ub u)
      end in (s', res).
Proof.
  unfold perform. rewrite (bnd_ok _ _ _ _ _ (get_obj_step s0 o x (su_obj _ _ _ _ _ _ _ _ _ _ _ SU))), (bnd_ok _ _ _ _ _ get_old_step),
    (bnd_ok _ _ _ _ _ (get_ty_step s0 r t (su_ty _ _ _ _ _ _ _ _ _ _ _ SU))). reflexivity.
Qed.

Lemma why_reason dd u e lx bad : why U s0 t ob t0 ddo dd np cp u e lx bad -> reason e.
Proof.
  intros H. destruct H as [H1 H2 H3 H4|k f src H1 H2 H3 H4 H5|k oi f src H1 H2 H3 H4 H5 H6].
  - eapply rs_missing; eauto.
  - eapply (rs_user _ k u); eauto. congruence.
  - eapply (rs_user _ k u); eauto; [congruence|]. intros _ Hc. now rewrite Hc in H4.
Qed.

Lemma unwind_eq {A} e mu s mu' s' : mu_moved mu = false -> rollback E (mu, s) = ((mu', s'), Ok tt) -> @unwind E A e (mu, s) = ((mu', s'), Throw e).
Proof. intros H1 H2. unfold unwind. rewrite (bnd_ok _ _ _ _ _ (get_mu_step mu s)), H1. rewrite (bnd_ok _ _ _ _ _ H2). reflexivity. Qed.

(** A failed step of the updates *)
Lemma gave_up sm' tb dd nx ws lg mu s oldv newv u bad lx : sm' = sm -> side sm' tb dd nx ws -> PBs sm' tb dd nx ws lg u bad lx oldv newv mu s ->
  (forall oi, bad = Some oi -> exists i m, nth_error (t_mixins t) i = Some m /\ oidx m = Some oi /\ cp i <> CNone) ->
  N0 <= nx -> (if sm then ws = s_w s0 else ws = w1 s0 r t) -> lg = s_log s0 ++ (if sm then [] else aevs E s0 x t ob t0 tb dd n) ->
  exists mu' s', rollback E (mu, s) = ((mu', s'), Ok tt) /\ kept oldv s' /\ s_log s' = s_log s0 ++ undone sm n tb dd u lx.
Proof.
  intros Hs (S1 & S2 & S3) I Hbad Hnx Hws Hlg.
  pose proof (pb_mu _ _ _ _ _ _ _ _ _ _ _ _ _ _ _ _ _ _ _ _ _ _ _ _ _ I) as Hmu.
  pose proof (pb_old _ _ _ _ _ _ _ _ _ _ _ _ _ _ _ _ _ _ _ _ _ _ _ _ _ I) as O.
  assert (Hv : forall oi, (forall i m, nth_error (t_mixins t) i = Some m -> oidx m = Some oi -> cp i = CNone) -> oldv oi = v0 s0 ddo oi).
  { intros oi Hc.
    (* whether the mixin was passed already *)
    assert (Hdec : forall k, (exists i m, i < k /\ nth_error (t_mixins t) i = Some m /\ oidx m = Some oi) \/ (forall i m, i < k -> nth_error (t_mixins t) i = Some m -> oidx m <> Some oi)).
    { induction k as [|k [(i & m & A1 & A2 & A3)|IH]]; [right; intros; lia|left; exists i, m; auto|].
      destruct (nth_error (t_mixins t) k) as [m|] eqn:Hm.
      - destruct (oidx m) as [oj|] eqn:Hoj.
        + destruct (Nat.eq_dec oj oi) as [->|]; [left; exists k, m; auto|]. right. intros i m' Hi Hm'. destruct (Nat.eq_dec i k) as [->|]; [congruence|]. apply (IH i); auto. lia.
        + right. intros i m' Hi Hm'. destruct (Nat.eq_dec i k) as [->|]; [congruence|]. apply (IH i); auto. lia.
      - right. intros i m' Hi Hm'. destruct (Nat.eq_dec i k) as [->|]; [congruence|]. apply (IH i); auto. lia. }
    destruct (Hdec u) as [(i & m & A1 & A2 & A3)|Hno].
    - pose proof (pb_vc _ _ _ _ _ _ _ _ _ _ _ _ _ _ _ _ _ _ _ _ _ _ _ _ _ I i m oi A1 A2 A3) as Hvc. unfold vc_ok in Hvc. now rewrite (Hc i m A2 A3) in Hvc.
    - apply (pb_v0 _ _ _ _ _ _ _ _ _ _ _ _ _ _ _ _ _ _ _ _ _ _ _ _ _ I); auto. intros Hb. destruct (Hbad _ Hb) as (i & m & A1 & A2 & A3). apply A3. eauto. }
  pose proof (pb_log _ _ _ _ _ _ _ _ _ _ _ _ _ _ _ _ _ _ _ _ _ _ _ _ _ I) as Hl.
  pose proof (pb_next _ _ _ _ _ _ _ _ _ _ _ _ _ _ _ _ _ _ _ _ _ _ _ _ _ I) as Hn1.
  pose proof (pb_w _ _ _ _ _ _ _ _ _ _ _ _ _ _ _ _ _ _ _ _ _ _ _ _ _ I) as Hw1.
  pose proof (pb_obj _ _ _ _ _ _ _ _ _ _ _ _ _ _ _ _ _ _ _ _ _ _ _ _ _ I) as Ho1.
  subst sm'. unfold undone. destruct sm eqn:Hsm.
  - destruct (rollback_same mu s) as (mu' & H1); [rewrite same_type_eq; auto|]. exists mu', s. split; auto. split.
    + constructor; auto.
      * rewrite Hw1, Hws. apply wlike_refl.
      * left. congruence.
      * lia.
      * intros c Hc. destruct (s_blk s c) as [k|] eqn:Hk; auto. exfalso.
        destruct (pb_fp _ _ _ _ _ _ _ _ _ _ _ _ _ _ _ _ _ _ _ _ _ _ _ _ _ I c Hc) as (Hf & _); congruence.
    + rewrite Hl, Hlg, app_nil_r. reflexivity.
  - pose proof (pb_part _ _ _ _ _ _ _ _ _ _ _ _ _ _ _ _ _ _ _ _ _ _ _ _ _ I eq_refl) as P.
    destruct (abort n tb dd u mu s oldv Hmu Hsm) as (mu' & s' & H1 & H2 & H3); auto.
    + exact (pb_td _ _ _ _ _ _ _ _ _ _ _ _ _ _ _ _ _ _ _ _ _ _ _ _ _ I).
    + exact (pb_au _ _ _ _ _ _ _ _ _ _ _ _ _ _ _ _ _ _ _ _ _ _ _ _ _ I).
    + exact (pb_uu _ _ _ _ _ _ _ _ _ _ _ _ _ _ _ _ _ _ _ _ _ _ _ _ _ I).
    + exact (pb_le _ _ _ _ _ _ _ _ _ _ _ _ _ _ _ _ _ _ _ _ _ _ _ _ _ I).
    + congruence.
    + lia.
    + intros b Hb Hn. apply (pb_fp _ _ _ _ _ _ _ _ _ _ _ _ _ _ _ _ _ _ _ _ _ _ _ _ _ I); auto.
    + exists mu', s'. split; auto. split; auto. rewrite H3, Hl, Hlg, <- !app_assoc. reflexivity.
Qed.

Lemma why_last dd u e lx bad : why U s0 t ob t0 ddo dd np cp u e lx bad -> last_call dd u lx.
Proof.
  intros [H1 H2 H3 H4|k f src H1 H2 H3 H4 H5|k oi f src H1 H2 H3 H4 H5 H6]; [now left|right|right].
  - exists f, (md_mixin (dd u)), src, (an_err (u_ans U k)). auto 10.
  - exists f, (oaddr oi), src, (an_err (u_ans U k)). split; auto. split; auto. split; auto. right. split; auto. exists oi. auto.
Qed.
Lemma tried_zero dd : tried (v0 s0 ddo) dd 0 [].
Proof. constructor; [now left|intros; lia|auto]. Qed.
Lemma tried_pb sm' tb dd nx ws lg mu s oldv newv u bad lx : PBs sm' tb dd nx ws lg u bad lx oldv newv mu s -> last_call dd u lx ->
  (forall oi, bad = Some oi -> lx <> [] /\ oidx (mixin_at t u) = Some oi) -> tried oldv dd u lx.
Proof.
  intros J Hl Hb. constructor; auto.
  - exact (pb_np _ _ _ _ _ _ _ _ _ _ _ _ _ _ _ _ _ _ _ _ _ _ _ _ _ J).
  - intros oi H1 H2. apply (pb_v0 _ _ _ _ _ _ _ _ _ _ _ _ _ _ _ _ _ _ _ _ _ _ _ _ _ J); auto. intros H. destruct (Hb oi H) as [A B]. now apply H2.
Qed.
Lemma why_at dd u e lx bad oi : why U s0 t ob t0 ddo dd np cp u e lx bad -> bad = Some oi -> lx <> [] /\ oidx (mixin_at t u) = Some oi.
Proof. intros H Hb. destruct H; try discriminate. injection Hb as ->. split; auto. discriminate. Qed.
Lemma why_bad dd u e lx bad oi : why U s0 t ob t0 ddo dd np cp u e lx bad -> bad = Some oi -> exists i m, nth_error (t_mixins t) i = Some m /\ oidx m = Some oi /\ cp i <> CNone.
Proof.
  intros H Hb. destruct H as [H1 H2 H3 H4|k f src H1 H2 H3 H4 H5|k oi' f src H1 H2 H3 H4 H5 H6]; try discriminate. injection Hb as ->. destruct (slot_ex E _ _ u (su_good _ _ _ _ _ _ _ _ _ _ _ SU) H2) as (m & off & Hs).
  rewrite (mixin_at_slot _ _ _ _ Hs) in H3. exists u, m. split; [apply Hs|]. split; auto. intros Hc. now rewrite Hc in H4.
Qed.

Hypothesis Hsame : sm = true -> ob = None -> n = 0.
Hypothesis Hdiff : sm = false -> n <> 0.
Lemma sm_new : sm = true -> forall i, nw i = false.
Proof.
  intros H i. pose proof (su_old _ _ _ _ _ _ _ _ _ _ _ SU) as Ho. pose proof (su_good _ _ _ _ _ _ _ _ _ _ _ SU) as G.
  unfold AllocProofs.nw. destruct (nth_error (t_mixins t) i) as [m|] eqn:Hm; auto.
  unfold AllocProofs.oidx. destruct ob as [b|] eqn:Hb.
  - destruct (Ho b eq_refl) as (Hold & Hty & G0 & _). unfold same_type in H. cbn [mu_old new_mut mu_ref] in H. rewrite Hold in H. destruct (tref_eqb_spec r0 r) as [->|]; [|discriminate].
    assert (t0 = t) as -> by (pose proof (su_ty _ _ _ _ _ _ _ _ _ _ _ SU); congruence). now rewrite (tg_idx _ _ _ G _ _ Hm).
  - apply nth_error_lt in Hm. rewrite Hsame in Hm; auto. lia.
Qed.
Lemma sm_diff b : sm = false -> ob = Some b -> r <> r0.
Proof.
  intros H Hb He. destruct (su_old _ _ _ _ _ _ _ _ _ _ _ SU b Hb) as (Hold & _). unfold same_type in H. cbn [mu_old new_mut mu_ref] in H. rewrite Hold, He in H.
  destruct (tref_eqb_spec r0 r0); congruence.
Qed.

Theorem perform_ok unw : exists s' res, perform E U unw o r body s0 = (s', res) /\
  ((res = Ok tt /\ unw = false /\ o_sealed x = false /\ if sm then done_same s' else done_to s') \/
   (res = Ok tt /\ unw = true /\ o_sealed x = false /\ given_up s') \/
   (exists e, res = Throw e /\ given_up s' /\ reason e)).
Proof.
  pose proof sm_new as Hsn. pose proof sm_diff as Hsd. pose proof Hdiff as Hdf.
  rewrite perform_eq. unfold start. destruct (o_sealed x) eqn:Hse.
  - (* sealed *)
    destruct (rollback_none mu0 s0 eq_refl eq_refl eq_refl) as (mu' & Hr). rewrite (bnd_throw (raise ESealed) (fun _ => body) (mu0, s0) (mu0, s0) ESealed eq_refl).
    rewrite (unwind_eq ESealed mu0 s0 mu' s0 eq_refl Hr). exists s0, (Throw ESealed). split; auto. right. right. exists ESealed. split; auto. split; [|now apply rs_sealed].
    exists (v0 s0 ddo), 0, 0, (fun _ => {| md_buf := None; md_mixin := (0, 0%N) |}), 0, []. split; [now apply kept_refl|]. split; [apply tried_zero|]. left. auto.
  - (* from the state after the allocation *)
    assert (Hmain : forall tb dd nx ws lg mu s oldv newv, allocate_mixin_data E U (mu0, s0) = ((mu, s), Ok tt) -> side sm tb dd nx ws -> PBs sm tb dd nx ws lg 0 None [] oldv newv mu s -> N0 <= nx ->
      (if sm then ws = s_w s0 else ws = w1 s0 r t) -> lg = s_log s0 ++ (if sm then [] else aevs E s0 x t ob t0 tb dd n) -> (forall i m oi, sm = false -> slot_at t i m 0%N -> oidx m = Some oi -> dd i = ddo oi) ->
      exists s' res, (let '((_, s'), res) :=
        match bnd (allocate_mixin_data E U) (fun _ => body) (mu0, s0) with
        | (p, Ok _) => finish E U unw p
        | (p, Throw e) => unwind E e p
        | (p, Ub u) => (p, Ub u)
        end in (s', res)) = (s', res) /\
        ((res = Ok tt /\ unw = false /\ false = false /\ if sm then done_same s' else done_to s') \/
         (res = Ok tt /\ unw = true /\ false = false /\ given_up s') \/
         (exists e, res = Throw e /\ given_up s' /\ reason e))).
    { intros tb dd nx ws lg mu s oldv newv Hal Hside I Hnx Hws Hlg Hcom. rewrite (bnd_ok _ _ _ _ _ Hal). clear Hal.
      assert (Hfail : forall u bad lx mu' s' ov nv e, PBs sm tb dd nx ws lg u bad lx ov nv mu' s' -> (why U s0 t ob t0 ddo dd np cp u e lx bad \/ ord /\ e = EBadPiecewise /\ bad = None /\ lx = []) ->
        exists mu2 s2, rollback E (mu', s') = ((mu2, s2), Ok tt) /\ given_up s2 /\ reason e).
      { intros u bad lx mu' s' ov nv e J Hw. destruct (gave_up sm tb dd nx ws lg mu' s' ov nv u bad lx eq_refl Hside J) as (mu2 & s2 & H1 & H2 & H3); auto.
        - intros oi Hb. destruct Hw as [Hw|(_ & _ & Hw & _)]; [eapply why_bad; eauto|congruence].
        - exists mu2, s2. split; auto. split.
          + exists ov, n, tb, dd, u, lx. split; auto. split; [eapply tried_pb; [exact J| |]; [destruct Hw as [Hw|(_ & _ & _ & Hw)]; [eapply why_last; eauto|now left]|intros oi Hb; destruct Hw as [Hw|(_ & _ & Hw & _)]; [eapply why_at; eauto|congruence]]|]. right. pose proof (pb_le _ _ _ _ _ _ _ _ _ _ _ _ _ _ _ _ _ _ _ _ _ _ _ _ _ J). auto.
          + destruct Hw as [Hw|(Hw & -> & _)]; [eapply why_reason; eauto|now apply rs_order]. }
      assert (Hmv : forall u bad lx mu' s' ov nv, PBs sm tb dd nx ws lg u bad lx ov nv mu' s' -> mu_moved mu' = false).
      { intros u bad lx mu' s' ov nv J. apply (pb_mu _ _ _ _ _ _ _ _ _ _ _ _ _ _ _ _ _ _ _ _ _ _ _ _ _ J). }
      destruct (BO sm tb dd nx ws lg mu s oldv newv Hside I) as [(u & mu1 & s1 & ov1 & nv1 & H1 & I1 & Hd)|(u & mu1 & s1 & ov1 & nv1 & bad & lx & e & H1 & I1 & Hw)]; rewrite H1.
      - unfold finish. rewrite (bnd_ok _ _ _ _ _ (get_mu_step mu1 s1)), (Hmv _ _ _ _ _ _ _ I1). destruct unw.
        + destruct (gave_up sm tb dd nx ws lg mu1 s1 ov1 nv1 u None [] eq_refl Hside I1) as (mu2 & s2 & H2 & H3 & H4); auto; [discriminate|]. rewrite H2.
          exists s2, (Ok tt). split; auto. right. left. split; auto. split; auto. split; auto. exists ov1, n, tb, dd, u, []. split; auto. split; [eapply tried_pb; [exact I1|now left|discriminate]|]. right. pose proof (pb_le _ _ _ _ _ _ _ _ _ _ _ _ _ _ _ _ _ _ _ _ _ _ _ _ _ I1). auto.
        + destruct Hside as (S1 & S2 & S3).
          destruct (default_step E U s0 o x old r t ob r0 t0 ddo SU sm tb dd nx ws lg S1 S2 np cp PK S3 ord None u ov1 nv1 mu1 s1 I1 Hd) as [(u2 & mu2 & s2 & ov2 & nv2 & H2 & I2 & Hu2)|(u2 & mu2 & s2 & ov2 & nv2 & bad & lx & e & H2 & I2 & Hw)]; rewrite H2.
          * assert (u2 = n) as ->. { pose proof (pb_le _ _ _ _ _ _ _ _ _ _ _ _ _ _ _ _ _ _ _ _ _ _ _ _ _ I1). unfold upto_of in Hu2. lia. }
            pose proof (pb_mu _ _ _ _ _ _ _ _ _ _ _ _ _ _ _ _ _ _ _ _ _ _ _ _ _ I2) as Hmu2.
            pose proof (pb_log _ _ _ _ _ _ _ _ _ _ _ _ _ _ _ _ _ _ _ _ _ _ _ _ _ I2) as Hl2.
            pose proof (pb_next _ _ _ _ _ _ _ _ _ _ _ _ _ _ _ _ _ _ _ _ _ _ _ _ _ I2) as Hn2.
            pose proof (pb_w _ _ _ _ _ _ _ _ _ _ _ _ _ _ _ _ _ _ _ _ _ _ _ _ _ I2) as Hw2.
            assert (Hvc : forall i m oi, nth_error (t_mixins t) i = Some m -> oidx m = Some oi -> vc_ok s0 ddo cp i oi (ov2 oi)).
            { intros i m oi Hm Hoi. apply (pb_vc _ _ _ _ _ _ _ _ _ _ _ _ _ _ _ _ _ _ _ _ _ _ _ _ _ I2 i m oi); auto. now apply nth_error_lt in Hm. }
            destruct sm eqn:Hsm.
            -- (* the same type *)
               assert (Hfin : exists mu3, finalize E U (mu2, s2) = ((mu3, s2), Ok tt)).
               { unfold finalize. rewrite (bnd_ok _ _ _ _ _ (get_mu_step mu2 s2)). destruct (mu_complete mu2); cbn [negb]; [|eexists; reflexivity].
                 rewrite same_type_eq by auto. rewrite Hsm. eexists. reflexivity. }
               destruct Hfin as (mu3 & Hf). rewrite Hf. exists s2, (Ok tt). split; auto. left. split; auto. split; auto. split; auto.
               exists ov2, dd. split.
               { constructor; auto.
                 - exact (pb_obj _ _ _ _ _ _ _ _ _ _ _ _ _ _ _ _ _ _ _ _ _ _ _ _ _ I2).
                 - rewrite Hw2, Hws. apply wlike_refl.
                 - left. congruence.
                 - lia.
                 - intros c Hc. destruct (s_blk s2 c) as [k|] eqn:Hk; auto. exfalso.
                   destruct (pb_fp _ _ _ _ _ _ _ _ _ _ _ _ _ _ _ _ _ _ _ _ _ _ _ _ _ I2 c Hc) as (Hf' & _); congruence.
                 - exact (pb_old _ _ _ _ _ _ _ _ _ _ _ _ _ _ _ _ _ _ _ _ _ _ _ _ _ I2).
                 - intros oi Hc. destruct (in_dec Nat.eq_dec oi (flat_map (fun m => match oidx m with Some k => [k] | None => [] end) (t_mixins t))) as [Hin|Hin].
                   + apply in_flat_map in Hin. destruct Hin as (m & Hm & Hin). apply In_nth_error in Hm. destruct Hm as (i & Hm). destruct (oidx m) as [k|] eqn:Hk; [|destruct Hin]. destruct Hin as [<-|[]].
                     pose proof (Hvc i m k Hm Hk) as Hvc'. unfold vc_ok in Hvc'. now rewrite (Hc i m Hm Hk) in Hvc'.
                   + apply (pb_v0 _ _ _ _ _ _ _ _ _ _ _ _ _ _ _ _ _ _ _ _ _ _ _ _ _ I2); [|discriminate]. intros i m _ Hm Hoi. apply Hin. apply in_flat_map. exists m. split; [now apply nth_error_In in Hm|]. rewrite Hoi. now left. }
               split; [congruence|]. split; auto. rewrite Hl2, Hlg, !app_nil_r. reflexivity.
            -- (* another type *)
               assert (Hst2 : same_type mu2 = false) by (rewrite same_type_eq by auto; exact Hsm).
               destruct (finalize_step E U s0 o x old r t ob r0 t0 ddo SU tb dd (S3 eq_refl) (fun i m oi => Hcom i m oi eq_refl) ov2 nv2 nx ws lg np cp Hws (fun b => Hsd b eq_refl) mu2 s2 I2 (Hdf eq_refl) Hst2) as (mu3 & s3 & Hf & D).
               rewrite Hf. exists s3, (Ok tt). split; auto. left. split; auto. split; auto. split; auto.
               exists tb, dd, ov2, nv2, s2. split; auto.
               split. { rewrite (dm_log _ _ _ _ _ _ _ _ _ _ _ _ _ _ _ _ D), Hl2, Hlg, app_nil_r, <- !app_assoc. reflexivity. }
               split; [exact (S3 eq_refl)|]. split; [intros i m oi; now apply Hcom|].
               pose proof (dm_next _ _ _ _ _ _ _ _ _ _ _ _ _ _ _ _ D) as Hn3. split; [lia|].
               split. { intros c Hc. destruct (s_blk s3 c) as [k|] eqn:Hk; auto. exfalso. apply (dm_dead _ _ _ _ _ _ _ _ _ _ _ _ _ _ _ _ D c); [congruence|].
                 apply (pb_lim _ _ _ _ _ _ _ _ _ _ _ _ _ _ _ _ _ _ _ _ _ _ _ _ _ I2). lia. }
               split; auto. intros i Hi Hni. split; [now apply (pb_np _ _ _ _ _ _ _ _ _ _ _ _ _ _ _ _ _ _ _ _ _ _ _ _ _ I2)|now apply (pb_vn _ _ _ _ _ _ _ _ _ _ _ _ _ _ _ _ _ _ _ _ _ _ _ _ _ I2)].
          * destruct (Hfail _ _ _ _ _ _ _ _ I2 Hw) as (mu3 & s3 & H3 & H4 & H5). rewrite (bnd_ok _ _ _ _ _ H3). exists s3, (Throw e). split; auto. right. right. exists e. auto.
      - destruct (Hfail _ _ _ _ _ _ _ _ I1 Hw) as (mu3 & s3 & H3 & H4 & H5). rewrite (unwind_eq e mu1 s1 mu3 s3); auto; [|eapply Hmv; eauto].
        exists s3, (Throw e). split; auto. right. right. exists e. auto. }
    destruct sm eqn:Hsm.
    + (* nothing to allocate *)
      set (mu1 := with_tdata mu0 (mu_odata mu0)).
      assert (Hal : allocate_mixin_data E U (mu0, s0) = ((mu1, s0), Ok tt)).
      { unfold allocate_mixin_data. rewrite (bnd_ok _ _ _ _ _ (get_mu_step mu0 s0)), Hsm. reflexivity. }
      set (ddn := fun _ : nat => {| md_buf := None; md_mixin := (0, 0%N) |}).
      apply (Hmain 0 ddn N0 (s_w s0) (s_log s0) mu1 s0 (v0 s0 ddo) (fun _ => 0%Z) Hal); auto.
      * split; [exact Hsn|]. split; [reflexivity|discriminate].
      * constructor; cbn; auto; try lia; try (intros; lia); try discriminate.
        -- repeat split; auto. apply (su_dat _ _ _ _ _ _ _ _ _ _ _ SU).
        -- apply (su_dat _ _ _ _ _ _ _ _ _ _ _ SU).
        -- apply oldmem_refl.
        -- intros b Hb Hn. exfalso. apply Hn. now apply (su_next _ _ _ _ _ _ _ _ _ _ _ SU).
        -- apply (su_next _ _ _ _ _ _ _ _ _ _ _ SU).
        -- now rewrite app_nil_r.
      * now rewrite app_nil_r.
      * discriminate.
    + destruct (allocate_step E U s0 o x old r t ob r0 t0 ddo SU mu0 eq_refl Hsm) as [(tb & dd & mu1 & s1 & H1 & I1)|[(k & tb & dd & mu1 & s1 & H1 & I1 & ek & Hek)|(H1 & ek & Hek)]].
      * assert (Han : forall i, (i <? n) && nw i = anew i) by reflexivity.
        apply (Hmain tb dd (s_next s1) (w1 s0 r t) (s_log s0 ++ aevs E s0 x t ob t0 tb dd n) mu1 s1 (v0 s0 ddo) (fun _ => 0%Z) H1); auto.
        -- split; [discriminate|]. split; [reflexivity|]. intros _ b Hb. apply (ai_ge _ _ _ _ _ _ _ _ _ _ _ _ _ _ _ I1 b Hb).
        -- constructor; try (intros; lia).
           ++ apply (ai_mu _ _ _ _ _ _ _ _ _ _ _ _ _ _ _ I1).
           ++ apply (ai_td _ _ _ _ _ _ _ _ _ _ _ _ _ _ _ I1).
           ++ apply (ai_au _ _ _ _ _ _ _ _ _ _ _ _ _ _ _ I1).
           ++ apply (ai_uu _ _ _ _ _ _ _ _ _ _ _ _ _ _ _ I1).
           ++ apply (ai_co _ _ _ _ _ _ _ _ _ _ _ _ _ _ _ I1).
           ++ apply (ai_obj _ _ _ _ _ _ _ _ _ _ _ _ _ _ _ I1).
           ++ apply (ai_w _ _ _ _ _ _ _ _ _ _ _ _ _ _ _ I1).
           ++ pose proof oldmem_refl as O. pose proof (ai_lt _ _ _ _ _ _ _ _ _ _ _ _ _ _ _ I1) as Hlt.
              assert (Hlt2 : forall q, fst q < N0 -> binst (s_blk s1) q = binst (s_blk s0) q) by (intros q Hq; unfold binst; now rewrite Hlt).
              constructor.
              ** intros b Hb. unfold battr. now rewrite Hlt.
              ** intros b i Hb. unfold bdat. now rewrite Hlt.
              ** intros b q Hb. unfold bback. cbn [fst]. now rewrite Hlt.
              ** intros b oi m Hb Hm. rewrite Hlt2; [now apply (om_own _ _ _ _ _ _ O b)|]. apply nth_error_lt in Hm. apply (old_fp _ _ _ _ _ _ _ _ _ _ _ SU b oi Hb Hm).
              ** intros q Hq _. now rewrite Hlt2.
           ++ intros _. eapply part_ext; [exact (ai_part _ _ _ _ _ _ _ _ _ _ _ _ _ _ _ I1)| | |]; auto.
           ++ intros b Hb Hn. split; auto. apply (ai_fp _ _ _ _ _ _ _ _ _ _ _ _ _ _ _ I1 b Hb Hn).
           ++ apply (ai_next _ _ _ _ _ _ _ _ _ _ _ _ _ _ _ I1).
           ++ simpl. rewrite app_nil_r. apply (ai_log _ _ _ _ _ _ _ _ _ _ _ _ _ _ _ I1).
        -- pose proof (ai_ge _ _ _ _ _ _ _ _ _ _ _ _ _ _ _ I1 tb (or_introl eq_refl)). lia.
        -- intros i m oi _ Hs Hoi. apply (ai_com _ _ _ _ _ _ _ _ _ _ _ _ _ _ _ I1 i m oi); auto. now apply slot_lt in Hs.
      * rewrite (bnd_throw _ _ _ _ _ H1).
        pose proof (ai_ge _ _ _ _ _ _ _ _ _ _ _ _ _ _ _ I1) as Hge.
        assert (O : oldmem s0 ob t0 ddo (v0 s0 ddo) (s_blk s1)).
        { pose proof oldmem_refl as O. pose proof (ai_lt _ _ _ _ _ _ _ _ _ _ _ _ _ _ _ I1) as Hlt.
          assert (Hlt2 : forall q, fst q < N0 -> binst (s_blk s1) q = binst (s_blk s0) q) by (intros q Hq; unfold binst; now rewrite Hlt).
          constructor.
          - intros b Hb. unfold battr. now rewrite Hlt.
          - intros b i Hb. unfold bdat. now rewrite Hlt.
          - intros b q Hb. unfold bback. cbn [fst]. now rewrite Hlt.
          - intros b oi m Hb Hm. rewrite Hlt2; [now apply (om_own _ _ _ _ _ _ O b)|]. apply nth_error_lt in Hm. apply (old_fp _ _ _ _ _ _ _ _ _ _ _ SU b oi Hb Hm).
          - intros q Hq _. now rewrite Hlt2. }
        destruct (abort k tb dd 0 mu1 s1 (v0 s0 ddo) (ai_mu _ _ _ _ _ _ _ _ _ _ _ _ _ _ _ I1) Hsm) as (mu2 & s2 & H2 & H3 & H4); auto.
        -- apply (ai_td _ _ _ _ _ _ _ _ _ _ _ _ _ _ _ I1).
        -- apply (ai_au _ _ _ _ _ _ _ _ _ _ _ _ _ _ _ I1).
        -- apply (ai_uu _ _ _ _ _ _ _ _ _ _ _ _ _ _ _ I1).
        -- lia.
        -- apply (ai_k _ _ _ _ _ _ _ _ _ _ _ _ _ _ _ I1).
        -- eapply part_ext; [exact (ai_part _ _ _ _ _ _ _ _ _ _ _ _ _ _ _ I1)| | |]; auto.
        -- apply (ai_w _ _ _ _ _ _ _ _ _ _ _ _ _ _ _ I1).
        -- apply (ai_obj _ _ _ _ _ _ _ _ _ _ _ _ _ _ _ I1).
        -- specialize (Hge tb (or_introl eq_refl)). lia.
        -- intros b Hb. now apply Hge.
        -- apply (ai_fp _ _ _ _ _ _ _ _ _ _ _ _ _ _ _ I1).
        -- rewrite (unwind_eq EBadAlloc mu1 s1 mu2 s2); auto; [|apply (ai_mu _ _ _ _ _ _ _ _ _ _ _ _ _ _ _ I1)].
           exists s2, (Throw EBadAlloc). split; auto. right. right. exists EBadAlloc. split; auto. split; [|eapply rs_alloc; eauto].
           exists (v0 s0 ddo), k, tb, dd, 0, []. split; auto. split; [apply tried_zero|]. right. split; [lia|]. split; [lia|]. rewrite H4, (ai_log _ _ _ _ _ _ _ _ _ _ _ _ _ _ _ I1). unfold undone. rewrite Hsm. cbn [seq flat_map app]. rewrite <- !app_assoc. reflexivity.
      * rewrite (bnd_throw _ _ _ _ _ H1). destruct (rollback_none mu0 (add_call s0) eq_refl eq_refl eq_refl) as (mu' & Hr).
        rewrite (unwind_eq EBadAlloc mu0 (add_call s0) mu' (add_call s0) eq_refl Hr). exists (add_call s0), (Throw EBadAlloc). split; auto. right. right. exists EBadAlloc. split; auto. split; [|eapply rs_alloc; eauto].
        exists (v0 s0 ddo), 0, 0, (fun _ => {| md_buf := None; md_mixin := (0, 0%N) |}), 0, []. split; [now apply kept_refl|]. split; [apply tried_zero|]. left. auto.
Qed.

End Perf.
