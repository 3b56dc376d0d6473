(** What the updates of a mutation do, for any plan of what is to be called on which mixin *)
From Coq Require Import List Arith ZArith NArith Lia Bool.
From Verif Require Import Base Sv BaseLemmas Info TypeBuild TypeQuery Domain TypesProofs Heap HeapProofs Mutation PartProofs RollProofs AllocProofs.
Import ListNotations.

(** What happens to a common mixin *)
Inductive cact := CNone | CUpd (k : nat) | CCopy (src : addr).

Section Upd.
Variable E : env.
Variable U : user.
Variables (s0 : st) (o : nat) (x : obj) (old : option (tref * type_rec)) (r : tref) (t : type_rec) (ob : option nat) (r0 : tref) (t0 : type_rec) (ddo : nat -> mdata).
Hypothesis SU : setup E s0 o x old r t ob r0 t0 ddo.
Notation part := (part E).
Notation mid := (w_mid (s_w s0)).
Notation N0 := (s_next s0).
Notation a := (o_alloc x).
Notation oidx := (oidx s0 ob t0).
Notation nw := (nw s0 t ob t0).
Notation n := (length (t_mixins t)).
Notation B0 := (s_blk s0).

(** [sm]: the target is the type of the object, and nothing is allocated *)
Variables (sm : bool) (tb : nat) (dd : nat -> mdata) (nx : nat) (ws : world) (lg : list ev).
Hypothesis Hsm : sm = true -> forall i, nw i = false.
Hypothesis Hws : w_mid ws = mid.

(** The plan: the function called for a new mixin with its source (None: it is missing), the action on a common one *)
Variables (np : nat -> option (fn * option addr)) (cp : nat -> cact).

(** the address of an old mixin *)
Definition oaddr (oi : nat) : addr := md_mixin (ddo oi).
Definition own_addr (p : addr) : Prop := exists b oi, ob = Some b /\ oi < length (t_mixins t0) /\ p = oaddr oi.
Definition v0 (oi : nat) : Z := match binst B0 (oaddr oi) with Some y => i_val y | None => 0%Z end.

Record plan_ok : Prop := {
  pk_new : forall i m f src, nth_error (t_mixins t) i = Some m -> np i = Some (f, Some src) -> (exists v, binst B0 src = Some {| i_mixin := m; i_val := v |}) /\ ~ own_addr src;
  pk_com : forall i m src, nth_error (t_mixins t) i = Some m -> cp i = CCopy src -> (exists v, binst B0 src = Some {| i_mixin := m; i_val := v |}) /\
    (own_addr src -> exists oi, oidx m = Some oi /\ src = oaddr oi)
}.
Hypothesis PK : plan_ok.

Definition vn_ok (i : nat) (v : Z) : Prop := match np i with Some (_, Some src) => forall y, binst B0 src = Some y -> v = i_val y | _ => True end.
Definition vc_ok (i oi : nat) (v : Z) : Prop :=
  match cp i with CNone => v = v0 oi | CUpd _ => True | CCopy src => forall y, binst B0 src = Some y -> v = i_val y end.

(** The memory from before the mutation *)
Record oldmem (oldv : nat -> Z) (B : blocks) : Prop := {
  om_attr : forall b, b < N0 -> battr B b = battr B0 b;
  om_dat : forall b i, b < N0 -> bdat B b i = bdat B0 b i;
  om_back : forall b q, b < N0 -> bback B (b, q) = bback B0 (b, q);
  om_own : forall b oi m, ob = Some b -> nth_error (t_mixins t0) oi = Some m -> binst B (oaddr oi) = Some {| i_mixin := m; i_val := oldv oi |};
  om_other : forall p, fst p < N0 -> ~ own_addr p -> binst B p = binst B0 p
}.

Definition cev (i : nat) : list ev :=
  if nw i then match np i with Some (f, src) => [EvCall f (mixin_at t i) (md_mixin (dd i)) src 0] | None => [] end
  else match oidx (mixin_at t i) with
    | Some oi => match cp i with
      | CNone => []
      | CUpd k => [EvCall (FUpdate k) (mixin_at t i) (oaddr oi) None 0]
      | CCopy src => [EvCall FCopyAsgn (mixin_at t i) (oaddr oi) (Some src) 0]
      end
    | None => []
    end.

Definition anew (i : nat) : bool := (i <? n) && nw i.

Lemma mine_new i m off : slot_at t i m off -> nw i = true -> mine t (fun i => i <? n) anew i m off.
Proof. intros Hs Hn. pose proof (slot_lt _ _ _ _ Hs) as Hi. apply Nat.ltb_lt in Hi. split; auto. split; auto. intros _. unfold anew. now rewrite Hi, Hn. Qed.

(** [bad] is an old mixin whose update failed; [lx] what was logged then *)
Record PB (u : nat) (bad : option nat) (lx : list ev) (oldv newv : nat -> Z) (mu : omut) (s : st) : Prop := {
  pb_mu : mu_same o old r t ob mu;
  pb_td : mu_tdata mu = if sm then ob else Some tb;
  pb_au : mu_au mu = if sm then 0 else n;
  pb_uu : mu_uu mu = u;
  pb_le : u <= n;
  pb_co : mu_complete mu = (0 <? u) && (u =? n);
  pb_obj : s_obj s = s_obj s0;
  pb_w : s_w s = ws;
  pb_next : s_next s = nx;
  pb_old : oldmem oldv (s_blk s);
  pb_part : sm = false -> part (s_blk s) o a t tb dd (fun i => i <? n) anew (fun i => (i <? u) && nw i);
  pb_newv : forall i m, i < u -> nth_error (t_mixins t) i = Some m -> nw i = true -> binst (s_blk s) (md_mixin (dd i)) = Some {| i_mixin := m; i_val := newv i |};
  pb_vn : forall i, i < u -> nw i = true -> vn_ok i (newv i);
  pb_vc : forall i m oi, i < u -> nth_error (t_mixins t) i = Some m -> oidx m = Some oi -> vc_ok i oi (oldv oi);
  pb_v0 : forall oi, (forall i m, i < u -> nth_error (t_mixins t) i = Some m -> oidx m <> Some oi) -> bad <> Some oi -> oldv oi = v0 oi;
  pb_np : forall i, i < u -> nw i = true -> np i <> None;
  pb_fp : forall b, N0 <= b -> s_blk s b <> None -> sm = false /\ fp t tb dd anew b;
  pb_lim : forall b, nx <= b -> s_blk s b = None;
  pb_log : s_log s = lg ++ flat_map cev (seq 0 u) ++ lx
}.
Hypothesis Hfp : sm = false -> forall b, fp t tb dd anew b -> N0 <= b.

(** Why an update throws *)
Definition com_call (c : cact) (f : fn) (src : option addr) : Prop :=
  match c with CNone => False | CUpd k => f = FUpdate k /\ src = None | CCopy q => f = FCopyAsgn /\ src = Some q end.
Inductive why (u : nat) (e : exn) : list ev -> option nat -> Prop :=
| why_missing : nw u = true -> u < n -> np u = None -> e = EMissingFunc -> why u e [] None
| why_new k f src : nw u = true -> u < n -> np u = Some (f, src) -> an_err (u_ans U k) <> 0%Z -> e = EUserFunc (an_err (u_ans U k)) ->
    why u e [EvCall f (mixin_at t u) (md_mixin (dd u)) src (an_err (u_ans U k))] None
| why_common k oi f src : nw u = false -> u < n -> oidx (mixin_at t u) = Some oi -> com_call (cp u) f src -> an_err (u_ans U k) <> 0%Z -> e = EUserFunc (an_err (u_ans U k)) ->
    why u e [EvCall f (mixin_at t u) (oaddr oi) src (an_err (u_ans U k))] (Some oi).

(** The functions given to update_next_mixin for index [i] do what the plan says *)
Definition dat_same (s : st) : Prop := forall b i, b < N0 -> bdat (s_blk s) b i = bdat B0 b i.
Definition conf (i : nat) (cn : cb_new) (uc : cb_common) : Prop :=
  forall m, nth_error (t_mixins t) i = Some m ->
  (nw i = true -> forall p s, dat_same s -> cn m p i s = match np i with Some (f, src) => construct E U f m p src s | None => (s, Throw EMissingFunc) end) /\
  (forall oi p s, oidx m = Some oi -> dat_same s -> uc m p i oi s = match cp i with CNone => (s, Ok tt) | CUpd k => update U k m p s | CCopy src => copy_asgn U m p src s end).

Lemma oidx_inj i j m m' oi : nth_error (t_mixins t) i = Some m -> nth_error (t_mixins t) j = Some m' -> oidx m = Some oi -> oidx m' = Some oi -> i = j.
Proof.
  intros Hi Hj H1 H2. pose proof (oidx_in _ _ _ _ _ _ _ _ _ _ _ SU _ _ _ Hi H1) as A1. pose proof (oidx_in _ _ _ _ _ _ _ _ _ _ _ SU _ _ _ Hj H2) as A2.
  assert (m = m') as <- by congruence. pose proof (tg_nodup _ _ _ (su_good _ _ _ _ _ _ _ _ _ _ _ SU)) as Hn. rewrite NoDup_nth_error in Hn. apply Hn; [now apply nth_error_lt in Hi|congruence].
Qed.

Lemma old_fp b oi : ob = Some b -> oi < length (t_mixins t0) -> fst (oaddr oi) < N0 /\ exists m, nth_error (t_mixins t0) oi = Some m /\ binst B0 (oaddr oi) = Some {| i_mixin := m; i_val := v0 oi |}.
Proof.
  intros Hb Hoi. destruct (su_old _ _ _ _ _ _ _ _ _ _ _ SU b Hb) as (_ & _ & G0 & _ & P0). pose proof Hoi as Hl. apply Nat.ltb_lt in Hl.
  destruct (part_con_mine _ _ _ _ _ _ _ _ _ _ oi P0 Hl) as (m & off & v & Hm & Hv). split.
  - pose proof (part_mine_blk _ _ _ _ _ _ _ _ _ _ _ _ _ P0 Hm) as Hne. destruct (Nat.lt_ge_cases (fst (oaddr oi)) N0); auto. exfalso. apply Hne.
    apply battr_none. now apply (su_next _ _ _ _ _ _ _ _ _ _ _ SU).
  - exists m. split; [apply Hm|]. unfold v0, oaddr. rewrite Hv. reflexivity.
Qed.
Lemma oaddr_inj b i j : ob = Some b -> i < length (t_mixins t0) -> j < length (t_mixins t0) -> oaddr i = oaddr j -> i = j.
Proof.
  intros Hb Hi Hj He. destruct (su_old _ _ _ _ _ _ _ _ _ _ _ SU b Hb) as (_ & _ & G0 & _ & P0). apply Nat.ltb_lt in Hi, Hj.
  destruct (part_con_mine _ _ _ _ _ _ _ _ _ _ i P0 Hi) as (m & off & v & Hm & Hv). destruct (part_con_mine _ _ _ _ _ _ _ _ _ _ j P0 Hj) as (m' & off' & v' & Hm' & Hv').
  eapply part_addr_inj; eauto.
Qed.
Lemma oidx_some m oi : oidx m = Some oi -> exists b, ob = Some b.
Proof. unfold AllocProofs.oidx. destruct ob; [eauto|discriminate]. Qed.

(** a change of the instance at one place *)
Lemma st_inst_at s f m p src e q y : has_blk s (fst q) -> inst_at (s_blk s) (s_blk (st_inst (st_call s f m p src e) q y)) q (Some y).
Proof.
  intros Hb. destruct (st_inst_views (st_call s f m p src e) q y Hb) as (V1 & V2 & V3 & V4). split; [|split; [|split]]; intros; [rewrite V1|rewrite V2|rewrite V3|rewrite V4]; reflexivity.
Qed.

(** the old memory after a change of a new mixin *)
Lemma oldmem_new oldv B B' p v : oldmem oldv B -> N0 <= fst p -> inst_at B B' p v -> oldmem oldv B'.
Proof.
  intros O Hp (V1 & V2 & V3 & V4). constructor.
  - intros b Hb. rewrite V1. now apply (om_attr _ _ O).
  - intros b i Hb. rewrite V2. now apply (om_dat _ _ O).
  - intros b q Hb. rewrite V3. now apply (om_back _ _ O).
  - intros b oi m Hb Hm. rewrite V4. destruct (addr_eqb_spec (oaddr oi) p) as [He|]; [|eapply om_own; eauto].
    exfalso. apply nth_error_lt in Hm. destruct (old_fp b oi Hb Hm) as (Hlt & _). rewrite He in Hlt. lia.
  - intros q Hq Hn. rewrite V4. destruct (addr_eqb_spec q p) as [He|]; [|now apply (om_other _ _ O)]. rewrite He in Hq. lia.
Qed.
(** ... and of an old one *)
Lemma oldmem_own oldv B B' b oi m v : oldmem oldv B -> ob = Some b -> nth_error (t_mixins t0) oi = Some m ->
  inst_at B B' (oaddr oi) (Some {| i_mixin := m; i_val := v |}) -> oldmem (upd oldv oi v) B'.
Proof.
  intros O Hb Hm (V1 & V2 & V3 & V4). constructor.
  - intros c Hc. rewrite V1. now apply (om_attr _ _ O).
  - intros c i Hc. rewrite V2. now apply (om_dat _ _ O).
  - intros c q Hc. rewrite V3. now apply (om_back _ _ O).
  - intros b' oj m' Hb' Hm'. rewrite V4. destruct (addr_eqb_spec (oaddr oj) (oaddr oi)) as [He|He].
    + assert (oj = oi) as -> by (apply (oaddr_inj b); auto; [now apply nth_error_lt in Hm'|now apply nth_error_lt in Hm]). rewrite upd_same. congruence.
    + rewrite upd_other by congruence. eapply om_own; eauto.
  - intros q Hq Hn. rewrite V4. destruct (addr_eqb_spec q (oaddr oi)) as [He|]; [|now apply (om_other _ _ O)]. exfalso. apply Hn. exists b, oi. split; auto. split; auto.
    now apply nth_error_lt in Hm.
Qed.

Lemma src_lt src y : binst B0 src = Some y -> fst src < N0.
Proof.
  intros H. destruct (Nat.lt_ge_cases (fst src) N0); auto. exfalso. rewrite binst_none in H; [discriminate|]. now apply (su_next _ _ _ _ _ _ _ _ _ _ _ SU).
Qed.

Lemma cevs_snoc u : flat_map cev (seq 0 (S u)) = flat_map cev (seq 0 u) ++ cev u.
Proof. rewrite seq_S, flat_map_app. simpl. now rewrite app_nil_r. Qed.

Definition stop (cn : mst * res unit) (mu : omut) (u : nat) (oldv newv : nat -> Z) : Prop :=
  exists s' oldv' bad lx e, cn = ((mu, s'), Throw e) /\ PB u bad lx oldv' newv mu s' /\ why u e lx bad.

Lemma update_next_step cn uc u oldv newv mu s : PB u None [] oldv newv mu s -> u < n -> conf u cn uc ->
  (exists mu' s' oldv' newv', update_next cn uc (mu, s) = ((mu', s'), Ok tt) /\ PB (S u) None [] oldv' newv' mu' s') \/
  stop (update_next cn uc (mu, s)) mu u oldv newv.
Proof.
  intros I Hu C. pose proof (su_good _ _ _ _ _ _ _ _ _ _ _ SU) as G.
  destruct (slot_ex E _ _ u G Hu) as (m & off & Hs). pose proof Hs as [Hm Ho].
  pose proof (pb_mu _ _ _ _ _ _ _ I) as Hmu. pose proof Hmu as (M1 & M2 & M3 & M4 & M5 & M6).
  pose proof (mixin_at_slot _ _ _ _ Hs) as Hma.
  assert (Hmid : w_mid (s_w s) = mid) by (rewrite (pb_w _ _ _ _ _ _ _ I); exact Hws).
  assert (Hds : dat_same s) by (intros b i Hb; now apply (om_dat _ _ (pb_old _ _ _ _ _ _ _ I))).
  destruct (C m Hm) as [C1 C2].
  assert (Hco : mu_complete mu = false).
  { rewrite (pb_co _ _ _ _ _ _ _ I). destruct (Nat.eqb_spec u n); [lia|]. now rewrite andb_false_r. }
  (* what update_next does given the result of the callback *)
  assert (Hrun : forall p, (nw u = true /\ sm = false /\ p = md_mixin (dd u) \/ exists b oi, nw u = false /\ ob = Some b /\ oidx m = Some oi /\ p = oaddr oi) ->
    forall s' z, (if nw u then cn m p u s else uc m p u (match oidx m with Some oi => oi | None => 0 end) s) = (s', z) ->
    update_next cn uc (mu, s) = match z with Ok _ => ((with_uu mu (S u) (S u =? n), s'), Ok tt) | Throw e => ((mu, s'), Throw e) | Ub b => ((mu, s'), Ub b) end).
  { intros p Hp s' z Hz. unfold update_next. rewrite (bnd_ok _ _ _ _ _ (get_mu_step mu s)), Hco. rewrite (pb_uu _ _ _ _ _ _ _ I).
    assert (Hm' : nth_error (t_mixins (mu_ty mu)) u = Some m) by now rewrite M5.
    rewrite (bnd_ok _ _ _ _ _ (target_mixin_step mu s u m Hm')), (bnd_ok _ _ _ _ _ (get_mid_step mu s)), Hmid, (old_slot_eq _ _ _ _ _ _ _ _ _ _ _ SU mu m Hmu).
    destruct Hp as [(Hn & Hf & ->)|(b & oi & Hn & Hb & Hoi & ->)]; rewrite Hn in Hz.
    - assert (Hno : oidx m = None) by (rewrite (nw_slot _ _ _ _ _ _ _ Hs) in Hn; destruct (oidx m); congruence).
      replace (match ob with Some b => match oidx m with Some oi => Some (b, oi) | None => None end | None => None end) with (@None (nat * nat)) by (rewrite Hno; destruct ob; auto).
      assert (Ht : mu_tdata mu = Some tb) by (rewrite (pb_td _ _ _ _ _ _ _ I), Hf; auto).
      pose proof (pb_part _ _ _ _ _ _ _ I Hf) as P.
      assert (Hd : bdat (s_blk s) tb u = Some (dd u)) by (rewrite (pa_data _ _ _ _ _ _ _ _ _ _ P); destruct (Nat.ltb_spec u n); [auto|lia]).
      unfold bnd at 1. rewrite (bnd_ok _ _ _ _ _ (target_data_step mu s tb Ht)), (bnd_ok _ _ _ _ _ (lift_eq _ mu _ _ _ (read_data_step s tb u _ Hd))), (lift_eq _ mu _ _ _ Hz).
      destruct z; auto. unfold set_mu. cbn [fst snd]. unfold num_mixins. now rewrite M5.
    - rewrite Hoi in Hz. rewrite Hoi, Hb.
      assert (Hd : bdat (s_blk s) b oi = Some (ddo oi)).
      { rewrite (om_dat _ _ (pb_old _ _ _ _ _ _ _ I)) by now apply (old_blk_lt _ _ _ _ _ _ _ _ _ _ _ SU).
        destruct (su_old _ _ _ _ _ _ _ _ _ _ _ SU b Hb) as (_ & _ & _ & _ & P0). rewrite (pa_data _ _ _ _ _ _ _ _ _ _ P0).
        pose proof (oidx_in _ _ _ _ _ _ _ _ _ _ _ SU _ _ _ Hm Hoi) as Hl. apply nth_error_lt in Hl. apply Nat.ltb_lt in Hl. now rewrite Hl. }
      unfold oaddr in Hz. unfold bnd at 1. rewrite (bnd_ok _ _ _ _ _ (lift_eq _ mu _ _ _ (read_data_step s b oi _ Hd))), (lift_eq _ mu _ _ _ Hz).
      destruct z; auto. unfold set_mu. cbn [fst snd]. unfold num_mixins. now rewrite M5. }
  assert (HcoS : (S u =? n) = (0 <? S u) && (S u =? n)) by reflexivity.
  destruct (nw u) eqn:Hn.
  - (* a new mixin *)
    assert (Hf : sm = false) by (destruct sm; auto; specialize (Hsm eq_refl u); congruence).
    pose proof (pb_part _ _ _ _ _ _ _ I Hf) as P.
    assert (Hmine : mine t (fun i => i <? n) anew u m off).
    { apply mine_new; auto. }
    assert (Hblk : has_blk s (fst (md_mixin (dd u)))) by (eapply part_mine_blk; eauto).
    assert (Hge : N0 <= fst (md_mixin (dd u))) by (apply Hfp; auto; eapply part_mine_fp; eauto).
    assert (Hvac : vacant_at E s (md_mixin (dd u))).
    { eapply (part_vacant E _ _ _ _ _ G); eauto. cbv beta. now rewrite Nat.ltb_irrefl. }
    specialize (Hrun (md_mixin (dd u)) (or_introl (conj eq_refl (conj Hf eq_refl)))). rewrite (C1 eq_refl _ s Hds) in Hrun.
    destruct (np u) as [[f src]|] eqn:Hnp.
    + assert (Hsrc : exists v, match src with Some q => exists y, binst (s_blk s) q = Some y /\ i_mixin y = m /\ i_val y = v | None => v = an_val (cur_ans U s) end /\ vn_ok u v).
      { destruct src as [q|].
        - destruct (pk_new PK u m f q Hm Hnp) as ((v & Hv) & Hno). exists v. split.
          + exists {| i_mixin := m; i_val := v |}. rewrite (om_other _ _ (pb_old _ _ _ _ _ _ _ I)); auto. eapply src_lt; eauto.
          + unfold vn_ok. rewrite Hnp. intros y Hy. rewrite Hv in Hy. now injection Hy as <-.
        - eexists. split; [reflexivity|]. unfold vn_ok. now rewrite Hnp. }
      destruct Hsrc as (v & Hsrc & Hvn).
      pose proof (construct_step E U s f m (md_mixin (dd u)) src v Hblk Hvac Hsrc) as Hcs. fold (cur_ans U s) in Hrun.
      destruct (Z.eqb_spec (an_err (cur_ans U s)) 0) as [He|He]; specialize (Hrun _ _ Hcs).
      * left. exists (with_uu mu (S u) (S u =? n)). eexists. exists oldv, (upd newv u v). split; [exact Hrun|].
        pose proof (st_inst_at s f m (md_mixin (dd u)) src 0 (md_mixin (dd u)) {| i_mixin := m; i_val := v |} Hblk) as Hia.
        set (s' := st_inst (st_call s f m (md_mixin (dd u)) src 0) (md_mixin (dd u)) {| i_mixin := m; i_val := v |}) in *.
        pose proof (in_blk_rest (st_call s f m (md_mixin (dd u)) src 0) (fst (md_mixin (dd u))) (fun k => with_inst k (aset (snd (md_mixin (dd u))) {| i_mixin := m; i_val := v |} (b_inst k)))) as ((R1 & R2 & R3) & R4 & R5).
        fold (st_inst (st_call s f m (md_mixin (dd u)) src 0) (md_mixin (dd u)) {| i_mixin := m; i_val := v |}) in R1, R2, R3, R4, R5. fold s' in R1, R2, R3, R4, R5.
        pose proof Hia as (V1 & V2 & V3 & V4).
        assert (Hnone : forall b, s_blk s' b = None <-> s_blk s b = None) by (intros b; rewrite <- !battr_none, V1; tauto).
        constructor; cbn [with_uu mu_obj mu_old mu_odata mu_ref mu_ty mu_tdata mu_au mu_uu mu_complete mu_moved].
        -- repeat split; auto.
        -- apply (pb_td _ _ _ _ _ _ _ I).
        -- apply (pb_au _ _ _ _ _ _ _ I).
        -- reflexivity.
        -- lia.
        -- exact HcoS.
        -- rewrite R2. apply (pb_obj _ _ _ _ _ _ _ I).
        -- rewrite R1. apply (pb_w _ _ _ _ _ _ _ I).
        -- rewrite R3. apply (pb_next _ _ _ _ _ _ _ I).
        -- eapply oldmem_new; eauto. apply (pb_old _ _ _ _ _ _ _ I).
        -- intros _. eapply (part_set E _ _ _ _ _ G); eauto. intros j. cbv beta. destruct (Nat.eqb_spec j u) as [->|Hne].
           ++ rewrite Hn. destruct (Nat.ltb_spec u (S u)); [auto|lia].
           ++ f_equal. destruct (Nat.ltb_spec j u), (Nat.ltb_spec j (S u)); auto; lia.
        -- intros i m' Hi Hm' Hn'. rewrite V4. destruct (Nat.eq_dec i u) as [->|Hne].
           ++ rewrite addr_eqb_refl, upd_same. congruence.
           ++ rewrite upd_other by auto. destruct (addr_eqb_spec (md_mixin (dd i)) (md_mixin (dd u))) as [He'|].
              ** exfalso. apply Hne. destruct (slot_ex E _ _ i G) as (mi & offi & Hsi); [lia|].
                 eapply (part_addr_inj E _ _ _ _ _ G); eauto. apply mine_new; eauto; lia.
              ** apply (pb_newv _ _ _ _ _ _ _ I); auto. lia.
        -- intros i Hi Hn'. destruct (Nat.eq_dec i u) as [->|Hne]; [now rewrite upd_same|]. rewrite upd_other by auto. apply (pb_vn _ _ _ _ _ _ _ I); auto. lia.
        -- intros i m' oi Hi Hm' Hoi. destruct (Nat.eq_dec i u) as [->|Hne].
           ++ exfalso. rewrite (nw_slot _ _ _ _ _ _ _ Hs) in Hn. assert (m' = m) as -> by congruence. rewrite Hoi in Hn. discriminate.
           ++ apply (pb_vc _ _ _ _ _ _ _ I i m'); auto. lia.
        -- intros oi Hoi Hb. apply (pb_v0 _ _ _ _ _ _ _ I); auto. intros i m' Hi. apply Hoi. lia.
        -- intros i Hi Hn'. destruct (Nat.eq_dec i u) as [->|Hne]; [congruence|]. apply (pb_np _ _ _ _ _ _ _ I); auto. lia.
        -- intros b Hb Hne. apply (pb_fp _ _ _ _ _ _ _ I); auto. now rewrite <- Hnone.
        -- intros b Hb. apply Hnone. now apply (pb_lim _ _ _ _ _ _ _ I).
        -- rewrite R5. cbn [s_log st_call add_log add_call]. rewrite (pb_log _ _ _ _ _ _ _ I), !app_nil_r, cevs_snoc. unfold cev at 3. rewrite Hn, Hnp, Hma, <- app_assoc. reflexivity.
      * right. exists (st_call s f m (md_mixin (dd u)) src (an_err (cur_ans U s))), oldv, None, [EvCall f m (md_mixin (dd u)) src (an_err (cur_ans U s))], (EUserFunc (an_err (cur_ans U s))).
        split; [exact Hrun|]. split.
        -- destruct I. constructor; auto. cbn [s_log st_call add_log add_call]. rewrite pb_log0, app_nil_r, <- app_assoc. reflexivity.
        -- rewrite <- Hma. eapply why_new; eauto.
    + specialize (Hrun _ _ eq_refl). right. exists s, oldv, None, [], EMissingFunc. split; [exact Hrun|]. split; auto. now apply why_missing.
  - (* a common mixin *)
    assert (exists oi, oidx m = Some oi) as [oi Hoi] by (rewrite (nw_slot _ _ _ _ _ _ _ Hs) in Hn; destruct (oidx m); [eauto|discriminate]).
    destruct (oidx_some _ _ Hoi) as [b Hb].
    pose proof (oidx_in _ _ _ _ _ _ _ _ _ _ _ SU _ _ _ Hm Hoi) as Hm0.
    assert (Hl0 : oi < length (t_mixins t0)) by (now apply nth_error_lt in Hm0).
    assert (Hlt : fst (oaddr oi) < N0) by now apply (old_fp b).
    pose proof (om_own _ _ (pb_old _ _ _ _ _ _ _ I) b oi m Hb Hm0) as Hcur.
    assert (Hblk : has_blk s (fst (oaddr oi))) by (eapply binst_has; eauto).
    specialize (Hrun (oaddr oi) (or_intror (ex_intro _ b (ex_intro _ oi (conj eq_refl (conj Hb (conj Hoi eq_refl))))))).
    rewrite Hoi in Hrun. rewrite (C2 oi _ s Hoi Hds) in Hrun.
    assert (Hunt : oldv oi = v0 oi).
    { apply (pb_v0 _ _ _ _ _ _ _ I); [|discriminate]. intros i m' Hi Hm' Hc. assert (i = u) by (eapply oidx_inj; eauto). lia. }
    assert (Hstep : forall f src e v, vc_ok u oi v \/ e <> 0%Z -> forall bad lx, (e = 0%Z -> bad = None /\ lx = []) -> (e <> 0%Z -> bad = Some oi /\ lx = [EvCall f m (oaddr oi) src e]) -> cp u <> CNone ->
      (e = 0%Z -> cev u = [EvCall f m (oaddr oi) src 0]) ->
      let s' := st_inst (st_call s f m (oaddr oi) src e) (oaddr oi) {| i_mixin := m; i_val := v |} in
      PB (if Z.eqb e 0 then S u else u) bad lx (upd oldv oi v) newv (if Z.eqb e 0 then with_uu mu (S u) (S u =? n) else mu) s').
    { intros f src e v Hv bad lx Hb1 Hb2 Hcp Hcv s'.
      pose proof (st_inst_at s f m (oaddr oi) src e (oaddr oi) {| i_mixin := m; i_val := v |} Hblk) as Hia. fold s' in Hia.
      pose proof (in_blk_rest (st_call s f m (oaddr oi) src e) (fst (oaddr oi)) (fun k => with_inst k (aset (snd (oaddr oi)) {| i_mixin := m; i_val := v |} (b_inst k)))) as ((R1 & R2 & R3) & R4 & R5).
      fold (st_inst (st_call s f m (oaddr oi) src e) (oaddr oi) {| i_mixin := m; i_val := v |}) in R1, R2, R3, R4, R5. fold s' in R1, R2, R3, R4, R5.
      pose proof Hia as (V1 & V2 & V3 & V4).
      assert (Hnone : forall c, s_blk s' c = None <-> s_blk s c = None) by (intros c; rewrite <- !battr_none, V1; tauto).
      assert (Hagree : forall c, N0 <= c -> agree (s_blk s) (s_blk s') c).
      { intros c Hc. repeat split; auto. intros q. rewrite V4. destruct (addr_eqb_spec (c, q) (oaddr oi)) as [He|]; auto. rewrite <- He in Hlt. cbn [fst] in Hlt. lia. }
      assert (Hu' : (if Z.eqb e 0 then S u else u) <= S u) by (destruct (Z.eqb e 0); lia).
      constructor.
      - destruct (Z.eqb e 0); repeat split; auto.
      - destruct (Z.eqb e 0); apply (pb_td _ _ _ _ _ _ _ I).
      - destruct (Z.eqb e 0); apply (pb_au _ _ _ _ _ _ _ I).
      - destruct (Z.eqb e 0); [reflexivity|]. apply (pb_uu _ _ _ _ _ _ _ I).
      - lia.
      - destruct (Z.eqb e 0); [exact HcoS|]. apply (pb_co _ _ _ _ _ _ _ I).
      - rewrite R2. apply (pb_obj _ _ _ _ _ _ _ I).
      - rewrite R1. apply (pb_w _ _ _ _ _ _ _ I).
      - rewrite R3. apply (pb_next _ _ _ _ _ _ _ I).
      - eapply oldmem_own; eauto. apply (pb_old _ _ _ _ _ _ _ I).
      - intros Hf. eapply part_ext; [eapply part_frame; [apply (pb_part _ _ _ _ _ _ _ I Hf)|]| | |]; auto.
        intros j. cbv beta. destruct (Z.eqb e 0); auto. destruct (Nat.eq_dec j u) as [->|]; [now rewrite Hn, !andb_false_r|]. f_equal. destruct (Nat.ltb_spec j u), (Nat.ltb_spec j (S u)); auto; lia.
      - intros i m' Hi Hm' Hn'. assert (i <> u) by congruence. rewrite V4. destruct (addr_eqb_spec (md_mixin (dd i)) (oaddr oi)) as [He|].
        + exfalso. assert (Hf : sm = false) by (destruct sm; auto; specialize (Hsm eq_refl i); congruence).
          destruct (slot_ex E _ _ i G) as (mi & offi & Hsi); [lia|].
          assert (N0 <= fst (md_mixin (dd i))).
          { apply Hfp; auto. eapply part_mine_fp; [apply (pb_part _ _ _ _ _ _ _ I Hf)|]. apply mine_new; eauto; lia. }
          rewrite He in *. lia.
        + apply (pb_newv _ _ _ _ _ _ _ I); auto. lia.
      - intros i Hi Hn'. assert (i <> u) by congruence. apply (pb_vn _ _ _ _ _ _ _ I); auto. lia.
      - intros i m' oi' Hi Hm' Hoi'. destruct (Nat.eq_dec i u) as [->|Hne].
        + assert (m' = m) as -> by congruence. assert (oi' = oi) as -> by congruence. rewrite upd_same. destruct (Z.eqb_spec e 0); [|lia]. destruct Hv; tauto.
        + rewrite upd_other. { apply (pb_vc _ _ _ _ _ _ _ I i m'); auto. lia. } intros ->. apply Hne. eapply oidx_inj; eauto.
      - intros oi' Hoi' Hb'. destruct (Nat.eq_dec oi' oi) as [->|Hne].
        + exfalso. destruct (Z.eqb_spec e 0) as [He|He].
          * apply (Hoi' u m); auto.
          * destruct (Hb2 He). congruence.
        + rewrite upd_other by auto. apply (pb_v0 _ _ _ _ _ _ _ I); [|discriminate]. intros i m' Hi. apply Hoi'. destruct (Z.eqb e 0); lia.
      - intros i Hi Hn'. assert (i <> u) by congruence. apply (pb_np _ _ _ _ _ _ _ I); auto. lia.
      - intros c Hc Hne. apply (pb_fp _ _ _ _ _ _ _ I); auto. now rewrite <- Hnone.
      - intros c Hc. apply Hnone. now apply (pb_lim _ _ _ _ _ _ _ I).
      - rewrite R5. cbn [s_log st_call add_log add_call]. rewrite (pb_log _ _ _ _ _ _ _ I), !app_nil_r. destruct (Z.eqb_spec e 0) as [He|He].
        + destruct (Hb1 He) as (_ & ->). rewrite cevs_snoc, Hcv, He, app_nil_r, <- app_assoc by auto. reflexivity.
        + destruct (Hb2 He) as (_ & ->). rewrite <- app_assoc. reflexivity. }
    assert (Hcev : cev u = match cp u with CNone => [] | CUpd k => [EvCall (FUpdate k) m (oaddr oi) None 0] | CCopy src => [EvCall FCopyAsgn m (oaddr oi) (Some src) 0] end).
    { unfold cev. rewrite Hn, Hma, Hoi. reflexivity. }
    destruct (cp u) as [|k|src] eqn:Hcp.
    + left. specialize (Hrun _ _ eq_refl). exists (with_uu mu (S u) (S u =? n)), s, oldv, newv. split; [exact Hrun|].
      constructor; cbn [with_uu mu_obj mu_old mu_odata mu_ref mu_ty mu_tdata mu_au mu_uu mu_complete mu_moved].
      * repeat split; auto.
      * apply (pb_td _ _ _ _ _ _ _ I).
      * apply (pb_au _ _ _ _ _ _ _ I).
      * reflexivity.
      * lia.
      * exact HcoS.
      * apply (pb_obj _ _ _ _ _ _ _ I).
      * apply (pb_w _ _ _ _ _ _ _ I).
      * apply (pb_next _ _ _ _ _ _ _ I).
      * apply (pb_old _ _ _ _ _ _ _ I).
      * intros Hf. eapply part_ext; [apply (pb_part _ _ _ _ _ _ _ I Hf)| | |]; auto.
        intros j. cbv beta. destruct (Nat.eq_dec j u) as [->|]; [now rewrite Hn, !andb_false_r|]. f_equal. destruct (Nat.ltb_spec j u), (Nat.ltb_spec j (S u)); auto; lia.
      * intros i m' Hi Hm' Hn'. assert (i <> u) by congruence. apply (pb_newv _ _ _ _ _ _ _ I); auto. lia.
      * intros i Hi Hn'. assert (i <> u) by congruence. apply (pb_vn _ _ _ _ _ _ _ I); auto. lia.
      * intros i m' oi' Hi Hm' Hoi'. destruct (Nat.eq_dec i u) as [->|Hne].
        -- assert (m' = m) as -> by congruence. assert (oi' = oi) as -> by congruence. unfold vc_ok. rewrite Hcp. exact Hunt.
        -- apply (pb_vc _ _ _ _ _ _ _ I i m'); auto. lia.
      * intros oi' Hoi' Hb'. apply (pb_v0 _ _ _ _ _ _ _ I); auto. intros i m' Hi. apply Hoi'. lia.
      * intros i Hi Hn'. assert (i <> u) by congruence. apply (pb_np _ _ _ _ _ _ _ I); auto. lia.
      * apply (pb_fp _ _ _ _ _ _ _ I).
      * apply (pb_lim _ _ _ _ _ _ _ I).
      * rewrite (pb_log _ _ _ _ _ _ _ I), cevs_snoc, Hcev. now rewrite !app_nil_r.
    + pose proof (update_step U s k m (oaddr oi) _ Hcur eq_refl) as Hus. specialize (Hrun _ _ Hus).
      destruct (Z.eqb_spec (an_err (cur_ans U s)) 0) as [He|He].
      * left. eexists. eexists. eexists. exists newv. split; [exact Hrun|]. rewrite He.
        apply (Hstep (FUpdate k) None 0%Z (an_val (cur_ans U s))); auto; try congruence. left. unfold vc_ok. now rewrite Hcp.
      * right. eexists. eexists. exists (Some oi), [EvCall (FUpdate k) m (oaddr oi) None (an_err (cur_ans U s))]. eexists. split; [exact Hrun|]. split.
        -- pose proof (Hstep (FUpdate k) None (an_err (cur_ans U s)) (an_val (cur_ans U s))) as H. cbv zeta in H. destruct (Z.eqb_spec (an_err (cur_ans U s)) 0); [congruence|].
           apply H; auto; try congruence; intros; tauto.
        -- rewrite <- Hma. eapply why_common; eauto; [congruence|rewrite Hcp; split; reflexivity].
    + destruct (pk_com PK u m src Hm Hcp) as ((v & Hv) & Hown).
      assert (Hcs : exists y, binst (s_blk s) src = Some y /\ i_mixin y = m /\ i_val y = v).
      { destruct (addr_eqb_spec src (oaddr oi)) as [->|Hne].
        - eexists. split; [exact Hcur|]. split; auto. cbn [i_val]. rewrite Hunt. unfold v0. now rewrite Hv.
        - exists {| i_mixin := m; i_val := v |}. split; auto. rewrite (om_other _ _ (pb_old _ _ _ _ _ _ _ I)); auto; [eapply src_lt; eauto|].
          intros Ha. destruct (Hown Ha) as (oi' & Hoi' & ->). apply Hne. congruence. }
      destruct Hcs as (y & Hy & Hym & Hyv).
      pose proof (copy_asgn_step U s m (oaddr oi) src _ y Hcur eq_refl Hy Hym) as Hus.
      destruct (Z.eqb_spec (an_err (cur_ans U s)) 0) as [He|He]; specialize (Hrun _ _ Hus).
      * left. eexists. eexists. eexists. exists newv. split; [exact Hrun|].
        apply (Hstep FCopyAsgn (Some src) 0%Z (i_val y)); auto; try congruence. left. unfold vc_ok. rewrite Hcp. intros z Hz. rewrite Hv in Hz. injection Hz as <-. auto.
      * right. eexists. eexists. exists (Some oi), [EvCall FCopyAsgn m (oaddr oi) (Some src) (an_err (cur_ans U s))]. eexists. split; [exact Hrun|]. split.
        -- pose proof (Hstep FCopyAsgn (Some src) (an_err (cur_ans U s)) (an_val (cur_ans U s))) as H. cbv zeta in H. destruct (Z.eqb_spec (an_err (cur_ans U s)) 0); [congruence|].
           apply H; auto; try congruence; intros; tauto.
        -- rewrite <- Hma. eapply why_common; eauto; [congruence|rewrite Hcp; split; reflexivity].
Qed.

(** Can the order of the updates be wrong? *)
Variable ord : Prop.
(** The outcome of a sequence of updates: it got to [u], or it threw there *)
Definition went (res : mst * res unit) (good : nat -> Prop) : Prop :=
  (exists u mu' s' oldv newv, res = ((mu', s'), Ok tt) /\ PB u None [] oldv newv mu' s' /\ good u) \/
  (exists u mu' s' oldv newv bad lx e, res = ((mu', s'), Throw e) /\ PB u bad lx oldv newv mu' s' /\ (why u e lx bad \/ ord /\ e = EBadPiecewise /\ bad = None /\ lx = [])).

Lemma turns_step cn uc : forall k u oldv newv mu s, PB u None [] oldv newv mu s -> u + k <= n -> (forall i, u <= i < u + k -> conf i cn uc) ->
  went (update_turns cn uc k (mu, s)) (fun u' => u' = u + k).
Proof.
  induction k as [|k IH]; intros u oldv newv mu s I Hk C.
  - left. exists u, mu, s, oldv, newv. split; [reflexivity|]. split; auto.
  - cbn [update_turns]. destruct (update_next_step cn uc u oldv newv mu s I) as [(mu' & s' & ov & nv & H1 & I1)|(s' & ov & bad & lx & e & H1 & I1 & Hw)]; [lia|apply C; lia| |].
    + rewrite (bnd_ok _ _ _ _ _ H1). destruct (IH (S u) ov nv mu' s' I1) as [(u2 & mu2 & s2 & ov2 & nv2 & A1 & A2 & A3)|H2]; [lia|intros; apply C; lia| |].
      * left. exists u2, mu2, s2, ov2, nv2. split; auto. split; auto. cbv beta in *. lia.
      * right. exact H2.
    + right. exists u, mu, s', ov, newv, bad, lx, e. split; [exact (bnd_throw _ _ _ _ _ H1)|]. auto.
Qed.

Definition upto_of (u : option nat) : nat := match u with Some k => if n <? k then n else k | None => n end.
Lemma upto_le u : upto_of u <= n.
Proof. destruct u as [k|]; unfold upto_of; [|lia]. destruct (Nat.ltb_spec n k); lia. Qed.

Lemma each_step cn uc upto u oldv newv mu s : PB u None [] oldv newv mu s -> (forall i, u <= i < upto_of upto -> conf i cn uc) ->
  went (update_each cn uc upto (mu, s)) (fun u' => u' = Nat.max u (upto_of upto)).
Proof.
  intros I C. unfold update_each. rewrite (bnd_ok _ _ _ _ _ (get_mu_step mu s)). pose proof (pb_mu _ _ _ _ _ _ _ I) as (_ & _ & _ & _ & M5 & _).
  unfold num_mixins. rewrite M5, (pb_uu _ _ _ _ _ _ _ I). fold (upto_of upto). pose proof (upto_le upto). pose proof (pb_le _ _ _ _ _ _ _ I).
  destruct (turns_step cn uc (upto_of upto - u) u oldv newv mu s I) as [(u2 & mu2 & s2 & ov2 & nv2 & A1 & A2 & A3)|H2]; [lia|intros; apply C; lia| |].
  - left. exists u2, mu2, s2, ov2, nv2. split; auto. split; auto. cbv beta in *. lia.
  - now right.
Qed.

(** sequencing *)
Lemma went_bind p p' (f : M mst unit) (g : M mst unit) good good' : f p = p' -> went p' good ->
  (forall u mu s oldv newv, PB u None [] oldv newv mu s -> good u -> went (g (mu, s)) good') -> went (bnd f (fun _ => g) p) good'.
Proof.
  intros Hf [(u & mu & s & ov & nv & -> & I & Hg)|(u & mu & s & ov & nv & bad & lx & e & -> & I & Hw)] H.
  - rewrite (bnd_ok _ _ _ _ _ Hf). eauto.
  - right. exists u, mu, s, ov, nv, bad, lx, e. split; [exact (bnd_throw _ _ _ _ _ Hf)|]. auto.
Qed.
Lemma went_weak p (good good' : nat -> Prop) : went p good -> (forall u, good u -> good' u) -> went p good'.
Proof. intros [(u & mu & s & ov & nv & H1 & I & Hg)|H] K; [left; exists u, mu, s, ov, nv; auto|now right]. Qed.

(** The default: init for new mixins, nothing for common ones *)
Definition dflt (i : nat) : Prop := forall m, nth_error (t_mixins t) i = Some m ->
  np i = (if m_init (e_mixin E m) then Some (FInit, None) else None) /\ cp i = CNone.
Lemma conf_default i : dflt i -> conf i (default_init E U) noop_common.
Proof.
  intros H m Hm. destruct (H m Hm) as (-> & ->). split; auto. intros _ p s _. unfold default_init. destruct (m_init (e_mixin E m)); reflexivity.
Qed.

Lemma default_step upto u oldv newv mu s : PB u None [] oldv newv mu s -> (forall i, u <= i < upto_of upto -> dflt i) ->
  went (default_each E U upto (mu, s)) (fun u' => u' = Nat.max u (upto_of upto)).
Proof. intros I H. unfold default_each, construct_each. eapply each_step; eauto. intros i Hi. apply conf_default; auto. Qed.

Lemma next_step cn uc u oldv newv mu s : PB u None [] oldv newv mu s -> u < n -> conf u cn uc -> went (update_next cn uc (mu, s)) (fun u' => u' = S u).
Proof.
  intros I Hu C. destruct (update_next_step cn uc u oldv newv mu s I Hu C) as [(mu' & s' & ov & nv & H1 & I1)|(s' & ov & bad & lx & e & H1 & I1 & Hw)].
  - left. exists (S u), mu', s', ov, nv. auto.
  - right. exists u, mu, s', ov, newv, bad, lx, e. auto.
Qed.
(** update_next_mixin does nothing when all is done *)
Lemma next_done cn uc u oldv newv mu s : PB u None [] oldv newv mu s -> u = n -> n <> 0 -> update_next cn uc (mu, s) = ((mu, s), Ok tt).
Proof.
  intros I Hu Hn. unfold update_next. rewrite (bnd_ok _ _ _ _ _ (get_mu_step mu s)), (pb_co _ _ _ _ _ _ _ I), Hu, Nat.eqb_refl. destruct (Nat.ltb_spec 0 n); [reflexivity|lia].
Qed.

Lemma at_step cn uc i u oldv newv mu s : PB u None [] oldv newv mu s -> i < n -> (i < u -> ord) -> (u <= i -> conf i cn uc /\ forall j, u <= j < i -> dflt j) ->
  went (update_at E U i cn uc (mu, s)) (fun u' => u <= i /\ u' = S i).
Proof.
  intros I Hi Hord H. unfold update_at. rewrite (bnd_ok _ _ _ _ _ (get_mu_step mu s)). pose proof (pb_mu _ _ _ _ _ _ _ I) as (_ & _ & _ & _ & M5 & _).
  unfold num_mixins. rewrite M5, (pb_uu _ _ _ _ _ _ _ I). destruct (Nat.ltb_spec n i); [lia|]. rewrite orb_false_r. destruct (Nat.ltb_spec i u).
  - right. exists u, mu, s, oldv, newv, None, [], EBadPiecewise. split; [reflexivity|]. split; auto 10.
  - destruct H as [HA HB]; auto. assert (Hup : upto_of (Some i) = i) by (unfold upto_of; destruct (Nat.ltb_spec n i); lia).
    eapply went_bind; [reflexivity|eapply default_step; eauto|].
    + rewrite Hup. auto.
    + intros u' mu' s' ov nv I' ->. rewrite Hup in *. assert (Hmax : Nat.max u i = i) by lia. rewrite Hmax in *.
      eapply went_weak; [eapply next_step; eauto|]. intros u' ->. auto.
Qed.
Lemma at_bad cn uc i u oldv newv mu s : PB u None [] oldv newv mu s -> i < u \/ n < i -> update_at E U i cn uc (mu, s) = ((mu, s), Throw EBadPiecewise).
Proof.
  intros I Hi. unfold update_at. rewrite (bnd_ok _ _ _ _ _ (get_mu_step mu s)). pose proof (pb_mu _ _ _ _ _ _ _ I) as (_ & _ & _ & _ & M5 & _).
  unfold num_mixins. rewrite M5, (pb_uu _ _ _ _ _ _ _ I). destruct (Nat.ltb_spec i u); [reflexivity|]. destruct (Nat.ltb_spec n i); [reflexivity|lia].
Qed.

End Upd.
