(** What finalize does with a mutation whose updates are complete *)
From Coq Require Import List Arith ZArith NArith Lia Bool.
From Verif Require Import Base Sv BaseLemmas Info TypeBuild TypeQuery Domain TypesProofs Heap HeapProofs Mutation PartProofs RollProofs AllocProofs UpdProofs.
Import ListNotations.

Section Fin.
Variable E : env.
Variable U : user.
Notation part := (part E).

Lemma inst_frame B B' p v c : inst_at B B' p v -> c <> fst p -> agree B B' c.
Proof.
  intros (V1 & V2 & V3 & V4) Hc. split; auto. split; auto. split; auto. intros q. rewrite V4. destruct (addr_eqb_spec (c, q) p) as [<-|]; auto. now destruct Hc.
Qed.

(** the events of destroying a mixin *)
Definition dst (m : mptr) (p : addr) : list ev := if m_destroy (e_mixin E m) then [EvCall FDestroy m p None 0] else [].

Lemma part_destroy mid o a t tb dd dat own con s k m off : tgood E mid t -> part (s_blk s) o a t tb dd dat own con -> slot_at t k m off -> con k = true ->
  exists s', destroy E m (md_mixin (dd k)) s = (s', Ok tt) /\
    part (s_blk s') o a t tb dd dat own (fun j => if j =? k then false else con j) /\ same_rest s s' /\
    (forall c, c <> fst (md_mixin (dd k)) -> s_blk s' c = s_blk s c) /\
    (forall q, q <> md_mixin (dd k) -> binst (s_blk s') q = binst (s_blk s) q) /\
    (forall c, s_blk s' c = None <-> s_blk s c = None) /\ s_log s' = s_log s ++ dst m (md_mixin (dd k)).
Proof.
  intros G P Hs Hc. unfold dst. destruct (m_destroy (e_mixin E m)) eqn:Hd.
  - destruct (part_con_mine _ _ _ _ _ _ _ _ _ _ _ P Hc) as (m' & off' & v & Hm & Hv). pose proof Hm as (Hs' & _).
    destruct (slot_fun _ _ _ _ _ _ Hs Hs') as (-> & ->).
    pose proof (destroy_step E s m (md_mixin (dd k)) _ Hv eq_refl Hd) as Hde. eexists. split; [exact Hde|].
    set (s1 := add_log s (EvCall FDestroy m (md_mixin (dd k)) None 0)) in *.
    assert (Hb : has_blk s1 (fst (md_mixin (dd k)))) by (apply (binst_has _ _ _ Hv)).
    pose proof (st_del_views s1 _ Hb) as (V1 & V2 & V3 & V4).
    pose proof (in_blk_rest s1 (fst (md_mixin (dd k))) (fun k0 => with_inst k0 (adel (snd (md_mixin (dd k))) (b_inst k0)))) as (R1 & R2 & R3).
    split. { eapply (part_del E mid); [exact G|exact P|exact Hm| |intros; reflexivity]. split; [|split; [|split]]; auto. }
    split. { destruct R1 as (R4 & R5 & R6); split; [|split]; auto. }
    split. { intros c Hne. unfold st_del. now rewrite in_blk_other. }
    split. { intros q Hq. rewrite V4. destruct (addr_eqb_spec q (md_mixin (dd k))); [congruence|reflexivity]. }
    split. { intros c. unfold st_del. rewrite in_blk_none. reflexivity. }
    unfold st_del. rewrite R3. reflexivity.
  - exists s. split; [now apply destroy_null|]. split; [eapply part_forget; eauto|]. split; [apply same_rest_refl|]. split; auto. split; auto. split; [tauto|]. now rewrite app_nil_r.
Qed.

Variables (s0 : st) (o : nat) (x : obj) (old : option (tref * type_rec)) (r : tref) (t : type_rec) (ob : option nat) (r0 : tref) (t0 : type_rec) (ddo : nat -> mdata).
Hypothesis SU : setup E s0 o x old r t ob r0 t0 ddo.
Notation mid := (w_mid (s_w s0)).
Notation N0 := (s_next s0).
Notation a := (o_alloc x).
Notation oidx := (oidx s0 ob t0).
Notation nw := (nw s0 t ob t0).
Notation n := (length (t_mixins t)).
Notation n0 := (length (t_mixins t0)).
Notation B0 := (s_blk s0).
Notation oaddr := (oaddr ddo).
Notation anew := (anew s0 t ob t0).
Variables (tb : nat) (dd : nat -> mdata).
Hypothesis Hfp : forall b, fp t tb dd anew b -> N0 <= b.
Hypothesis Hcom : forall i m oi, slot_at t i m 0%N -> oidx m = Some oi -> dd i = ddo oi.
Variables (oldv newv : nat -> Z).

(** the blocks of the object before the mutation *)
Definition fp0 (c : nat) : Prop := exists b, ob = Some b /\ fp t0 b ddo (fun i => i <? n0) c.
Lemma fp0_lt c : fp0 c -> c < N0.
Proof.
  intros (b & Hb & Hf). destruct (su_old _ _ _ _ _ _ _ _ _ _ _ SU b Hb) as (_ & _ & G0 & _ & P0). destruct (Nat.lt_ge_cases c N0) as [|Hge]; auto. exfalso.
  pose proof (su_next _ _ _ _ _ _ _ _ _ _ _ SU c Hge) as Hn. destruct Hf as [->|(i & m & A1 & A2 & A3)].
  - pose proof (pa_blk _ _ _ _ _ _ _ _ _ _ P0) as Hbb. unfold battr in Hbb. rewrite Hn in Hbb. discriminate.
  - destruct (pa_ext _ _ _ _ _ _ _ _ _ _ P0 i m A1 A2) as (_ & e & _ & Hd & Hat & _). rewrite Hd in A3. simpl in A3. injection A3 as ->.
    unfold battr in Hat. rewrite Hn in Hat. discriminate.
Qed.

(** the mixin at index [j] of the old type is in the target, and external *)
Definition ext0 (j : nat) : bool := match nth_error (t_offsets t0) j with Some off => (off =? 0)%N | None => false end.
Definition inT (j : nat) : option nat := match nth_error (t_mixins t0) j with Some m => index_of t (mid m) | None => None end.
Definition extc (j : nat) : bool := ext0 j && match inT j with Some _ => true | None => false end.
Definition conk (k j : nat) : bool := (j <? n0) && ((k <=? j) || extc j).
Definition ownk (k j : nat) : bool := (j <? n0) && ((k <=? j) || extc j || negb (ext0 j)).
Definition newk (k i : nat) : bool := (i <? n) && (nw i || match nth_error (t_offsets t) i, nth_error (t_mixins t) i with
  | Some off, Some m => negb (off =? 0)%N && match oidx m with Some oi => oi <? k | None => false end
  | _, _ => false end).

(** the events for an old mixin *)
Definition fev (j : nat) : list ev :=
  let m := mixin_at t0 j in
  match inT j with
  | Some ti => match md_buf (ddo j) with Some _ => [] | None => EvCall FMoveInit m (md_mixin (dd ti)) (Some (oaddr j)) 0 :: dst m (oaddr j) end
  | None => dst m (oaddr j) ++ match md_buf (ddo j) with Some e => [free_ev E a m e] | None => [] end
  end.

Section Loop.
Variable b : nat.
Hypothesis Hb : ob = Some b.
Variable s1 : st.
Hypothesis Hobj1 : s_obj s1 = s_obj s0.
Hypothesis Hmid1 : w_mid (s_w s1) = mid.

Record FI (k : nat) (s : st) : Prop := {
  fi_rest : same_rest s1 s;
  fi_old : part (s_blk s) o a t0 b ddo (fun i => i <? n0) (ownk k) (conk k);
  fi_new : part (s_blk s) o a t tb dd (fun i => i <? n) anew (newk k);
  fi_nv : forall i m, nth_error (t_mixins t) i = Some m -> nw i = true -> binst (s_blk s) (md_mixin (dd i)) = Some {| i_mixin := m; i_val := newv i |};
  fi_mv : forall i m off oi, slot_at t i m off -> off <> 0%N -> oidx m = Some oi -> oi < k -> binst (s_blk s) (md_mixin (dd i)) = Some {| i_mixin := m; i_val := oldv oi |};
  fi_ov : forall j m, nth_error (t_mixins t0) j = Some m -> k <= j \/ extc j = true -> binst (s_blk s) (oaddr j) = Some {| i_mixin := m; i_val := oldv j |};
  fi_oth : forall c, c < N0 -> ~ fp0 c -> agree (s_blk s1) (s_blk s) c;
  fi_dead : forall c, s_blk s c <> None -> s_blk s1 c <> None;
  fi_gone : forall j m e, j < k -> slot_at t0 j m 0%N -> extc j = false -> md_buf (ddo j) = Some e -> s_blk s e = None;
  fi_log : s_log s = s_log s1 ++ flat_map fev (seq 0 k)
}.

Lemma ext0_slot j m off : slot_at t0 j m off -> ext0 j = (off =? 0)%N.
Proof. intros [_ H]. unfold ext0. now rewrite H. Qed.
Lemma inT_slot j m off : slot_at t0 j m off -> inT j = index_of t (mid m).
Proof. intros [H _]. unfold inT. now rewrite H. Qed.

Lemma fevs_snoc k : flat_map fev (seq 0 (S k)) = flat_map fev (seq 0 k) ++ fev k.
Proof. rewrite seq_S, flat_map_app. simpl. now rewrite app_nil_r. Qed.

Lemma oidx_t0 j m : nth_error (t_mixins t0) j = Some m -> oidx m = Some j.
Proof.
  intros H. unfold AllocProofs.oidx. rewrite Hb. destruct (su_old _ _ _ _ _ _ _ _ _ _ _ SU b Hb) as (_ & _ & G0 & _). now apply (tg_idx _ _ _ G0).
Qed.

Lemma finalize_one_step k mu s : FI k s -> k < n0 -> mu_same o old r t ob mu -> mu_tdata mu = Some tb ->
  exists s', finalize_one E U b t0 k (mu, s) = ((mu, s'), Ok tt) /\ FI (S k) s'.
Proof.
  intros I Hk Hmu Htd. destruct (su_old _ _ _ _ _ _ _ _ _ _ _ SU b Hb) as (_ & _ & G0 & _ & P00). pose proof (su_good _ _ _ _ _ _ _ _ _ _ _ SU) as G.
  destruct (slot_ex E _ _ k G0 Hk) as (m & off & Hs). pose proof Hs as [Hm Ho]. pose proof (mixin_at_slot _ _ _ _ Hs) as Hma.
  pose proof Hmu as (M1 & M2 & M3 & M4 & M5 & M6).
  pose proof (fi_old _ _ I) as P0. pose proof (fi_new _ _ I) as P. destruct (fi_rest _ _ I) as (R1 & R2 & R3).
  assert (Hl : (k <? n0) = true) by now apply Nat.ltb_lt.
  assert (Hmid : w_mid (s_w s) = mid) by now rewrite R1.
  assert (Hdk : bdat (s_blk s) b k = Some (ddo k)) by (rewrite (pa_data _ _ _ _ _ _ _ _ _ _ P0), Hl; auto).
  assert (Hck : conk k k = true) by (unfold conk; rewrite Hl, Nat.leb_refl; auto).
  destruct (old_fp _ _ _ _ _ _ _ _ _ _ _ SU b k Hb Hk) as (Hlt & _).
  assert (Hf0 : fp0 (fst (oaddr k))).
  { exists b. split; auto. eapply part_mine_fp; [exact P00|]. split; eauto. }
  pose proof (ext0_slot _ _ _ Hs) as He0. pose proof (inT_slot _ _ _ Hs) as HiT.
  (* the old part after the destruction *)
  assert (Hcon : forall j, extc k = false -> conk (S k) j = if j =? k then false else conk k j).
  { intros j Hx. unfold conk. destruct (Nat.eqb_spec j k) as [->|Hne].
    - rewrite Hx. destruct (Nat.leb_spec (S k) k); [lia|]. now rewrite andb_false_r.
    - f_equal. f_equal. destruct (Nat.leb_spec (S k) j), (Nat.leb_spec k j); auto; lia. }
  assert (Hrun : finalize_one E U b t0 k (mu, s) =
    match index_of t (mid m) with
    | Some ti => match md_buf (ddo k) with
      | Some _ => ret tt (mu, s)
      | None => (let* tb := target_data mu in let* nd := lift (read_data tb ti) in
                 (if m_move_init (e_mixin E m) then lift (move_init E U m (md_mixin nd) (oaddr k)) else ub UbNull);; lift (destroy E m (oaddr k))) (mu, s)
      end
    | None => (lift (destroy E m (oaddr k));; match md_buf (ddo k) with None => ret tt | Some e => let* q := lift (get_obj o) in lift (free_external E q m e) end) (mu, s)
    end).
  { unfold finalize_one. rewrite (bnd_ok _ _ _ _ _ (get_mu_step mu s)). rewrite Hm.
    rewrite (bnd_ok (ret m) _ (mu, s) (mu, s) m eq_refl), (bnd_ok _ _ _ _ _ (lift_eq _ mu _ _ _ (read_data_step s b k _ Hdk))), (bnd_ok _ _ _ _ _ (get_mid_step mu s)), Hmid, M5, M1.
    destruct (index_of t (mid m)); [destruct (md_buf (ddo k))|]; reflexivity. }
  rewrite Hrun. clear Hrun.
  assert (Hbuf : (off =? 0)%N = match md_buf (ddo k) with Some _ => true | None => false end).
  { destruct (N.eqb_spec off 0) as [->|Hz].
    - destruct (pa_ext _ _ _ _ _ _ _ _ _ _ P00 k m Hs Hl) as (_ & e & _ & -> & _). reflexivity.
    - destruct (pa_int _ _ _ _ _ _ _ _ _ _ P00 k m off Hs Hl Hz) as (-> & _). reflexivity. }
  (* the common mixin has its place in the new part *)
  assert (Hti : forall ti, index_of t (mid m) = Some ti -> exists offt, slot_at t ti m offt /\ (off = 0%N <-> offt = 0%N)).
  { intros ti Hti. assert (Hmt : nth_error (t_mixins t) ti = Some m).
    { apply (su_idx0 _ _ _ _ _ _ _ _ _ _ _ SU b m ti Hb); auto. now apply nth_error_In in Hm. }
    pose proof Hmt as Hl'. apply nth_error_lt in Hl'. destruct (slot_ex E _ _ ti G Hl') as (m' & offt & Hst). assert (m' = m) as -> by (destruct Hst; congruence).
    exists offt. split; auto. rewrite (tg_ext _ _ _ G _ _ _ Hst), (tg_ext _ _ _ G0 _ _ _ Hs). tauto. }
  pose proof (oidx_t0 k m Hm) as Hok.
  destruct (index_of t (mid m)) as [ti|] eqn:Hin.
  - destruct (Hti ti eq_refl) as (offt & Hst & Hoff). pose proof (slot_lt _ _ _ _ Hst) as Hlti.
    assert (Hsame : forall i mi, nth_error (t_mixins t) i = Some mi -> oidx mi = Some k -> i = ti).
    { intros i mi H1 H2. exact (oidx_inj _ _ _ _ _ _ _ _ _ _ _ SU i ti mi m k H1 (proj1 Hst) H2 Hok). }
    destruct (md_buf (ddo k)) as [e|] eqn:Hmb.
    + (* external: the new array has its entry already *)
      apply N.eqb_eq in Hbuf. subst off. exists s. split; [reflexivity|].
      assert (Hx : extc k = true) by (unfold extc; rewrite He0, HiT; auto).
      constructor.
      * apply (fi_rest _ _ I).
      * eapply part_ext; [exact P0| | |]; auto; intros j; unfold ownk, conk; f_equal; destruct (Nat.eq_dec j k) as [->|].
        -- rewrite Hx, !orb_true_r. reflexivity.
        -- f_equal. f_equal. destruct (Nat.leb_spec (S k) j), (Nat.leb_spec k j); auto; lia.
        -- rewrite Hx, !orb_true_r. reflexivity.
        -- f_equal. destruct (Nat.leb_spec (S k) j), (Nat.leb_spec k j); auto; lia.
      * eapply part_ext; [exact P| | |]; auto. intros i. unfold newk. f_equal. f_equal. destruct (nth_error (t_offsets t) i) as [offi|] eqn:Hoi; auto. destruct (nth_error (t_mixins t) i) as [mi|] eqn:Hmi; auto.
        destruct (N.eqb_spec offi 0) as [|Hz]; auto. cbn [negb andb]. destruct (oidx mi) as [oi|] eqn:Hoix; auto. destruct (Nat.eq_dec oi k) as [->|].
        -- exfalso. assert (i = ti) by eauto. subst i. destruct (slot_fun _ _ _ _ _ _ Hst (conj Hmi Hoi)) as (_ & ->). tauto.
        -- destruct (Nat.ltb_spec oi (S k)), (Nat.ltb_spec oi k); auto; lia.
      * apply (fi_nv _ _ I).
      * intros i mi offi oi Hsi Hz Hoi Hlo. apply (fi_mv _ _ I i mi offi oi); auto. destruct (Nat.eq_dec oi k) as [->|]; [|lia]. exfalso.
        assert (i = ti) by (eapply Hsame; eauto; apply Hsi). subst i. destruct (slot_fun _ _ _ _ _ _ Hst Hsi) as (_ & ->). tauto.
      * intros j mj Hmj Hj. apply (fi_ov _ _ I); auto. destruct Hj; [left; lia|now right].
      * apply (fi_oth _ _ I).
      * apply (fi_dead _ _ I).
      * intros j mj e' Hj Hsj Hxj. apply (fi_gone _ _ I j mj); auto. destruct (Nat.eq_dec j k) as [->|]; [congruence|lia].
      * rewrite (fi_log _ _ I), fevs_snoc. unfold fev at 3. rewrite HiT, Hmb, app_nil_r. reflexivity.
    + (* internal: it moves *)
      apply N.eqb_neq in Hbuf. assert (Hz : offt <> 0%N) by tauto.
      assert (Hx : extc k = false) by (unfold extc; rewrite He0; destruct (N.eqb_spec off 0); [congruence|reflexivity]).
      assert (Hmi : m_move_init (e_mixin E m) = true).
      { destruct (m_move_init (e_mixin E m)) eqn:Hmi; auto. exfalso. apply Hbuf. apply (tg_ext _ _ _ G0 _ _ _ Hs). unfold external. now rewrite Hmi. }
      assert (Hdt : bdat (s_blk s) tb ti = Some (dd ti)) by (rewrite (pa_data _ _ _ _ _ _ _ _ _ _ P); destruct (Nat.ltb_spec ti n); [auto|lia]).
      assert (Hmine : mine t (fun i => i <? n) anew ti m offt).
      { split; auto. split; [now apply Nat.ltb_lt|congruence]. }
      assert (Hge : N0 <= fst (md_mixin (dd ti))) by (apply Hfp; eapply part_mine_fp; eauto).
      assert (Hnb : has_blk s (fst (md_mixin (dd ti)))) by (eapply part_mine_blk; eauto).
      assert (Hntk : newk k ti = false).
      { unfold newk. rewrite (nw_slot _ _ _ _ _ _ _ Hst), (proj1 Hst), (proj2 Hst), Hok, Nat.ltb_irrefl. destruct (ti <? n); auto. cbn [orb andb]. now rewrite andb_false_r. }
      assert (Hvac : vacant_at E s (md_mixin (dd ti))) by (eapply (part_vacant E _ _ _ _ _ G); eauto).
      pose proof (fi_ov _ _ I k m Hm (or_introl (le_n k))) as Hcur.
      pose proof (move_init_step E U s m (md_mixin (dd ti)) (oaddr k) _ Hnb Hvac Hcur eq_refl) as Hmv. cbn [i_val] in Hmv.
      set (sA := st_inst (st_call s FMoveInit m (md_mixin (dd ti)) (Some (oaddr k)) 0) (md_mixin (dd ti)) {| i_mixin := m; i_val := oldv k |}) in *.
      set (sB := st_inst sA (oaddr k) {| i_mixin := m; i_val := an_val (cur_ans U s) |}) in *.
      pose proof (st_inst_at s FMoveInit m (md_mixin (dd ti)) (Some (oaddr k)) 0 (md_mixin (dd ti)) {| i_mixin := m; i_val := oldv k |} Hnb) as HiA. fold sA in HiA.
      assert (HbA : has_blk sA (fst (oaddr k))).
      { apply has_blk_inst. exact (binst_has _ _ _ Hcur). }
      pose proof (st_inst_views sA (oaddr k) {| i_mixin := m; i_val := an_val (cur_ans U s) |} HbA) as HiB. fold sB in HiB. cbv zeta in HiB.
      assert (HrA : same_rest s sA /\ s_log sA = s_log s ++ [EvCall FMoveInit m (md_mixin (dd ti)) (Some (oaddr k)) 0]).
      { unfold sA, st_inst. match goal with |- context [in_blk ?q ?c ?f] => pose proof (in_blk_rest q c f) as (Q1 & Q2 & Q3) end. rewrite Q3. split; [exact Q1|reflexivity]. }
      assert (HrB : same_rest sA sB /\ s_log sB = s_log sA).
      { unfold sB, st_inst. match goal with |- context [in_blk ?q ?c ?f] => pose proof (in_blk_rest q c f) as (Q1 & Q2 & Q3) end. auto. }
      (* both parts in sB *)
      assert (Hne : fst (md_mixin (dd ti)) <> fst (oaddr k)) by lia.
      assert (HsubO : forall c, fp t0 b ddo (ownk k) c -> fp0 c).
      { intros c [->|(j & mj & A1 & A2 & A3)]; exists b; split; auto; [now left|]. right. exists j, mj. unfold ownk in A2. apply andb_true_iff in A2. tauto. }
      assert (POB : part (s_blk sB) o a t0 b ddo (fun i => i <? n0) (ownk k) (conk k)).
      { assert (POA : part (s_blk sA) o a t0 b ddo (fun i => i <? n0) (ownk k) (conk k)).
        { eapply part_frame; [exact P0|]. intros c Hc. eapply inst_frame; [exact HiA|]. apply HsubO, fp0_lt in Hc. lia. }
        eapply (part_set E _ _ _ _ _ G0) with (i := k); [exact POA| |exact HiB|reflexivity|].
        - split; [exact Hs|]. split; [exact Hl|]. intros _. unfold ownk. now rewrite Hl, Nat.leb_refl.
        - intros j. destruct (Nat.eqb_spec j k) as [->|]; auto. }
      assert (PNB : part (s_blk sB) o a t tb dd (fun i => i <? n) anew (newk (S k))).
      { eapply part_frame with (B := s_blk sA).
        - eapply (part_set E _ _ _ _ _ G) with (i := ti); [exact P|exact Hmine|exact HiA|reflexivity|].
          intros j. unfold newk. destruct (Nat.eqb_spec j ti) as [->|Hnj].
          + rewrite (proj1 Hst), (proj2 Hst), Hok. destruct (Nat.ltb_spec ti n); [|lia]. destruct (N.eqb_spec offt 0); [congruence|]. cbn [negb andb].
            destruct (Nat.ltb_spec k (S k)); [now rewrite orb_true_r|lia].
          + f_equal. f_equal. destruct (nth_error (t_offsets t) j) as [offj|]; auto. destruct (nth_error (t_mixins t) j) as [mj|] eqn:Hmj; auto. f_equal.
            destruct (oidx mj) as [oj|] eqn:Hoj; auto. destruct (Nat.eq_dec oj k) as [->|].
            * exfalso. apply Hnj. eapply Hsame; eauto.
            * destruct (Nat.ltb_spec oj (S k)), (Nat.ltb_spec oj k); auto; lia.
        - intros c Hc. eapply inst_frame; [exact HiB|]. apply Hfp in Hc. lia. }
      destruct (part_destroy mid o a t0 b ddo _ _ _ sB k m off G0 POB Hs Hck) as (sC & HC & PC & RC & BC & IC & NC & LC).
      exists sC. split.
      { rewrite (bnd_ok _ _ _ _ _ (target_data_step mu s tb Htd)), (bnd_ok _ _ _ _ _ (lift_eq _ mu _ _ _ (read_data_step s tb ti _ Hdt))), Hmi.
        rewrite (bnd_ok _ _ _ _ _ (lift_eq _ mu _ _ _ Hmv)). apply lift_eq. exact HC. }
      assert (HallN : forall c, s_blk sC c = None <-> s_blk s c = None).
      { intros c. rewrite NC. unfold sB, sA, st_inst. rewrite !in_blk_none. reflexivity. }
      assert (Hbi : forall q, q <> md_mixin (dd ti) -> q <> oaddr k -> binst (s_blk sC) q = binst (s_blk s) q).
      { intros q H1 H2. rewrite IC by auto. destruct HiB as (_ & _ & _ & ->). destruct (addr_eqb_spec q (oaddr k)); [congruence|].
        destruct HiA as (_ & _ & _ & ->). destruct (addr_eqb_spec q (md_mixin (dd ti))); [congruence|reflexivity]. }
      assert (Hnew : forall i mi offi, slot_at t i mi offi -> (offi = 0%N -> nw i = true) -> i <> ti -> md_mixin (dd i) <> md_mixin (dd ti) /\ md_mixin (dd i) <> oaddr k).
      { intros i mi offi Hsi Hoi Hni. assert (Hmn : mine t (fun i => i <? n) anew i mi offi).
        { pose proof (slot_lt _ _ _ _ Hsi) as Hli. apply Nat.ltb_lt in Hli. split; auto. split; auto. intros H0. unfold UpdProofs.anew. now rewrite Hli, Hoi. }
        split.
        - intros Heq. apply Hni. eapply (part_addr_inj E _ _ _ _ _ G); eauto.
        - intros Heq. assert (N0 <= fst (md_mixin (dd i))) by (apply Hfp; eapply part_mine_fp; eauto). rewrite Heq in *. lia. }
      constructor.
      * eapply same_rest_trans; [apply (fi_rest _ _ I)|]. eapply same_rest_trans; [apply HrA|]. eapply same_rest_trans; [apply HrB|exact RC].
      * eapply part_ext; [exact PC|auto| |intros j; now apply Hcon].
        intros j. unfold ownk. f_equal. destruct (Nat.eq_dec j k) as [->|].
        -- rewrite He0. destruct (N.eqb_spec off 0); [congruence|]. cbn [negb]. rewrite !orb_true_r. reflexivity.
        -- f_equal. f_equal. destruct (Nat.leb_spec (S k) j), (Nat.leb_spec k j); auto; lia.
      * eapply part_frame; [exact PNB|]. intros c Hc. apply agree_eq, BC. apply Hfp in Hc. unfold oaddr in *. lia.
      * intros i mi Hmi' Hni. assert (i <> ti). { intros ->. rewrite (nw_slot _ _ _ _ _ _ _ Hst), Hok in Hni. discriminate. }
        pose proof Hmi' as Hli. apply nth_error_lt in Hli. destruct (slot_ex E _ _ i G Hli) as (mi' & offi & Hsi).
        destruct (Hnew i mi' offi Hsi) as (H1 & H2); auto. rewrite Hbi by auto. now apply (fi_nv _ _ I).
      * intros i mi offi oi Hsi Hzi Hoi Hlo. destruct (Nat.eq_dec i ti) as [->|Hni].
        -- destruct (slot_fun _ _ _ _ _ _ Hst Hsi) as (-> & _). assert (oi = k) as -> by congruence.
           assert (Hneq : md_mixin (dd ti) <> oaddr k) by (intros Heq; apply Hne; now rewrite Heq).
           rewrite IC by exact Hneq. destruct HiB as (_ & _ & _ & ->). destruct (addr_eqb_spec (md_mixin (dd ti)) (oaddr k)); [congruence|].
           destruct HiA as (_ & _ & _ & ->). now rewrite addr_eqb_refl.
        -- destruct (Hnew i mi offi Hsi ltac:(congruence) Hni) as (H1 & H2). rewrite Hbi by auto. apply (fi_mv _ _ I i mi offi oi); auto.
           destruct (Nat.eq_dec oi k) as [->|]; [|lia]. exfalso. apply Hni. eapply Hsame; eauto. apply Hsi.
      * intros j mj Hmj Hj. assert (Hjk : j <> k) by (intros ->; destruct Hj; [lia|congruence]).
        pose proof Hmj as Hlj. apply nth_error_lt in Hlj. rewrite Hbi.
        -- apply (fi_ov _ _ I); auto. destruct Hj; [left; lia|now right].
        -- intros Heq. destruct (old_fp _ _ _ _ _ _ _ _ _ _ _ SU b j Hb Hlj) as (Hlt' & _). rewrite Heq in Hlt'. lia.
        -- intros Heq. apply Hjk. exact (oaddr_inj _ _ _ _ _ _ _ _ _ _ _ SU b j k Hb Hlj Hk Heq).
      * intros c Hc Hnf. eapply agree_trans; [apply (fi_oth _ _ I); auto|]. eapply agree_trans; [eapply inst_frame; [exact HiA|lia]|].
        assert (c <> fst (oaddr k)) by (intros ->; auto). eapply agree_trans; [eapply inst_frame; [exact HiB|auto]|]. apply agree_eq, BC. auto.
      * intros c Hc. apply (fi_dead _ _ I). now rewrite <- HallN.
      * intros j mj e Hj Hsj Hxj Hej. apply HallN. destruct (Nat.eq_dec j k) as [->|].
        -- destruct (slot_fun _ _ _ _ _ _ Hs Hsj) as (_ & <-). congruence.
        -- apply (fi_gone _ _ I j mj); auto. lia.
      * rewrite LC. destruct HrB as (_ & ->). destruct HrA as (_ & ->). rewrite (fi_log _ _ I), fevs_snoc. unfold fev at 3. rewrite HiT, Hmb, Hma, <- !app_assoc. reflexivity.
  - (* not in the target: destroyed and released *)
    assert (Hx : extc k = false) by (unfold extc; rewrite HiT; now rewrite andb_false_r).
    destruct (part_destroy mid o a t0 b ddo _ _ _ s k m off G0 P0 Hs Hck) as (sC & HC & PC & RC & BC & IC & NC & LC). fold (oaddr k) in HC, BC, IC, LC.
    assert (PC' : part (s_blk sC) o a t0 b ddo (fun i => i <? n0) (ownk k) (conk (S k))) by (eapply part_ext; [exact PC|auto|auto|intros j; now apply Hcon]).
    assert (Hx0 : s_obj sC o = Some x).
    { destruct RC as (_ & -> & _). rewrite R2, Hobj1. apply (su_obj _ _ _ _ _ _ _ _ _ _ _ SU). }
    assert (Hnk : forall i, newk (S k) i = newk k i).
    { intros i. unfold newk. f_equal. f_equal. destruct (nth_error (t_offsets t) i) as [offi|]; auto. destruct (nth_error (t_mixins t) i) as [mi|] eqn:Hmi; auto. f_equal.
      destruct (oidx mi) as [oi|] eqn:Hoi; auto. destruct (Nat.eq_dec oi k) as [->|].
      - exfalso. pose proof (oidx_in _ _ _ _ _ _ _ _ _ _ _ SU _ _ _ Hmi Hoi) as Hmk. assert (mi = m) as -> by congruence. rewrite (tg_idx _ _ _ G _ _ Hmi) in Hin. discriminate.
      - destruct (Nat.ltb_spec oi (S k)), (Nat.ltb_spec oi k); auto; lia. }
    assert (Hnot : forall i mi oi, nth_error (t_mixins t) i = Some mi -> oidx mi = Some oi -> oi < S k -> oi < k).
    { intros i mi oi Hmi Hoi Hlo. destruct (Nat.eq_dec oi k) as [->|]; [|lia]. exfalso.
      pose proof (oidx_in _ _ _ _ _ _ _ _ _ _ _ SU _ _ _ Hmi Hoi) as Hmk. assert (mi = m) as -> by congruence. rewrite (tg_idx _ _ _ G _ _ Hmi) in Hin. discriminate. }
    (* a state whose old memory is like that after the destruction, possibly without the block of the mixin *)
    assert (Hend : forall sD, same_rest sC sD -> (forall c, md_buf (ddo k) <> Some c -> s_blk sD c = s_blk sC c) -> (forall c, md_buf (ddo k) = Some c -> s_blk sD c = None) ->
      s_log sD = s_log sC ++ match md_buf (ddo k) with Some e => [free_ev E a m e] | None => [] end ->
      part (s_blk sD) o a t0 b ddo (fun i => i <? n0) (ownk (S k)) (conk (S k)) -> FI (S k) sD).
    { intros sD RD BD BE LD PD.
      assert (Hmbf : forall c, md_buf (ddo k) = Some c -> fp0 c).
      { intros c Hc. exists b. split; auto. right. rewrite Hc in Hbuf. apply N.eqb_eq in Hbuf. subst off. exists k, m. auto. }
      assert (Hge : forall c, N0 <= c -> s_blk sD c = s_blk s c).
      { intros c Hc. rewrite BD, BC; auto; [lia|]. intros Hc'. apply Hmbf, fp0_lt in Hc'. lia. }
      assert (Hage : forall p, N0 <= fst p -> binst (s_blk sD) p = binst (s_blk s) p) by (intros p Hp; unfold binst; now rewrite Hge).
      constructor.
      * eapply same_rest_trans; [apply (fi_rest _ _ I)|]. eapply same_rest_trans; eauto.
      * exact PD.
      * eapply part_ext; [eapply part_frame; [exact P|]| | |]; auto. intros c Hc. apply agree_eq, Hge. auto.
      * intros i mi Hmi Hni. rewrite Hage; [now apply (fi_nv _ _ I)|]. pose proof Hmi as Hli. apply nth_error_lt in Hli. destruct (slot_ex E _ _ i G Hli) as (mi' & offi & Hsi).
        apply Hfp. eapply part_mine_fp; [exact P|]. apply mine_new; eauto.
      * intros i mi offi oi Hsi Hzi Hoi Hlo. rewrite Hage; [eapply (fi_mv _ _ I); eauto; eapply Hnot; eauto; apply Hsi|].
        apply Hfp. eapply part_mine_fp; [exact P|]. pose proof (slot_lt _ _ _ _ Hsi) as Hli. apply Nat.ltb_lt in Hli. split; [exact Hsi|]. split; [exact Hli|congruence].
      * intros j mj Hmj Hj. assert (Hjk : j <> k) by (intros ->; destruct Hj; [lia|congruence]).
        pose proof Hmj as Hlj. apply nth_error_lt in Hlj.
        assert (Hnb : md_buf (ddo k) <> Some (fst (oaddr j))).
        { intros Hc. rewrite Hc in Hbuf. apply N.eqb_eq in Hbuf. subst off. destruct (pa_ext _ _ _ _ _ _ _ _ _ _ P00 k m Hs Hl) as (_ & e & Hne & Hd & _). rewrite Hd in Hc. injection Hc as ->.
          destruct (slot_ex E _ _ j G0 Hlj) as (mj' & offj & Hsj). pose proof Hlj as Hlj'. apply Nat.ltb_lt in Hlj'. destruct (N.eq_dec offj 0) as [->|Hzj].
          - destruct (pa_ext _ _ _ _ _ _ _ _ _ _ P00 j mj' Hsj Hlj') as (_ & e & _ & Hd' & _). apply Hjk. apply (pa_inj _ _ _ _ _ _ _ _ _ _ P00 j k mj' m); auto. unfold oaddr in Hd. rewrite Hd, Hd'. reflexivity.
          - destruct (pa_int _ _ _ _ _ _ _ _ _ _ P00 j mj' offj Hsj Hlj' Hzj) as (Hd' & _). unfold oaddr in Hne. rewrite Hd' in Hne. now apply Hne. }
        unfold binst at 1. rewrite BD by auto. change (binst (s_blk sC) (oaddr j) = Some {| i_mixin := mj; i_val := oldv j |}). rewrite IC.
        -- apply (fi_ov _ _ I); auto. destruct Hj; [left; lia|now right].
        -- intros Heq. apply Hjk. exact (oaddr_inj _ _ _ _ _ _ _ _ _ _ _ SU b j k Hb Hlj Hk Heq).
      * intros c Hc Hnf. eapply agree_trans; [apply (fi_oth _ _ I); auto|]. apply agree_eq. rewrite BD; [apply BC; intros ->; auto|]. intros Hc'. apply Hnf. auto.
      * intros c Hc. apply (fi_dead _ _ I). intros Hn. apply Hc. destruct (md_buf (ddo k)) as [e|] eqn:Hmb.
        -- destruct (Nat.eq_dec c e) as [->|]; [auto|]. rewrite BD by congruence. now apply NC.
        -- rewrite BD by congruence. now apply NC.
      * intros j mj e Hj Hsj Hxj Hej. destruct (Nat.eq_dec j k) as [->|]; [auto|].
        assert (Hg : s_blk s e = None) by (apply (fi_gone _ _ I j mj); auto; lia). apply NC in Hg.
        destruct (md_buf (ddo k)) as [e'|] eqn:Hmb.
        -- destruct (Nat.eq_dec e e') as [->|]; [auto|]. rewrite BD by congruence. auto.
        -- rewrite BD by congruence. auto.
      * rewrite LD, LC, (fi_log _ _ I), fevs_snoc. unfold fev at 3. rewrite HiT, Hma, <- !app_assoc. reflexivity. }
    rewrite (bnd_ok _ _ _ _ _ (lift_eq _ mu _ _ _ HC)).
    destruct (md_buf (ddo k)) as [e|] eqn:Hmb.
    + apply N.eqb_eq in Hbuf. subst off.
      destruct (pa_ext _ _ _ _ _ _ _ _ _ _ PC' k m Hs) as (_ & e' & Hne & Hd & Hat & Hbk).
      { unfold ownk. now rewrite Hl, Nat.leb_refl. }
      assert (e' = e) as -> by (rewrite Hd in Hmb; simpl in Hmb; congruence).
      assert (Hfr : free E (ext_al E a m) e (m_buf_size (e_mixin E m)) (m_buf_off (e_mixin E m)) sC = (st_free sC (ext_al E a m) e (m_buf_size (e_mixin E m)) (m_buf_off (e_mixin E m)), Ok tt)).
      { apply free_step; auto. intros q y Hy. destruct (needs_destroy E y) eqn:Hnd; auto. exfalso.
        destruct (pa_live _ _ _ _ _ _ _ _ _ _ PC' (e, q) y) as (j & Hj & Hp); auto.
        - right. exists k, m. split; auto. split; auto. unfold ownk. now rewrite Hl, Nat.leb_refl.
        - assert (Hjk : j <> k) by (intros ->; rewrite Hcon, Nat.eqb_refl in Hj; [discriminate|auto]).
          destruct (part_con_mine _ _ _ _ _ _ _ _ _ _ _ PC' Hj) as (mj & offj & v & (Hsj & Hdj & Hoj) & _).
          destruct (N.eq_dec offj 0) as [->|Hzj].
          + destruct (pa_ext _ _ _ _ _ _ _ _ _ _ P00 j mj Hsj Hdj) as (_ & e' & _ & Hd' & _). apply Hjk. apply (pa_inj _ _ _ _ _ _ _ _ _ _ P00 j k mj m); auto. rewrite Hd', Hd in *. simpl in *. congruence.
          + destruct (pa_int _ _ _ _ _ _ _ _ _ _ P00 j mj offj Hsj Hdj Hzj) as (Hd' & _). rewrite Hd' in Hp. simpl in Hp. injection Hp as -> _. now apply Hne. }
      eexists. split.
      { rewrite (bnd_ok _ _ _ _ _ (lift_eq _ mu _ _ _ (get_obj_step sC o x Hx0))). unfold free_external. rewrite ext_al_eq. apply lift_eq. exact Hfr. }
      apply Hend.
      * repeat split.
      * intros c Hc. simpl. apply upd_other. congruence.
      * intros c [= <-]. simpl. apply upd_same.
      * reflexivity.
      * eapply part_disown with (i := k) (e := e); [exact PC'|exact Hs| | |auto| |].
        -- unfold ownk. now rewrite Hl, Nat.leb_refl.
        -- rewrite Hcon, Nat.eqb_refl; auto.
        -- intros c Hc. apply agree_eq. simpl. now apply upd_other.
        -- intros j. unfold ownk. destruct (Nat.eqb_spec j k) as [->|Hnj].
           ++ rewrite Hx, He0. destruct (Nat.leb_spec (S k) k); [lia|]. cbn. now rewrite andb_false_r.
           ++ f_equal. f_equal. f_equal. destruct (Nat.leb_spec (S k) j), (Nat.leb_spec k j); auto; lia.
    + exists sC. split; [reflexivity|]. apply Hend.
      * apply same_rest_refl.
      * auto.
      * discriminate.
      * now rewrite app_nil_r.
      * eapply part_ext; [exact PC'| | |]; auto. intros j. unfold ownk. f_equal. destruct (Nat.eq_dec j k) as [->|].
        -- rewrite He0, Hbuf. cbn [negb]. rewrite !orb_true_r. reflexivity.
        -- f_equal. f_equal. destruct (Nat.leb_spec (S k) j), (Nat.leb_spec k j); auto; lia.
Qed.

Lemma finalize_loop_step mu : mu_same o old r t ob mu -> mu_tdata mu = Some tb -> forall q k s, FI k s -> k + q = n0 ->
  exists s', finalize_loop E U b t0 (seq k q) (mu, s) = ((mu, s'), Ok tt) /\ FI n0 s'.
Proof.
  intros Hmu Htd. induction q as [|q IH]; intros k s I Hk.
  - exists s. split; auto. replace n0 with k by lia. auto.
  - destruct (finalize_one_step k mu s I) as (s' & H1 & I1); auto; [lia|]. cbn [seq finalize_loop].
    destruct (IH (S k) s' I1) as (s2 & H2 & I2); [lia|]. exists s2. split; auto. rewrite (bnd_ok _ _ _ _ _ H1). exact H2.
Qed.
End Loop.


(** ** The whole of finalize *)
Lemma own_dec p : own_addr ob t0 ddo p \/ ~ own_addr ob t0 ddo p.
Proof.
  destruct ob as [b|] eqn:Hb; [|right; intros (c & _ & H & _); discriminate].
  assert (H : forall k, (exists i, i < k /\ p = oaddr i) \/ ~ (exists i, i < k /\ p = oaddr i)).
  { induction k as [|k [(i & Hi & Hp)|IH]]; [right; intros (i & Hi & _); lia|left; exists i; split; [lia|auto]|].
    destruct (addr_eqb_spec p (oaddr k)) as [Hp|Hp]; [left; exists k; split; [lia|auto]|]. right. intros (i & Hi & He).
    destruct (Nat.eq_dec i k) as [->|]; [auto|]. apply IH. exists i. split; [lia|auto]. }
  destruct (H n0) as [(i & Hi & Hp)|Hn]; [left; exists b, i; auto|right]. intros (c & i & _ & Hi & Hp). apply Hn. eauto.
Qed.

Lemma own_fp0 p : own_addr ob t0 ddo p -> fp0 (fst p).
Proof.
  intros (b & i & Hb & Hi & ->). exists b. split; auto. destruct (su_old _ _ _ _ _ _ _ _ _ _ _ SU b Hb) as (_ & _ & G0 & _ & P0).
  destruct (slot_ex E _ _ i G0 Hi) as (m & off & Hs). pose proof Hi as Hl. apply Nat.ltb_lt in Hl. eapply part_mine_fp; [exact P0|]. split; [exact Hs|]. split; auto.
Qed.

Lemma oldmem_agree B c : oldmem s0 ob t0 ddo oldv B -> c < N0 -> ~ fp0 c -> agree B0 B c.
Proof.
  intros O Hc Hn. split; [now apply (om_attr _ _ _ _ _ _ O)|]. split; [intros; now apply (om_dat _ _ _ _ _ _ O)|].
  split; intros q; [|now apply (om_back _ _ _ _ _ _ O)]. apply (om_other _ _ _ _ _ _ O); auto. intros Ho. apply Hn. apply (own_fp0 (c, q) Ho).
Qed.

Lemma oldmem_part B b : ob = Some b -> oldmem s0 ob t0 ddo oldv B -> part B o a t0 b ddo (fun i => i <? n0) (fun i => i <? n0) (fun i => i <? n0).
Proof.
  intros Hb O. destruct (su_old _ _ _ _ _ _ _ _ _ _ _ SU b Hb) as (_ & _ & G0 & _ & P0).
  assert (Hlt : forall c, fp t0 b ddo (fun i => i <? n0) c -> c < N0) by (intros c Hc; apply fp0_lt; exists b; auto).
  constructor.
  - rewrite (om_attr _ _ _ _ _ _ O) by (apply Hlt; now left). apply P0.
  - apply P0.
  - intros i. rewrite (om_dat _ _ _ _ _ _ O) by (apply Hlt; now left). apply (pa_data _ _ _ _ _ _ _ _ _ _ P0).
  - intros i m off H1 H2 H3. destruct (pa_int _ _ _ _ _ _ _ _ _ _ P0 i m off H1 H2 H3) as (A1 & A2). split; auto.
    rewrite (om_back _ _ _ _ _ _ O) by (apply Hlt; now left). auto.
  - intros i m H1 H2. destruct (pa_ext _ _ _ _ _ _ _ _ _ _ P0 i m H1 H2) as (A1 & e & A2 & A3 & A4 & A5). split; auto. exists e. split; auto. split; auto.
    assert (e < N0) by (apply Hlt; right; exists i, m; rewrite A3; auto). rewrite (om_attr _ _ _ _ _ _ O) by auto. split; auto. rewrite A3 in *. cbn [md_mixin] in *. rewrite (om_back _ _ _ _ _ _ O) by auto. auto.
  - apply (pa_inj _ _ _ _ _ _ _ _ _ _ P0).
  - intros i Hi. destruct (pa_con _ _ _ _ _ _ _ _ _ _ P0 i Hi) as (m & off & v & A1 & A2 & A3 & A4). exists m, off, (oldv i). split; auto. split; auto. split; auto.
    apply (om_own _ _ _ _ _ _ O b); auto. apply A1.
  - intros p y H1 H2 H3. destruct (own_dec p) as [(c & i & Hc & Hi & ->)|Hn].
    + exists i. split; auto. now apply Nat.ltb_lt.
    + rewrite (om_other _ _ _ _ _ _ O) in H2; auto. apply (pa_live _ _ _ _ _ _ _ _ _ _ P0 p y); auto.
Qed.

(** the world after a successful mutation *)
Definition w2 : world := match ob with Some _ => with_type (w1 s0 r t) r0 (set_nobj t0 (pred (t_nobj t0))) | None => w1 s0 r t end.
(** the events of finalize *)
Definition fins : list ev := match ob with Some b => flat_map fev (seq 0 n0) ++ [EvFree (AObj a) b (t_buf_size t0) (t_buf_align t0)] | None => [] end.
Definition full (k : type_rec) (i : nat) : bool := i <? length (t_mixins k).

Record done_mem (s1 s : st) : Prop := {
  dm_obj : s_obj s = upd (s_obj s0) o (Some {| o_type := Some r; o_data := Some tb; o_alloc := a; o_sealed := o_sealed x |});
  dm_w : s_w s = w2;
  dm_next : s_next s = s_next s1;
  dm_part : part (s_blk s) o a t tb dd (full t) (full t) (full t);
  dm_new : forall i m, nth_error (t_mixins t) i = Some m -> nw i = true -> binst (s_blk s) (md_mixin (dd i)) = Some {| i_mixin := m; i_val := newv i |};
  dm_com : forall i m oi, nth_error (t_mixins t) i = Some m -> oidx m = Some oi -> binst (s_blk s) (md_mixin (dd i)) = Some {| i_mixin := m; i_val := oldv oi |};
  dm_oth : forall c, c < N0 -> ~ fp0 c -> agree B0 (s_blk s) c;
  dm_own : forall c, s_blk s c <> None -> c < N0 /\ ~ fp0 c \/ fp t tb dd (full t) c;
  dm_fp : forall c, fp t tb dd (full t) c -> N0 <= c \/ fp0 c;
  dm_dead : forall c, s_blk s c <> None -> s_blk s1 c <> None;
  dm_log : s_log s = s_log s1 ++ fins
}.

Lemma fp_full c : fp t tb dd (full t) c -> fp t tb dd anew c \/ exists i m oi b, slot_at t i m 0%N /\ oidx m = Some oi /\ ob = Some b /\ slot_at t0 oi m 0%N /\ md_buf (ddo oi) = Some c.
Proof.
  intros [->|(i & m & Hs & Hf & Hb)]; [left; now left|]. destruct (oidx m) as [oi|] eqn:Hoi.
  - right. assert (exists b, ob = Some b) as (b & Hob) by (unfold AllocProofs.oidx in Hoi; destruct ob; [eauto|discriminate]). exists i, m, oi, b. split; auto. split; auto. split; auto.
    pose proof (oidx_in _ _ _ _ _ _ _ _ _ _ _ SU _ _ _ (proj1 Hs) Hoi) as Hm. destruct (su_old _ _ _ _ _ _ _ _ _ _ _ SU b Hob) as (_ & _ & G0 & _ & P0).
    pose proof Hm as Hl. apply nth_error_lt in Hl. destruct (slot_ex E _ _ oi G0 Hl) as (m' & off & Hs0). assert (m' = m) as -> by (destruct Hs0; congruence).
    assert (off = 0%N) as ->. { apply (tg_ext _ _ _ G0 _ _ _ Hs0). apply (tg_ext _ _ _ (su_good _ _ _ _ _ _ _ _ _ _ _ SU) _ _ _ Hs). auto. }
    split; auto. rewrite <- (Hcom i m oi); auto.
  - left. right. exists i, m. split; auto. split; auto. unfold UpdProofs.anew. rewrite (nw_slot _ _ _ _ _ _ _ Hs), Hoi. unfold full in Hf. now rewrite Hf.
Qed.

Lemma fp_anew c : fp t tb dd anew c -> fp t tb dd (full t) c.
Proof. intros [->|(i & m & A1 & A2 & A3)]; [now left|]. right. exists i, m. split; auto. split; auto. unfold UpdProofs.anew in A2. apply andb_true_iff in A2. apply A2. Qed.

Variables (nx : nat) (ws : world) (lg : list ev) (np : nat -> option (fn * option addr)) (cp : nat -> cact).
Hypothesis Hws : ws = w1 s0 r t.
Hypothesis Hrr : forall b, ob = Some b -> r <> r0.
Notation PB := (PB E s0 o x old r t ob t0 ddo false tb dd nx ws lg np cp).

Lemma full_lt k i : full k i = true <-> i < length (t_mixins k).
Proof. apply Nat.ltb_lt. Qed.

(** the array of the target and what is left of the old one make the whole *)
Lemma merge_old b B : ob = Some b ->
  part B o a t tb dd (fun i => i <? n) anew (newk n0) ->
  part B o a t0 b ddo (fun i => i <? n0) (ownk n0) (conk n0) ->
  forall B', (forall c, c <> b -> B' c = B c) -> part B' o a t tb dd (full t) (full t) (full t).
Proof.
  intros Hb P P0 B' HB. destruct (su_old _ _ _ _ _ _ _ _ _ _ _ SU b Hb) as (_ & _ & G0 & _ & P00). pose proof (su_good _ _ _ _ _ _ _ _ _ _ _ SU) as G.
  assert (Htb : N0 <= tb) by (apply Hfp; now left). pose proof (old_blk_lt _ _ _ _ _ _ _ _ _ _ _ SU b Hb) as Hlt.
  assert (Hag : forall c, c <> b -> agree B B' c) by (intros; now apply agree_eq, HB).
  assert (P' : part B' o a t tb dd (fun i => i <? n) anew (newk n0)).
  { eapply part_frame; [exact P|]. intros c Hc. apply Hag. apply Hfp in Hc. lia. }
  (* what is known of an external common mixin *)
  assert (HC : forall i m oi, slot_at t i m 0%N -> oidx m = Some oi -> slot_at t0 oi m 0%N /\ oi < n0 /\ extc oi = true /\ ownk n0 oi = true /\ conk n0 oi = true /\ dd i = ddo oi).
  { intros i m oi Hs Hoi. pose proof (oidx_in _ _ _ _ _ _ _ _ _ _ _ SU _ _ _ (proj1 Hs) Hoi) as Hm.
    pose proof Hm as Hl. apply nth_error_lt in Hl. destruct (slot_ex E _ _ oi G0 Hl) as (m' & off & Hs0). assert (m' = m) as -> by (destruct Hs0; congruence).
    assert (off = 0%N) as -> by (apply (tg_ext _ _ _ G0 _ _ _ Hs0), (tg_ext _ _ _ G _ _ _ Hs); auto).
    assert (Hx : extc oi = true). { unfold extc. rewrite (ext0_slot _ _ _ Hs0), (inT_slot _ _ _ Hs0). rewrite (tg_idx _ _ _ G _ _ (proj1 Hs)). reflexivity. }
    assert (Hl' : (oi <? n0) = true) by now apply Nat.ltb_lt. unfold ownk, conk. rewrite Hx, Hl', !orb_true_r. repeat split; auto; try apply Hs0. now apply Hcom with m. }
  assert (Hnot : forall c, fp0 c -> c < N0) by apply fp0_lt.
  assert (Hbuf : forall oi m e, slot_at t0 oi m 0%N -> md_buf (ddo oi) = Some e -> e < N0 /\ e <> b).
  { intros oi m e Hs Hd. pose proof (slot_lt _ _ _ _ Hs) as Hl. apply Nat.ltb_lt in Hl. destruct (pa_ext _ _ _ _ _ _ _ _ _ _ P00 oi m Hs Hl) as (_ & e' & A1 & A2 & _).
    rewrite A2 in Hd. simpl in Hd. injection Hd as ->. split; auto. apply Hnot. exists b. split; auto. right. exists oi, m. rewrite A2. auto. }
  constructor.
  - apply (pa_blk _ _ _ _ _ _ _ _ _ _ P').
  - intros i. apply full_lt.
  - intros i. apply (pa_data _ _ _ _ _ _ _ _ _ _ P').
  - intros i m off H1 H2 H3. apply (pa_int _ _ _ _ _ _ _ _ _ _ P' i m off); auto.
  - intros i m Hs Hf. destruct (oidx m) as [oi|] eqn:Hoi.
    + destruct (HC i m oi Hs Hoi) as (Hs0 & Hl & Hx & Ho & Hc & Hd). split; auto. rewrite Hd.
      destruct (pa_ext _ _ _ _ _ _ _ _ _ _ P0 oi m Hs0 Ho) as (_ & e & A1 & A2 & A3 & A4). exists e.
      destruct (Hbuf oi m e Hs0) as (He1 & He2); [now rewrite A2|].
      split; [lia|]. split; auto. destruct (Hag e He2) as (V1 & _). rewrite V1. split; auto. rewrite A2 in *. cbn [md_mixin] in *. rewrite (agree_back _ _ (e, _) (Hag e He2)). auto.
    + apply (pa_ext _ _ _ _ _ _ _ _ _ _ P' i m Hs). unfold UpdProofs.anew. rewrite (nw_slot _ _ _ _ _ _ _ Hs), Hoi. unfold full in Hf. now rewrite Hf.
  - intros i j m m' Hi Hj _ _ He.
    assert (Hnew : forall k mk, slot_at t k mk 0%N -> oidx mk = None -> anew k = true /\ exists e, md_buf (dd k) = Some e /\ N0 <= e).
    { intros k mk Hk Hok. assert (Ha : anew k = true). { unfold UpdProofs.anew. rewrite (nw_slot _ _ _ _ _ _ _ Hk), Hok. pose proof (slot_lt _ _ _ _ Hk) as Hlk. apply Nat.ltb_lt in Hlk. now rewrite Hlk. }
      split; auto. destruct (pa_ext _ _ _ _ _ _ _ _ _ _ P' k mk Hk Ha) as (_ & e & A1 & A2 & _). exists e. rewrite A2. split; auto. apply Hfp. right. exists k, mk. rewrite A2. auto. }
    destruct (oidx m) as [oi|] eqn:Hoi, (oidx m') as [oj|] eqn:Hoj.
    + destruct (HC i m oi Hi Hoi) as (A1 & A2 & A3 & A4 & A5 & A6). destruct (HC j m' oj Hj Hoj) as (C1 & C2 & C3 & C4 & C5 & C6). rewrite A6, C6 in He.
      assert (oi = oj) as <- by (apply (pa_inj _ _ _ _ _ _ _ _ _ _ P0 oi oj m m'); auto). eapply (oidx_inj _ _ _ _ _ _ _ _ _ _ _ SU i j m m' oi); auto; [apply Hi|apply Hj].
    + destruct (HC i m oi Hi Hoi) as (A1 & A2 & A3 & A4 & A5 & A6). destruct (Hnew j m' Hj Hoj) as (_ & e & C1 & C2). rewrite A6, C1 in He. destruct (Hbuf oi m e A1 He). lia.
    + destruct (HC j m' oj Hj Hoj) as (A1 & A2 & A3 & A4 & A5 & A6). destruct (Hnew i m Hi Hoi) as (_ & e & C1 & C2). rewrite A6, C1 in He. destruct (Hbuf oj m' e A1 (eq_sym He)). lia.
    + apply (pa_inj _ _ _ _ _ _ _ _ _ _ P' i j m m'); auto; [apply (Hnew i m)|apply (Hnew j m')]; auto.
  - intros i Hi. apply full_lt in Hi. destruct (slot_ex E _ _ i G Hi) as (m & off & Hs).
    assert (Hk : newk n0 i = true -> exists m off v, slot_at t i m off /\ full t i = true /\ (off = 0%N -> full t i = true) /\ binst B' (md_mixin (dd i)) = Some {| i_mixin := m; i_val := v |}).
    { intros Hk. destruct (pa_con _ _ _ _ _ _ _ _ _ _ P' i Hk) as (m1 & off1 & v1 & A1 & A2 & A3 & A4). exists m1, off1, v1. auto. }
    destruct (oidx m) as [oi|] eqn:Hoi.
    + destruct (N.eq_dec off 0) as [->|Hz].
      * destruct (HC i m oi Hs Hoi) as (Hs0 & Hl & Hx & Ho & Hc & Hd). destruct (pa_con _ _ _ _ _ _ _ _ _ _ P0 oi Hc) as (m1 & off1 & v1 & A1 & A2 & A3 & A4).
        destruct (slot_fun _ _ _ _ _ _ Hs0 A1) as (Em & Eo). subst m1 off1. exists m, 0%N, v1. split; auto. split; [now apply full_lt|]. split; [intros _; now apply full_lt|]. rewrite Hd.
        destruct (pa_ext _ _ _ _ _ _ _ _ _ _ P0 oi m Hs0 Ho) as (_ & e & _ & C2 & _). destruct (Hbuf oi m e Hs0) as (_ & He2); [now rewrite C2|].
        rewrite agree_inst with (B := B); auto. apply Hag. rewrite C2. auto.
      * apply Hk. unfold newk. rewrite (proj1 Hs), (proj2 Hs), Hoi. destruct (Nat.ltb_spec i n); [|lia]. destruct (N.eqb_spec off 0); [congruence|]. cbn [negb andb].
        pose proof (oidx_in _ _ _ _ _ _ _ _ _ _ _ SU _ _ _ (proj1 Hs) Hoi) as Hm. apply nth_error_lt in Hm. apply Nat.ltb_lt in Hm. rewrite Hm. apply orb_true_r.
    + apply Hk. unfold newk. rewrite (nw_slot _ _ _ _ _ _ _ Hs), Hoi. destruct (Nat.ltb_spec i n); [auto|lia].
  - intros p y Hf Hv Hn. destruct (fp_full _ Hf) as [Ha|(i & m & oi & b' & Hs & Hoi & _ & Hs0 & Hd)].
    + destruct (pa_live _ _ _ _ _ _ _ _ _ _ P' p y Ha Hv Hn) as (i & Hi & ->). exists i. split; auto. unfold newk in Hi. apply andb_true_iff in Hi. apply Hi.
    + destruct (HC i m oi Hs Hoi) as (_ & Hl & Hx & Ho & Hc & Hdd). destruct (Hbuf oi m (fst p) Hs0 Hd) as (He1 & He2).
      rewrite agree_inst with (B := B) in Hv; [|apply Hag; auto].
      destruct (pa_live _ _ _ _ _ _ _ _ _ _ P0 p y) as (j & Hj & Hp); auto.
      { right. exists oi, m. auto. }
      assert (j = oi) as ->.
      { destruct (pa_con _ _ _ _ _ _ _ _ _ _ P0 j Hj) as (mj & offj & vj & A1 & A2 & A3 & A4). destruct (N.eq_dec offj 0) as [->|Hz].
        - destruct (pa_ext _ _ _ _ _ _ _ _ _ _ P0 j mj A1 (A3 eq_refl)) as (_ & e & C1 & C2 & _). apply (pa_inj _ _ _ _ _ _ _ _ _ _ P0 j oi mj m); auto. rewrite Hd, C2 in *. rewrite Hp. reflexivity.
        - destruct (pa_int _ _ _ _ _ _ _ _ _ _ P0 j mj offj A1 A2 Hz) as (C1 & _). rewrite Hp, C1 in He2. now destruct He2. }
      exists i. split; [apply full_lt; now apply slot_lt in Hs|]. now rewrite Hdd.
Qed.

Lemma finalize_step mu s : PB n None [] oldv newv mu s -> n <> 0 -> same_type mu = false ->
  exists mu' s', finalize E U (mu, s) = ((mu', s'), Ok tt) /\ done_mem s s'.
Proof.
  intros I Hn Hst. pose proof (pb_mu _ _ _ _ _ _ _ _ _ _ _ _ _ _ _ _ _ _ _ _ _ _ _ _ _ I) as Hmu. pose proof Hmu as (M1 & M2 & M3 & M4 & M5 & M6).
  assert (Hco : mu_complete mu = true).
  { rewrite (pb_co _ _ _ _ _ _ _ _ _ _ _ _ _ _ _ _ _ _ _ _ _ _ _ _ _ I), Nat.eqb_refl. destruct (Nat.ltb_spec 0 n); auto. lia. }
  pose proof (pb_td _ _ _ _ _ _ _ _ _ _ _ _ _ _ _ _ _ _ _ _ _ _ _ _ _ I) as Htd. cbv beta iota in Htd.
  pose proof (pb_part _ _ _ _ _ _ _ _ _ _ _ _ _ _ _ _ _ _ _ _ _ _ _ _ _ I eq_refl) as P.
  pose proof (pb_old _ _ _ _ _ _ _ _ _ _ _ _ _ _ _ _ _ _ _ _ _ _ _ _ _ I) as O.
  pose proof (pb_obj _ _ _ _ _ _ _ _ _ _ _ _ _ _ _ _ _ _ _ _ _ _ _ _ _ I) as Hob.
  pose proof (pb_w _ _ _ _ _ _ _ _ _ _ _ _ _ _ _ _ _ _ _ _ _ _ _ _ _ I) as Hw.
  pose proof (pb_newv _ _ _ _ _ _ _ _ _ _ _ _ _ _ _ _ _ _ _ _ _ _ _ _ _ I) as Hnv.
  pose proof (pb_fp _ _ _ _ _ _ _ _ _ _ _ _ _ _ _ _ _ _ _ _ _ _ _ _ _ I) as Hpf.
  pose proof (su_good _ _ _ _ _ _ _ _ _ _ _ SU) as G. pose proof (su_obj _ _ _ _ _ _ _ _ _ _ _ SU) as Hx0.
  assert (Hins : forall mu' s', mu_same o old r t ob mu' \/ (mu_obj mu' = o /\ mu_ref mu' = r) -> mu_tdata mu' = Some tb -> s_obj s' = s_obj s0 ->
    install (mu', s') = ((mu', set_obj s' o (Some {| o_type := Some r; o_data := Some tb; o_alloc := a; o_sealed := o_sealed x |})), Ok tt)).
  { intros mu' s' Hmu' Htd' Hob'. assert (A1 : mu_obj mu' = o /\ mu_ref mu' = r) by (destruct Hmu' as [(A1 & A2 & A3 & A4 & _)|]; auto). destruct A1 as (A1 & A4).
    unfold install. rewrite (bnd_ok _ _ _ _ _ (get_mu_step mu' s')), A1. assert (Hx' : s_obj s' o = Some x) by now rewrite Hob'.
    rewrite (bnd_ok _ _ _ _ _ (lift_eq _ mu' _ _ _ (get_obj_step s' o x Hx'))). apply lift_eq. unfold put_obj. rewrite A4, Htd'. reflexivity. }
  assert (Hpn : forall c, fp t tb dd (full t) c -> N0 <= c \/ fp0 c).
  { intros c Hc. destruct (fp_full c Hc) as [Ha|(i & m & oi & b & Hs & Hoi & Hb & Hs0 & Hd)]; [left; auto|right]. exists b. split; auto. right. exists oi, m. split; auto. split; auto. apply Nat.ltb_lt. now apply slot_lt in Hs0. }
  destruct ob as [b|] eqn:Hb.
  - rewrite <- Hb in *.
    destruct (su_old _ _ _ _ _ _ _ _ _ _ _ SU b Hb) as (Hold & Hty0 & G0 & Hnob & P00). pose proof (old_blk_lt _ _ _ _ _ _ _ _ _ _ _ SU b Hb) as Hlb.
    assert (Hmid : w_mid (s_w s) = mid) by (rewrite Hw, Hws; reflexivity).
    assert (I0 : FI b s 0 s).
    { constructor.
      - apply same_rest_refl.
      - eapply part_ext; [exact (oldmem_part (s_blk s) b Hb O)| | |]; auto; intros j; unfold ownk, conk; cbn [Nat.leb orb]; now rewrite andb_true_r.
      - eapply part_ext; [exact P| | |]; auto. intros i. unfold newk. f_equal. destruct (nth_error (t_offsets t) i) as [offi|]; [|now rewrite orb_false_r]. destruct (nth_error (t_mixins t) i) as [mi|]; [|now rewrite orb_false_r].
        destruct (oidx mi); cbn; now rewrite andb_false_r, orb_false_r.
      - intros i m Hm. apply Hnv; auto. now apply nth_error_lt in Hm.
      - intros; lia.
      - intros j m Hm _. apply (om_own _ _ _ _ _ _ O b); auto.
      - intros; apply agree_refl.
      - auto.
      - intros; lia.
      - simpl. now rewrite app_nil_r. }
    destruct (finalize_loop_step b Hb s Hob Hmid mu Hmu Htd n0 0 s I0 eq_refl) as (s2 & H2 & I2).
    pose proof (fi_rest _ _ _ _ I2) as (R1 & R2 & R3).
    pose proof (fi_old _ _ _ _ I2) as P0'. pose proof (fi_new _ _ _ _ I2) as P'.
    assert (Hx2 : s_obj s2 o = Some x) by (rewrite R2, Hob; auto).
    assert (Hfr : free E (AObj a) b (t_buf_size t0) (t_buf_align t0) s2 = (st_free s2 (AObj a) b (t_buf_size t0) (t_buf_align t0), Ok tt)).
    { apply free_step; [apply (pa_blk _ _ _ _ _ _ _ _ _ _ P0')|]. intros q y Hy. destruct (needs_destroy E y) eqn:Hnd; auto. exfalso.
      destruct (pa_live _ _ _ _ _ _ _ _ _ _ P0' (b, q) y) as (j & Hj & Hp); auto; [now left|].
      unfold conk in Hj. apply andb_true_iff in Hj. destruct Hj as [Hj Hj']. apply Nat.ltb_lt in Hj. destruct (Nat.leb_spec n0 j); [lia|]. cbn [orb] in Hj'.
      unfold extc in Hj'. apply andb_true_iff in Hj'. destruct Hj' as [Hj' _]. destruct (slot_ex E _ _ j G0 Hj) as (mj & offj & Hs). rewrite (ext0_slot _ _ _ Hs) in Hj'. apply N.eqb_eq in Hj'. subst offj.
      apply Nat.ltb_lt in Hj. destruct (pa_ext _ _ _ _ _ _ _ _ _ _ P00 j mj Hs Hj) as (_ & e & A1 & A2 & _). rewrite A2 in Hp. injection Hp as -> _. now apply A1. }
    set (s3 := st_free s2 (AObj a) b (t_buf_size t0) (t_buf_align t0)) in *.
    assert (Hw3 : decr_nobj (s_w s3) r0 = (w2, Ok tt)).
    { unfold w2. rewrite Hb. change (s_w s3) with (s_w s2). rewrite R1, Hw, Hws. unfold decr_nobj. cbn [w_type w1 with_type].
      assert (Ht : w_type (w1 s0 r t) r0 = Some t0). { unfold w1, with_type. cbn [w_type]. unfold tupd. destruct (tref_eqb_spec r0 r) as [He|]; [|auto]. exfalso. apply (Hrr b Hb). congruence. }
      unfold w1, with_type in Ht. cbn [w_type] in Ht. rewrite Ht. destruct (t_nobj t0) as [|k]; [congruence|]. reflexivity. }
    assert (Hde : deallocate_object_buffer E r0 t0 a b s2 = (set_w s3 w2, Ok tt)).
    { unfold deallocate_object_buffer. rewrite (bnd_ok _ _ _ _ _ Hfr). unfold on_world. rewrite Hw3. reflexivity. }
    set (s4 := set_w s3 w2) in *. set (mu2 := with_old_null mu).
    set (s5 := set_obj s4 o (Some {| o_type := Some r; o_data := Some tb; o_alloc := a; o_sealed := o_sealed x |})).
    exists mu2, s5. split.
    { unfold finalize. rewrite (bnd_ok _ _ _ _ _ (get_mu_step mu s)), Hco, Hst, M3, M2. cbn [negb]. rewrite Hold, Hb.
      assert (Hin : install (mu2, s4) = ((mu2, s5), Ok tt)).
      { apply Hins; [right; split; auto|exact Htd|]. change (s_obj s4) with (s_obj s2). now rewrite R2. }
      etransitivity; [apply bnd_ok with (a := tt) (s1 := (mu2, s4))|exact Hin].
      unfold num_mixins. rewrite (bnd_ok _ _ _ _ _ H2), M1, (bnd_ok _ _ _ _ _ (lift_eq _ mu _ _ _ (get_obj_step s2 o x Hx2))).
      rewrite (bnd_ok _ _ _ _ _ (lift_eq _ mu _ _ _ Hde)). reflexivity. }
    assert (HB : forall c, c <> b -> s_blk s5 c = s_blk s2 c).
    { intros c Hc. cbn. now apply upd_other. }
    assert (HBb : s_blk s5 b = None) by (cbn; apply upd_same).
    assert (Htb : N0 <= tb) by (apply Hfp; now left).
    assert (Hif : forall p, fst p <> b -> binst (s_blk s5) p = binst (s_blk s2) p) by (intros p Hp; unfold binst; now rewrite HB).
    assert (Hfull : part (s_blk s5) o a t tb dd (full t) (full t) (full t)) by (exact (merge_old b (s_blk s2) Hb P' P0' (s_blk s5) HB)).
    constructor.
    + cbn. now rewrite R2, Hob.
    + reflexivity.
    + cbn. exact R3.
    + exact Hfull.
    + intros i m Hm Hni. rewrite Hif; [now apply (fi_nv _ _ _ _ I2)|].
      assert (N0 <= fst (md_mixin (dd i))); [|lia]. pose proof Hm as Hl. apply nth_error_lt in Hl. destruct (slot_ex E _ _ i G Hl) as (m' & off & Hs). apply Hfp. eapply part_mine_fp; [exact P'|]. apply mine_new; eauto.
    + intros i m oi Hm Hoi. pose proof Hm as Hl. apply nth_error_lt in Hl. destruct (slot_ex E _ _ i G Hl) as (m' & off & Hs). assert (m' = m) as -> by (destruct Hs; congruence).
      pose proof (oidx_in _ _ _ _ _ _ _ _ _ _ _ SU _ _ _ Hm Hoi) as Hm0. pose proof Hm0 as Hl0. apply nth_error_lt in Hl0. destruct (N.eq_dec off 0) as [->|Hz].
      * rewrite (Hcom i m oi Hs Hoi). destruct (slot_ex E _ _ oi G0 Hl0) as (m' & off & Hs0). assert (m' = m) as -> by (destruct Hs0; congruence).
        assert (off = 0%N) as -> by (apply (tg_ext _ _ _ G0 _ _ _ Hs0), (tg_ext _ _ _ G _ _ _ Hs); auto).
        pose proof Hl0 as Hl0'. apply Nat.ltb_lt in Hl0'. destruct (pa_ext _ _ _ _ _ _ _ _ _ _ P00 oi m Hs0 Hl0') as (_ & e & A1 & A2 & _).
        rewrite Hif by (rewrite A2; exact A1). apply (fi_ov _ _ _ _ I2 oi m Hm0). right. unfold extc. rewrite (ext0_slot _ _ _ Hs0), (inT_slot _ _ _ Hs0), (tg_idx _ _ _ G _ _ Hm). reflexivity.
      * rewrite Hif; [apply (fi_mv _ _ _ _ I2 i m off oi); auto|]. pose proof Hl as Hl'. apply Nat.ltb_lt in Hl'. destruct (pa_int _ _ _ _ _ _ _ _ _ _ P' i m off Hs Hl' Hz) as (A1 & _). rewrite A1. cbn. lia.
    + intros c Hc Hnf. eapply agree_trans; [apply oldmem_agree; eauto|]. eapply agree_trans; [apply (fi_oth _ _ _ _ I2); auto|]. apply agree_eq, HB. intros ->. apply Hnf. exists b. split; auto. now left.
    + intros c Hc. assert (c <> b) by congruence. rewrite HB in Hc by auto. destruct (Nat.lt_ge_cases c N0) as [Hlt|Hge].
      * (* an old block *)
        assert (Hd : forall k, (exists i m, i < k /\ slot_at t0 i m 0%N /\ md_buf (ddo i) = Some c) \/ ~ (exists i m, i < k /\ slot_at t0 i m 0%N /\ md_buf (ddo i) = Some c)).
        { induction k as [|k [(i & m & A1 & A2 & A3)|IH]]; [right; intros (i & m & A1 & _); lia|left; exists i, m; auto|].
          destruct (Nat.lt_ge_cases k n0) as [Hk|Hk].
          - destruct (slot_ex E _ _ k G0 Hk) as (mk & offk & Hsk). destruct (N.eq_dec offk 0) as [->|].
            + destruct (md_buf (ddo k)) as [e|] eqn:Hbk.
              * destruct (Nat.eq_dec e c) as [->|]; [left; exists k, mk; auto|]. right. intros (i & m & A1 & A2 & A3). destruct (Nat.eq_dec i k) as [->|]; [congruence|]. apply IH. exists i, m. split; [lia|auto].
              * right. intros (i & m & A1 & A2 & A3). destruct (Nat.eq_dec i k) as [->|]; [congruence|]. apply IH. exists i, m. split; [lia|auto].
            + right. intros (i & m & A1 & A2 & A3). destruct (Nat.eq_dec i k) as [->|]; [destruct (slot_fun _ _ _ _ _ _ Hsk A2); congruence|]. apply IH. exists i, m. split; [lia|auto].
          - right. intros (i & m & A1 & A2 & A3). apply slot_lt in A2 as A4. apply IH. exists i, m. split; [lia|auto]. }
        destruct (Hd n0) as [(i & m & A1 & A2 & A3)|Hno].
        -- right. destruct (extc i) eqn:Hx; [|exfalso; apply Hc; exact (fi_gone _ _ _ _ I2 i m c A1 A2 Hx A3)].
           unfold extc in Hx. apply andb_true_iff in Hx. destruct Hx as [_ Hx]. rewrite (inT_slot _ _ _ A2) in Hx. destruct (index_of t (mid m)) as [ti|] eqn:Hti; [|discriminate].
           assert (Hmt : nth_error (t_mixins t) ti = Some m). { apply (su_idx0 _ _ _ _ _ _ _ _ _ _ _ SU b m ti Hb); auto. destruct A2 as [A2 _]. now apply nth_error_In in A2. }
           pose proof Hmt as Hl. apply nth_error_lt in Hl. destruct (slot_ex E _ _ ti G Hl) as (m' & off & Hs). assert (m' = m) as -> by (destruct Hs; congruence).
           assert (off = 0%N) as -> by (apply (tg_ext _ _ _ G _ _ _ Hs), (tg_ext _ _ _ G0 _ _ _ A2); auto).
           right. exists ti, m. split; auto. split; [now apply full_lt|]. rewrite (Hcom ti m i Hs); auto. apply oidx_t0 with b; auto. apply A2.
        -- left. split; auto. intros (b' & Hb' & [->|(i & m & A1 & A2 & A3)]); [congruence|]. apply Hno. exists i, m. split; auto. now apply slot_lt in A1.
      * right. apply fp_anew. apply Hpf; auto. apply (fi_dead _ _ _ _ I2). auto.
    + exact Hpn.
    + intros c Hc. assert (c <> b) by congruence. rewrite HB in Hc by auto. apply (fi_dead _ _ _ _ I2 c Hc).
    + unfold fins. rewrite Hb. cbn [s_log s5 set_obj s4 set_w s3 st_free]. cbn. rewrite (fi_log _ _ _ _ I2), <- app_assoc. reflexivity.
  - rewrite <- Hb in *.
    set (s5 := set_obj s o (Some {| o_type := Some r; o_data := Some tb; o_alloc := a; o_sealed := o_sealed x |})).
    exists mu, s5. split.
    { unfold finalize. rewrite (bnd_ok _ _ _ _ _ (get_mu_step mu s)), Hco, Hst, M3. cbn [negb]. rewrite Hb.
      rewrite (bnd_ok (ret tt) _ (mu, s) (mu, s) tt eq_refl). apply Hins; auto. }
    assert (Hall : forall i, i < n -> nw i = true).
    { intros i Hi. unfold AllocProofs.nw, AllocProofs.oidx. rewrite Hb. destruct (nth_error (t_mixins t) i) eqn:Hm; auto. apply nth_error_None in Hm. lia. }
    constructor.
    + cbn. now rewrite Hob.
    + cbn. unfold w2. rewrite Hb. now rewrite Hw.
    + reflexivity.
    + eapply part_ext; [exact P| | |]; auto.
      * intros i. unfold full, UpdProofs.anew. destruct (Nat.ltb_spec i n); auto. now rewrite Hall.
      * intros i. unfold full. destruct (Nat.ltb_spec i n); auto. now rewrite Hall.
    + intros i m Hm Hni. apply Hnv; auto. now apply nth_error_lt in Hm.
    + intros i m oi _ Hoi. exfalso. unfold AllocProofs.oidx in Hoi. rewrite Hb in Hoi. discriminate.
    + intros c Hc Hnf. apply oldmem_agree; auto.
    + intros c Hc. destruct (Nat.lt_ge_cases c N0) as [Hlt|Hge].
      * left. split; auto. intros (b' & Hb' & _). congruence.
      * right. apply fp_anew. now apply Hpf.
    + exact Hpn.
    + intros c Hc. exact Hc.
    + unfold fins. rewrite Hb. cbn. now rewrite app_nil_r.
Qed.

End Fin.
