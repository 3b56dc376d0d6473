(** What functions of mixins see: the invariant of one operation *)
From Coq Require Import List Arith ZArith NArith Lia Bool.
From Verif Require Import Base Sv BaseLemmas Info MixinInfo TypeMut TypeBuild TypeQuery Domain TypesProofs Heap HeapProofs Mutation Object SpecObj SpecLog LogProofs SpecSeen PlaceProofs.
Import ListNotations.

Section Seen.
Variable E : env.
Variable U : user.
(** the state before, the object, and the source object by function *)
Variable s0 : st.
Variable o : nat.
Variable so : fn -> nat.
Notation n0 := (s_next s0).
Notation B0 := (s_blk s0).

(** the blocks that the operation works on, of those that were there before *)
Variable own : nat -> Prop.

Definition has_b (B : blocks) (b : nat) : Prop := battr B b <> None.
(** [p] is a place of a mixin of the object *)
Definition mine (s : st) (p : addr) : Prop :=
  (fst p < n0 /\ bback B0 p = Some o /\ own (fst p)) \/ (n0 <= fst p < s_next s /\ (has_blk s (fst p) -> bback (s_blk s) p = Some o)).

Definition types_kept (w : world) : Prop := forall r t, w_type (s_w s0) r = Some t -> exists k, w_type w r = Some (set_nobj t k).
Definition frame (B : blocks) : Prop := forall b, b < n0 -> has_b B b -> (forall i, bdat B b i = bdat B0 b i) /\ (forall off, bback B (b, off) = bback B0 (b, off)).
Definition alive (B : blocks) : Prop :=
  (forall b, b < n0 -> has_b B0 b -> has_b B b) /\
  (forall p x, fst p < n0 -> binst B0 p = Some x -> exists x', binst B p = Some x' /\ i_mixin x' = i_mixin x /\ (bback B0 p <> Some o -> x' = x)).
Definition rest (B : blocks) : Prop :=
  (forall b, b < n0 -> ~ own b -> has_b B0 b -> has_b B b) /\
  (forall p x, fst p < n0 -> ~ own (fst p) -> binst B0 p = Some x -> binst B p = Some x).
Definition good (ek : ev * snap) : Prop :=
  match fst ek with
  | EvCall f m p src err =>
    sn_obj (snd ek) = s_obj s0 /\ bback (sn_blk (snd ek)) p = Some o /\ (forall q, src = Some q -> bback (sn_blk (snd ek)) q = Some (so f)) /\
    types_kept (sn_w (snd ek)) /\ frame (sn_blk (snd ek)) /\ (building f = true -> alive (sn_blk (snd ek))) /\ rest (sn_blk (snd ek))
  | _ => True
  end.
Definition seen_ok (s : st) : Prop := exists l, s_seen s = s_seen s0 ++ l /\ Forall good l.

(** Which mixins of the target were there before *)
Variable common : nat -> Prop.

Record K (ph : bool) (s : st) : Prop := {
  k_obj : s_obj s = s_obj s0;
  k_mid : w_mid (s_w s) = w_mid (s_w s0);
  k_next : n0 <= s_next s;
  k_frame : frame (s_blk s);
  k_new : forall b i d, n0 <= b -> bdat (s_blk s) b i = Some d -> mine s (md_mixin d) /\ (fst (md_mixin d) < n0 -> common i) /\ (forall e, md_buf d = Some e -> n0 <= e \/ own e);
  k_ty : types_kept (s_w s);
  k_alive : ph = true -> alive (s_blk s);
  k_seen : seen_ok s;
  k_rest : rest (s_blk s)
}.
Lemma k_weak ph s : K ph s -> K false s.
Proof. intros [A B C D F G H I J]. constructor; auto. discriminate. Qed.

Lemma mine_back ph s p : K ph s -> mine s p -> has_blk s (fst p) -> bback (s_blk s) p = Some o.
Proof.
  intros H [(M1 & M2 & _)|[M1 M2]] Hb; auto. destruct (k_frame _ _ H (fst p) M1 Hb) as [_ F]. destruct p. cbn [fst] in F. rewrite F. exact M2.
Qed.
Lemma old_back ph s p o' : K ph s -> fst p < n0 -> bback B0 p = Some o' -> has_blk s (fst p) -> bback (s_blk s) p = Some o'.
Proof. intros H M1 M2 Hb. destruct (k_frame _ _ H (fst p) M1 Hb) as [_ F]. destruct p. cbn [fst] in F. rewrite F. exact M2. Qed.

Lemma k_mem ph s s' : K ph s -> s_obj s' = s_obj s -> s_next s' = s_next s -> s_w s' = s_w s ->
  (forall b, has_blk s' b -> has_blk s b /\ (forall i, bdat (s_blk s') b i = bdat (s_blk s) b i) /\ (forall off, bback (s_blk s') (b, off) = bback (s_blk s) (b, off))) ->
  (ph = true -> (forall b, b < n0 -> has_blk s b -> has_blk s' b) /\
     forall p x, fst p < n0 -> binst (s_blk s) p = Some x -> exists x', binst (s_blk s') p = Some x' /\ i_mixin x' = i_mixin x /\ (bback B0 p <> Some o -> x' = x)) ->
  (forall b, b < n0 -> ~ own b -> has_blk s b -> has_blk s' b) -> (forall p x, fst p < n0 -> ~ own (fst p) -> binst (s_blk s) p = Some x -> binst (s_blk s') p = Some x) ->
  (exists l, s_seen s' = s_seen s ++ l /\ Forall good l) -> K ph s'.
Proof.
  intros [P1 P1' P2 P3 P4 P5 P6 P7 PX] H1 H2 H3 H4 H5 X1 X2 (l & H6 & H7). constructor.
  - congruence.
  - congruence.
  - congruence.
  - intros b Hb Hs. destruct (H4 b Hs) as (A1 & A2 & A3). destruct (P3 b Hb A1) as [F1 F2]. split; intros; [rewrite A2|rewrite A3]; auto.
  - intros b i d Hb Hd. assert (Hs : has_blk s' b) by (unfold bdat in Hd; unfold has_blk, battr; destruct (s_blk s' b); congruence). destruct (H4 b Hs) as (A1 & A2 & A3). rewrite A2 in Hd. destruct (P4 b i d Hb Hd) as [M M'].
    split; [|exact M']. destruct M as [M|[M1 M2]]; [now left|right]. rewrite H2. split; auto. intros Hs'. destruct (H4 _ Hs') as (C1 & C2 & C3). destruct (md_mixin d) as [c off]. cbn [fst] in *. rewrite C3. auto.
  - intros r t Ht. rewrite H3. auto.
  - intros ->. destruct (P6 eq_refl) as [Q1 Q2]. destruct (H5 eq_refl) as [R1 R2]. split.
    + intros b Hb Hh. apply R1; auto. now apply Q1.
    + intros p x Hp Hx. destruct (Q2 p x Hp Hx) as (x1 & Z1 & Z2 & Z3). destruct (R2 p x1 Hp Z1) as (x2 & Y1 & Y2 & Y3). exists x2. split; auto. split; [congruence|]. intros Hn. rewrite (Y3 Hn). auto.
  - destruct P7 as (l0 & L1 & L2). exists (l0 ++ l). split; [rewrite H6, L1; now rewrite app_assoc|]. apply Forall_app; auto.
  - destruct PX as [Q1 Q2]. split; [intros b Hb Ho Hh; apply X1; auto; now apply Q1|]. intros p x Hp Ho Hx. apply X2; auto.
Qed.
(** nothing but counters *)
Lemma k_same ph s s' : K ph s -> s_obj s' = s_obj s -> s_next s' = s_next s -> s_w s' = s_w s -> s_blk s' = s_blk s -> s_seen s' = s_seen s -> K ph s'.
Proof.
  intros P H1 H2 H3 H4 H5. eapply k_mem; eauto.
  - intros b Hb. unfold has_blk in *. rewrite H4 in *. auto.
  - intros _. split; [intros b _ Hb; unfold has_blk in *; now rewrite H4|]. intros p x _ Hx. rewrite H4. eauto.
  - intros b _ _ Hb. unfold has_blk in *. now rewrite H4.
  - intros p x _ _. now rewrite H4.
  - exists []. rewrite H5, app_nil_r. auto.
Qed.
Lemma k_call ph s f m p src e : K ph s -> (building f = true -> ph = true) -> mine s p -> has_blk s (fst p) -> (forall q, src = Some q -> bback (s_blk s) q = Some (so f)) ->
  K ph (st_call s f m p src e).
Proof.
  intros P Hf Hm Hb Hs. apply (k_mem ph s); try reflexivity; [exact P|..].
  - intros b Hb'. split; [exact Hb'|auto].
  - intros _. split; eauto.
  - auto.
  - auto.
  - exists [(EvCall f m p src e, {| sn_w := s_w s; sn_blk := s_blk s; sn_obj := s_obj s |})]. split; auto. constructor; auto. cbn. split; [apply (k_obj _ _ P)|]. split; [eapply mine_back; eauto|]. split; auto.
    split; [apply (k_ty _ _ P)|]. split; [apply (k_frame _ _ P)|]. split; [intros Hf'; apply (k_alive _ _ P); auto|apply (k_rest _ _ P)].
Qed.
Lemma k_log_destroy s m p : K false s -> mine s p -> has_blk s (fst p) -> K false (add_log s (EvCall FDestroy m p None 0)).
Proof.
  intros P Hm Hb. apply (k_mem false s); try reflexivity; [exact P|..].
  - intros b Hb'. split; [exact Hb'|auto].
  - discriminate.
  - auto.
  - auto.
  - exists [(EvCall FDestroy m p None 0%Z, {| sn_w := s_w s; sn_blk := s_blk s; sn_obj := s_obj s |})]. split; auto. constructor; auto. cbn. split; [apply (k_obj _ _ P)|]. split; [eapply mine_back; eauto|]. split; [discriminate|].
    split; [apply (k_ty _ _ P)|]. split; [apply (k_frame _ _ P)|]. split; [discriminate|apply (k_rest _ _ P)].
Qed.
Lemma has_in s b f c : has_blk (in_blk s b f) c <-> has_blk s c.
Proof. unfold has_blk. rewrite !battr_none. now rewrite in_blk_none. Qed.
Lemma seen_in s b f : s_seen (in_blk s b f) = s_seen s.
Proof. unfold in_blk. now destruct (s_blk s b). Qed.
Lemma k_inst ph s p x : K ph s -> has_blk s (fst p) -> (n0 <= fst p \/ own (fst p)) -> (ph = true -> fst p < n0 -> bback B0 p = Some o /\ exists y, binst (s_blk s) p = Some y /\ i_mixin y = i_mixin x) -> K ph (st_inst s p x).
Proof.
  intros P Hb How Hx. destruct (st_inst_views s p x Hb) as (V1 & V2 & V3 & V4). destruct (in_blk_rest s (fst p) (fun k => with_inst k (aset (snd p) x (b_inst k)))) as ((R1 & R2 & R3) & _ & R4). fold (st_inst s p x) in *.
  eapply k_mem; eauto.
  - intros b Hs. split; [unfold has_blk in *; now rewrite V1 in Hs|]. auto.
  - intros Hph. split; [intros b _ Hs; unfold has_blk in *; now rewrite V1|]. intros q y Hq Hy. rewrite V4. destruct (addr_eqb_spec q p) as [->|]; [|eauto]. destruct (Hx Hph Hq) as (C1 & y' & C2 & C3). exists x. split; auto. split; congruence.
  - intros b _ _ Hs. unfold has_blk in *. now rewrite V1.
  - intros q y Hq Ho Hy. rewrite V4. destruct (addr_eqb_spec q p) as [->|]; auto. exfalso. destruct How; [lia|auto].
  - exists []. rewrite app_nil_r. split; auto. apply seen_in.
Qed.
Lemma k_del s p : K false s -> has_blk s (fst p) -> (n0 <= fst p \/ own (fst p)) -> K false (st_del s p).
Proof.
  intros P Hb How. destruct (st_del_views s p Hb) as (V1 & V2 & V3 & V4). destruct (in_blk_rest s (fst p) (fun k => with_inst k (adel (snd p) (b_inst k)))) as ((R1 & R2 & R3) & _ & R4). fold (st_del s p) in *.
  eapply k_mem; eauto.
  - intros b Hs. split; [unfold has_blk in *; now rewrite V1 in Hs|]. auto.
  - discriminate.
  - intros b _ _ Hs. unfold has_blk in *. now rewrite V1.
  - intros q y Hq Ho Hy. rewrite V4. destruct (addr_eqb_spec q p) as [->|]; auto. exfalso. destruct How; [lia|auto].
  - exists []. rewrite app_nil_r. split; auto. apply seen_in.
Qed.

(** ** Programs *)
Definition tr {A} (ph : bool) (s : st) (x : M st A) (G : A -> st -> Prop) : Prop :=
  forall s' r, x s = (s', r) -> match r with Ok a => K ph s' /\ G a s' | Throw _ => K ph s' | Ub _ => True end.
Definition T {A S} : A -> S -> Prop := fun _ _ => True.

Lemma tr_stay A ph s (r : res A) x (G : A -> st -> Prop) : K ph s -> x s = (s, r) -> (forall a, r = Ok a -> G a s) -> tr ph s x G.
Proof. intros P Hx H s' r' Hx'. rewrite Hx in Hx'. injection Hx' as <- <-. destruct r; auto. Qed.
Lemma tr_ret A ph s (a : A) (G : A -> st -> Prop) : K ph s -> G a s -> tr ph s (ret a) G.
Proof. intros P H s' r [= <- <-]. auto. Qed.
Lemma tr_raise A ph s e (G : A -> st -> Prop) : K ph s -> tr ph s (raise e) G.
Proof. intros P s' r [= <- <-]. auto. Qed.
Lemma tr_ub A ph s u (G : A -> st -> Prop) : tr ph s (ub u) G.
Proof. intros s' r [= <- <-]. exact Logic.I. Qed.
Lemma tr_const A ph s (f : st -> res A) : K ph s -> tr ph s (fun s => (s, f s)) (fun a s' => f s = Ok a /\ s' = s).
Proof. intros P. apply (tr_stay A ph s (f s)); auto. Qed.
Lemma tr_weak A ph s (x : M st A) (G H : A -> st -> Prop) : tr ph s x G -> (forall a s', K ph s' -> G a s' -> H a s') -> tr ph s x H.
Proof. intros Hx HG s' r Hr. specialize (Hx s' r Hr). destruct r; auto. destruct Hx. auto. Qed.
Lemma tr_T A ph s (x : M st A) (G : A -> st -> Prop) : tr ph s x G -> tr ph s x T.
Proof. intros H. eapply tr_weak; eauto. intros. exact Logic.I. Qed.
Lemma tr_bnd A B ph s (x : M st A) (f : A -> M st B) G H : tr ph s x G -> (forall a s', K ph s' -> G a s' -> tr ph s' (f a) H) -> tr ph s (bnd x f) H.
Proof.
  intros Hx Hf s' r. unfold bnd. destruct (x s) as [s1 [a|e|u]] eqn:Hs; pose proof (Hx _ _ Hs) as Hk; cbn in Hk.
  - destruct Hk as [Hk1 Hk2]. intros Hr. exact (Hf a s1 Hk1 Hk2 s' r Hr).
  - intros [= <- <-]. exact Hk.
  - intros [= <- <-]. exact Logic.I.
Qed.
Lemma tr_get_obj ph s c : K ph s -> tr ph s (get_obj c) (fun x s' => s_obj s c = Some x /\ s' = s).
Proof. intros P s' r. unfold get_obj. destruct (s_obj s c) eqn:Ho; intros [= <- <-]; auto. Qed.
Lemma tr_get_ty ph s r : K ph s -> tr ph s (get_ty r) (fun t s' => w_type (s_w s) r = Some t /\ s' = s).
Proof. intros P s' q. unfold get_ty. destruct (w_type (s_w s) r) eqn:Ho; intros [= <- <-]; auto. Qed.
Lemma tr_the_type ph s x : K ph s -> tr ph s (the_type x) (fun rt s' => o_type x = Some (fst rt) /\ w_type (s_w s) (fst rt) = Some (snd rt) /\ s' = s).
Proof.
  intros P. unfold the_type. destruct (o_type x) as [r|]; [|apply tr_ub]. eapply tr_bnd; [apply tr_get_ty; auto|]. intros t ? _ (Ht & ->). apply tr_ret; auto.
Qed.

(** ** Memory *)
Lemma types_set w r t k : w_type w r = Some t -> types_kept w -> types_kept (with_type w r (set_nobj t k)).
Proof.
  intros Ht Hk q u Hu. destruct (Hk q u Hu) as (n & Hn). unfold with_type, tupd. cbn. destruct (tref_eqb_spec q r) as [->|]; [|eauto]. exists k. assert (t = set_nobj u n) as -> by congruence. reflexivity.
Qed.
Lemma tr_incr ph s r : K ph s -> tr ph s (on_world (fun w => incr_nobj w r)) T.
Proof.
  intros P s' q. unfold on_world, incr_nobj. destruct (w_type (s_w s) r) as [t|] eqn:Ht; cbn; intros [= <- <-]; [|exact Logic.I]. split; [|exact Logic.I].
  destruct P as [P1 P1' P2 P3 P4 P5 P6 P7 PX]. constructor; auto. cbn. now apply types_set.
Qed.
Lemma tr_decr ph s r : K ph s -> tr ph s (on_world (fun w => decr_nobj w r)) T.
Proof.
  intros P s' q. unfold on_world, decr_nobj. destruct (w_type (s_w s) r) as [t|] eqn:Ht; cbn; [destruct (t_nobj t); cbn|]; intros [= <- <-]; try exact Logic.I. split; [|exact Logic.I].
  destruct P as [P1 P1' P2 P3 P4 P5 P6 P7 PX]. constructor; auto. cbn. now apply types_set.
Qed.
Lemma tr_alloc ph s a size align : K ph s -> tr ph s (alloc U a size align) (fun b s' => n0 <= b < s_next s').
Proof.
  intros P s' r. rewrite alloc_step. destruct (an_err (u_ans U (s_calls s)) =? 0)%Z; intros [= <- <-]; [|eapply k_same; eauto]. cbn. pose proof (k_next _ _ P) as Hn. split; [|lia].
  destruct P as [P1 P1' P2 P3 P4 P5 P6 P7 PX]. constructor; auto; cbn.
  - lia.
  - intros b Hb Hh. assert (Hne : b <> s_next s) by lia. unfold has_b, battr, bdat, bback in *. cbn in *. unfold upd in *. destruct (Nat.eqb_spec b (s_next s)); [lia|]. apply P3; auto.
  - intros b i d Hb. unfold bdat, upd. destruct (Nat.eqb_spec b (s_next s)) as [->|]; [discriminate|]. intros Hd. destruct (P4 b i d Hb Hd) as [M1 M2]. split; [|exact M2]. destruct M1 as [M1|[M1 M3]]; [now left|right]. cbn. split; [lia|].
    assert (Hne : fst (md_mixin d) <> s_next s) by lia. unfold has_blk, battr, bback in *. cbn in *. unfold upd. destruct (Nat.eqb_spec (fst (md_mixin d)) (s_next s)); [lia|]. auto.
  - intros Hph. destruct (P6 Hph) as [Q1 Q2]. split.
    + intros b Hb Hh. specialize (Q1 b Hb Hh). unfold has_b, battr, upd in *. destruct (b =? s_next s); [discriminate|auto].
    + intros p x Hp Hx. unfold binst, upd. destruct (Nat.eqb_spec (fst p) (s_next s)); [lia|]. apply Q2; auto.
  - destruct P7 as (l & L1 & L2). eexists (l ++ [_]). cbn. rewrite L1. split; [rewrite app_assoc; reflexivity|]. apply Forall_app. split; auto. constructor; auto. exact Logic.I.
  - destruct PX as [Q1 Q2]. split.
    + intros b Hb Ho Hh. specialize (Q1 b Hb Ho Hh). unfold has_b, battr, upd in *. destruct (b =? s_next s); [discriminate|auto].
    + intros p x Hp Ho Hx. unfold binst, upd. destruct (Nat.eqb_spec (fst p) (s_next s)); [lia|]. apply Q2; auto.
Qed.
Lemma tr_free s a b size align : K false s -> (n0 <= b \/ own b) -> tr false s (free E a b size align) T.
Proof.
  intros P Hf. unfold free. intros s' r. unfold bnd, get_blk. destruct (s_blk s b) as [k|] eqn:Hb; [|intros [= <- <-]; exact Logic.I].
  destruct (aid_eqb (b_alloc k) a && (b_size k =? size)%N && (b_align k =? align)%N); [destruct (all_dead E (b_inst k))|]; intros [= <- <-]; try exact Logic.I. split; [|exact Logic.I].
  eapply k_mem; eauto; cbn.
  - intros c. unfold has_blk, battr, bdat, bback. cbn. unfold upd. destruct (c =? b); [congruence|auto].
  - discriminate.
  - intros c Hc Ho. unfold has_blk, battr. cbn. unfold upd. destruct (Nat.eqb_spec c b) as [->|]; auto. exfalso. destruct Hf; [lia|auto].
  - intros q y Hc Ho. unfold binst. cbn. unfold upd. destruct (Nat.eqb_spec (fst q) b) as [He|]; auto. rewrite He in *. exfalso. destruct Hf; [lia|auto].
  - eexists [_]. split; [reflexivity|]. constructor; auto. exact Logic.I.
Qed.
(** A buffer that the object had before, and one it has now *)
Definition had (c : nat) (b : nat) : Prop := b < n0 /\ forall i d, bdat B0 b i = Some d -> fst (md_mixin d) < n0 /\ bback B0 (md_mixin d) = Some c.
Definition own_old (c : nat) (b : nat) : Prop := had c b /\ own b /\ forall i d, bdat B0 b i = Some d -> own (fst (md_mixin d)) /\ forall e, md_buf d = Some e -> own e.
Definition good_buf (b : nat) : Prop := n0 <= b \/ own_old o b.
Lemma has_dat s b i d : bdat (s_blk s) b i = Some d -> has_blk s b.
Proof. unfold bdat, has_blk, battr. destruct (s_blk s b); congruence. Qed.
Lemma read_cases s b i : (exists d, bdat (s_blk s) b i = Some d /\ read_data b i s = (s, Ok d)) \/ exists u, read_data b i s = (s, Ub u).
Proof.
  destruct (bdat (s_blk s) b i) as [d|] eqn:Hd; [left; exists d; split; auto; now apply read_data_step|right]. unfold bdat in Hd. unfold read_data, bnd, get_blk. destruct (s_blk s b) as [k|]; [rewrite Hd|]; unfold ub; eauto.
Qed.
Lemma tr_read ph s b i : K ph s -> good_buf b -> tr ph s (read_data b i) (fun d s' => mine s (md_mixin d) /\ (n0 <= b -> fst (md_mixin d) < n0 -> common i) /\ (forall e, md_buf d = Some e -> n0 <= e \/ own e) /\ s' = s).
Proof.
  intros P Hb s' r. destruct (read_cases s b i) as [(d & Hd & ->)|(u & ->)]; intros [= <- <-]; [|exact Logic.I]. split; auto. destruct (Nat.le_gt_cases n0 b) as [Hle|Hlt].
  - destruct (k_new _ _ P b i d Hle Hd) as (M1 & M2 & M3). auto.
  - destruct Hb as [Hb|([_ Hb] & _ & Hb')]; [lia|]. destruct (k_frame _ _ P b Hlt (has_dat _ _ _ _ Hd)) as [F _]. rewrite F in Hd. destruct (Hb i d Hd) as [X1 X2]. destruct (Hb' i d Hd) as [X3 X4]. split; [now left|]. split; [lia|]. split; auto.
Qed.
Lemma tr_read_old ph s b i c : K ph s -> had c b -> tr ph s (read_data b i) (fun d s' => bdat B0 b i = Some d /\ fst (md_mixin d) < n0 /\ bback B0 (md_mixin d) = Some c /\ s' = s).
Proof.
  intros P [Hlt Hb] s' r. destruct (read_cases s b i) as [(d & Hd & ->)|(u & ->)]; intros [= <- <-]; [|exact Logic.I]. split; auto.
  destruct (k_frame _ _ P b Hlt (has_dat _ _ _ _ Hd)) as [F _]. rewrite F in Hd. destruct (Hb i d Hd); auto.
Qed.
(** writing an entry of the new buffer *)
Lemma k_data ph s b i d : K ph s -> n0 <= b -> has_blk s b -> mine s (md_mixin d) -> (fst (md_mixin d) < n0 -> common i) -> (forall e, md_buf d = Some e -> n0 <= e \/ own e) -> K ph (st_data s b i d).
Proof.
  intros P Hb Hs Hm Hc He. destruct (st_data_views s b i d Hs) as (V1 & V2 & V3 & V4). destruct (in_blk_rest s b (fun k => with_data k i d)) as ((R1 & R2 & R3) & _ & R4). pose proof (seen_in s b (fun k => with_data k i d)) as R5. fold (st_data s b i d) in *.
  assert (Hh : forall c, has_blk (st_data s b i d) c <-> has_blk s c) by (intros c; unfold has_blk; now rewrite V1).
  assert (HM : forall p, mine s p -> mine (st_data s b i d) p).
  { intros p [M|[M1 M2]]; [now left|right]. rewrite R3. split; auto. rewrite Hh, V3. auto. }
  destruct P as [P1 P1' P2 P3 P4 P5 P6 P7 PX]. constructor; try congruence.
  - intros c Hc' Hh'. apply Hh in Hh'. destruct (P3 c Hc' Hh') as [F1 F2]. split; [|intros off; now rewrite V3]. intros j. rewrite V2. destruct (Nat.eqb_spec c b); [lia|]. cbn. auto.
  - intros c j d' Hc' Hd'. rewrite V2 in Hd'. destruct ((c =? b) && (j =? i)) eqn:Hj; [|destruct (P4 c j d' Hc' Hd'); auto]. injection Hd' as <-. apply andb_prop in Hj. destruct Hj as [_ Hj]. apply Nat.eqb_eq in Hj. subst j. auto.
  - intros q t Ht. rewrite R1. auto.
  - intros Hph. destruct (P6 Hph) as [Q1 Q2]. split; [intros c Hc' Hh'; unfold has_b; rewrite V1; now apply Q1|]. intros p x Hp Hx. rewrite V4. auto.
  - destruct P7 as (l & L1 & L2). exists l. rewrite R5. auto.
  - destruct PX as [Q1 Q2]. split; [intros c Hc' Ho Hh'; unfold has_b; rewrite V1; now apply Q1|]. intros p x Hp Ho Hx. rewrite V4. auto.
Qed.
Lemma tr_write_new ph s b i d : K ph s -> n0 <= b -> mine s (md_mixin d) -> (fst (md_mixin d) < n0 -> common i) -> (forall e, md_buf d = Some e -> n0 <= e \/ own e) -> tr ph s (write_data b i d) T.
Proof.
  intros P Hb Hm Hc He s' r. destruct (has_or s b) as [Hs|Hs].
  - rewrite write_data_step by auto. intros [= <- <-]. split; [now apply k_data|exact Logic.I].
  - unfold write_data, bnd, get_blk. rewrite Hs. intros [= <- <-]. exact Logic.I.
Qed.
(** ... and then the pointer to the object at the new place *)
Lemma tr_write_set ph s b i d : K ph s -> n0 <= b -> n0 <= fst (md_mixin d) < s_next s -> (forall e, md_buf d = Some e -> n0 <= e \/ own e) -> tr ph s (write_data b i d;; set_object (md_mixin d) o) T.
Proof.
  intros P Hb Hm He s' r. destruct (has_or s b) as [Hs|Hs].
  2:{ unfold write_data, bnd, get_blk. rewrite Hs. intros [= <- <-]. exact Logic.I. }
  unfold bnd. rewrite write_data_step by auto. set (s1 := st_data s b i d). destruct (has_or s1 (fst (md_mixin d))) as [Hs1|Hs1].
  2:{ unfold set_object, bnd, get_blk. rewrite Hs1. intros [= <- <-]. exact Logic.I. }
  rewrite set_object_step by auto. intros [= <- <-]. split; [|exact Logic.I]. set (q := md_mixin d) in *.
  destruct (st_data_views s b i d Hs) as (V1 & V2 & V3 & V4). destruct (in_blk_rest s b (fun k => with_data k i d)) as ((R1 & R2 & R3) & _ & R4). pose proof (seen_in s b (fun k => with_data k i d)) as R5. fold (st_data s b i d) in *. fold s1 in V1, V2, V3, V4, R1, R2, R3, R4, R5.
  destruct (st_back_views s1 q o Hs1) as (W1 & W2 & W3 & W4). destruct (in_blk_rest s1 (fst q) (fun k => with_back k (snd q) o)) as ((T1 & T2 & T3) & _ & T4). pose proof (seen_in s1 (fst q) (fun k => with_back k (snd q) o)) as T5. fold (st_back s1 q o) in *.
  set (s2 := st_back s1 q o) in *. assert (Hh : forall c, has_blk s2 c <-> has_blk s c) by (intros c; unfold has_blk; now rewrite W1, V1).
  assert (HB : forall p, bback (s_blk s2) p = if addr_eqb p q then Some o else bback (s_blk s) p) by (intros p; rewrite W3; destruct (addr_eqb p q); auto).
  assert (HM : forall p, mine s p -> mine s2 p).
  { intros p [M|[M1 M2]]; [now left|right]. rewrite T3, R3. split; auto. rewrite Hh, HB. destruct (addr_eqb p q); auto. }
  assert (Hq : mine s2 q) by (right; rewrite T3, R3; split; [exact Hm|]; intros _; rewrite HB; destruct (addr_eqb_spec q q); congruence).
  destruct P as [P1 P1' P2 P3 P4 P5 P6 P7 PX]. constructor; try congruence.
  - intros c Hc' Hh'. apply Hh in Hh'. destruct (P3 c Hc' Hh') as [F1 F2]. split.
    + intros j. rewrite W2, V2. destruct (Nat.eqb_spec c b); [lia|]. cbn. auto.
    + intros off. rewrite HB. destruct (addr_eqb_spec (c, off) q) as [Hc2|]; auto. rewrite <- Hc2 in Hm. cbn in Hm. lia.
  - intros c j d' Hc' Hd'. rewrite W2, V2 in Hd'. destruct ((c =? b) && (j =? i)) eqn:Hj; [|destruct (P4 c j d' Hc' Hd'); auto]. injection Hd' as <-. fold q. split; auto. split; [lia|auto].
  - intros w t Ht. rewrite T1, R1. auto.
  - intros Hph. destruct (P6 Hph) as [Q1 Q2]. split; [intros c Hc' Hh'; unfold has_b; rewrite W1, V1; now apply Q1|]. intros p x Hp Hx. rewrite W4, V4. auto.
  - destruct P7 as (l & L1 & L2). exists l. rewrite T5, R5. auto.
  - destruct PX as [Q1 Q2]. split; [intros c Hc' Ho Hh'; unfold has_b; rewrite W1, V1; now apply Q1|]. intros p x Hp Ho Hx. rewrite W4, V4. auto.
Qed.

(** ** Calls *)
Lemma k_tick ph s : K ph s -> K ph (add_call s).
Proof. intros P. eapply k_same; eauto. Qed.
Definition from_ok (s : st) (f : fn) (src : option addr) : Prop := forall q, src = Some q -> has_blk s (fst q) -> bback (s_blk s) q = Some (so f).

Lemma tr_construct s f m p src : building f = true -> K true s -> mine s p -> n0 <= fst p -> from_ok s f src -> tr true s (construct E U f m p src) T.
Proof.
  intros Hf P Hp Hn Hs s' r. destruct (vacant_cases E (add_call s) p) as [[Hb Hv]|[u Hu]].
  2:{ unfold construct. unfold bnd at 1, tick. unfold bnd at 1. rewrite Hu. intros [= <- <-]. exact Logic.I. }
  assert (Hsrc : (exists q u, src = Some q /\ live m q (add_call s) = (add_call s, Ub u)) \/
    ((exists v, match src with Some q => exists x, binst (s_blk s) q = Some x /\ i_mixin x = m /\ i_val x = v | None => v = an_val (cur_ans U s) end) /\ forall q, src = Some q -> bback (s_blk s) q = Some (so f))).
  { destruct src as [q|]; [|right; split; [eauto|discriminate]]. destruct (live_cases (add_call s) m q) as [(x & Hx & Hm)|[u Hu]]; [|left; eauto]. right. split; [exists (i_val x); eauto|].
    intros q' [= <-]. apply Hs; auto. eapply binst_has; eauto. }
  destruct Hsrc as [(q & u & -> & Hu)|[[v Hs'] Hg]].
  { unfold construct. unfold bnd at 1, tick. unfold bnd at 1. rewrite (vacant_step E (add_call s) p Hb Hv). unfold bnd at 1. unfold bnd at 1. rewrite Hu. intros [= <- <-]. exact Logic.I. }
  rewrite (construct_step E U s f m p src v Hb Hv Hs'). destruct (an_err (cur_ans U s) =? 0)%Z; intros [= <- <-].
  - split; [|exact Logic.I]. apply k_inst; auto; [now apply k_call|]. intros _ H. lia.
  - now apply k_call.
Qed.
Lemma mine_own s p : mine s p -> n0 <= fst p \/ own (fst p).
Proof. intros [(M1 & M2 & M3)|[M1 _]]; [now right|left; lia]. Qed.
Lemma mine_inst s p x : K true s -> mine s p -> binst (s_blk s) p = Some x -> true = true -> fst p < n0 -> bback B0 p = Some o /\ exists y, binst (s_blk s) p = Some y /\ i_mixin y = i_mixin x.
Proof. intros P [(M1 & M2 & _)|[M1 _]] Hx _ Hl; [|lia]. eauto. Qed.
Lemma tr_copy_asgn s m p src : K true s -> mine s p -> from_ok s FCopyAsgn (Some src) -> tr true s (copy_asgn U m p src) T.
Proof.
  intros P Hp Hs s' r. destruct (live_cases (add_call s) m p) as [(x & Hx & Hm)|[u Hu]].
  2:{ unfold copy_asgn. unfold bnd at 1, tick. unfold bnd at 1. rewrite Hu. intros [= <- <-]. exact Logic.I. }
  destruct (live_cases (add_call s) m src) as [(y & Hy & Hmy)|[u Hu]].
  2:{ unfold copy_asgn. unfold bnd at 1, tick. unfold bnd at 1. rewrite (live_step (add_call s) m p x Hx Hm). unfold bnd at 1. rewrite Hu. intros [= <- <-]. exact Logic.I. }
  rewrite (copy_asgn_step U s m p src x y Hx Hm Hy Hmy). pose proof (binst_has s p x Hx) as Hb.
  assert (Hq : forall q, Some src = Some q -> bback (s_blk s) q = Some (so FCopyAsgn)) by (intros q [= <-]; apply Hs; auto; eapply binst_has; eauto).
  assert (Hi : forall v e, K true (st_inst (st_call s FCopyAsgn m p (Some src) e) p {| i_mixin := m; i_val := v |})).
  { intros v e. apply k_inst; [now apply k_call|exact Hb|now apply (mine_own s)|]. intros Ht Hl. destruct (mine_inst s p x P Hp Hx Ht Hl) as (C1 & y' & C2 & C3). split; auto. exists y'. split; auto. cbn. congruence. }
  destruct (an_err (cur_ans U s) =? 0)%Z; intros [= <- <-]; [split; [auto|exact Logic.I]|auto].
Qed.
Lemma tr_update s k m p : K true s -> mine s p -> tr true s (update U k m p) T.
Proof.
  intros P Hp s' r. destruct (live_cases (add_call s) m p) as [(x & Hx & Hm)|[u Hu]].
  2:{ unfold update. unfold bnd at 1, tick. unfold bnd at 1. rewrite Hu. intros [= <- <-]. exact Logic.I. }
  rewrite (update_step U s k m p x Hx Hm). pose proof (binst_has s p x Hx) as Hb.
  assert (Hi : forall v e, K true (st_inst (st_call s (FUpdate k) m p None e) p {| i_mixin := m; i_val := v |})).
  { intros v e. apply k_inst; [apply k_call; [exact P|auto|exact Hp|exact Hb|discriminate]|exact Hb|now apply (mine_own s)|]. intros Ht Hl. destruct (mine_inst s p x P Hp Hx Ht Hl) as (C1 & y' & C2 & C3). split; auto. exists y'. split; auto. cbn. congruence. }
  destruct (an_err (cur_ans U s) =? 0)%Z; intros [= <- <-]; [split; [auto|exact Logic.I]|auto].
Qed.
Lemma tr_move_init s m p src : K false s -> mine s p -> from_ok s FMoveInit (Some src) -> n0 <= fst src \/ own (fst src) -> tr false s (move_init E U m p src) T.
Proof.
  intros P Hp Hs How s' r. destruct (vacant_cases E (add_call s) p) as [[Hb Hv]|[u Hu]].
  2:{ unfold move_init. unfold bnd at 1, tick. unfold bnd at 1. rewrite Hu. intros [= <- <-]. exact Logic.I. }
  destruct (live_cases (add_call s) m src) as [(x & Hx & Hm)|[u Hu]].
  2:{ unfold move_init. unfold bnd at 1, tick. unfold bnd at 1. rewrite (vacant_step E (add_call s) p Hb Hv). unfold bnd at 1. rewrite Hu. intros [= <- <-]. exact Logic.I. }
  rewrite (move_init_step E U s m p src x Hb Hv Hx Hm). intros [= <- <-]. split; [|exact Logic.I]. pose proof (binst_has s src x Hx) as Hb'.
  apply k_inst; [|apply has_blk_inst; exact Hb'|exact How|discriminate]. apply k_inst; [|exact Hb|now apply (mine_own s)|discriminate]. apply k_call; [exact P|discriminate|exact Hp|exact Hb|]. intros q [= <-]. now apply Hs.
Qed.
Lemma tr_move_asgn s m p src : K false s -> mine s p -> from_ok s FMoveAsgn (Some src) -> n0 <= fst src \/ own (fst src) -> tr false s (move_asgn U m p src) T.
Proof.
  intros P Hp Hs How s' r. destruct (live_cases (add_call s) m p) as [(y & Hy & Hmy)|[u Hu]].
  2:{ unfold move_asgn. unfold bnd at 1, tick. unfold bnd at 1. rewrite Hu. intros [= <- <-]. exact Logic.I. }
  destruct (live_cases (add_call s) m src) as [(x & Hx & Hm)|[u Hu]].
  2:{ unfold move_asgn. unfold bnd at 1, tick. unfold bnd at 1. rewrite (live_step (add_call s) m p y Hy Hmy). unfold bnd at 1. rewrite Hu. intros [= <- <-]. exact Logic.I. }
  rewrite (move_asgn_step U s m p src x y Hy Hmy Hx Hm). intros [= <- <-]. split; [|exact Logic.I]. pose proof (binst_has s p y Hy) as Hb. pose proof (binst_has s src x Hx) as Hb'.
  apply k_inst; [|apply has_blk_inst; exact Hb'|exact How|discriminate]. apply k_inst; [|exact Hb|now apply (mine_own s)|discriminate]. apply k_call; [exact P|discriminate|exact Hp|exact Hb|]. intros q [= <-]. now apply Hs.
Qed.
Lemma tr_destroy s m p : K false s -> mine s p -> tr false s (destroy E m p) T.
Proof.
  intros P Hp s' r. destruct (m_destroy (e_mixin E m)) eqn:Hd; [|rewrite destroy_null by auto; intros [= <- <-]; split; [auto|exact Logic.I]].
  destruct (live_cases s m p) as [(x & Hx & Hm)|[u Hu]].
  2:{ unfold destroy. rewrite Hd. unfold bnd at 1. rewrite Hu. intros [= <- <-]. exact Logic.I. }
  rewrite (destroy_step E s m p x Hx Hm Hd). intros [= <- <-]. split; [|exact Logic.I]. pose proof (binst_has s p x Hx) as Hb. apply k_del; [|exact Hb|now apply (mine_own s)]. now apply k_log_destroy.
Qed.
End Seen.
