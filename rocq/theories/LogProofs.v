(** All events are legal, whatever the program does *)
From Coq Require Import List Arith ZArith NArith Lia Bool.
From Verif Require Import Base Sv BaseLemmas Info TypeMut TypeBuild TypeQuery Domain Heap HeapProofs Mutation Object SpecObj SpecLog SpecSeen.
Import ListNotations.

Section LogP.
Variable E : env.
Variable U : user.

(** What a memory checker knows is what there is. *)
Definition seen (s : st) (v : view) : Prop :=
  (forall b, v_blk v b = allocation s b) /\ (forall p, v_inst v p = option_map i_mixin (instance s p)).
(** So it was at all events. *)
Definition shots (s : st) : Prop := map fst (s_seen s) = s_log s /\
  forall l1 e k l2, s_seen s = l1 ++ (e, k) :: l2 -> exists v, legal E (map fst l1) v /\ seen (at_time k) v.
(** No block is allocated twice. *)
Definition once (s : st) : Prop := forall b, times (is_alloc b) (s_log s) <= 1 /\ (s_next s <= b -> times (is_alloc b) (s_log s) = 0).
Definition linked (s : st) : Prop := (exists v, legal E (s_log s) v /\ seen s v) /\ (forall c, s_next s <= c -> s_blk s c = None) /\ shots s /\ once s.
(** Only allocations use up ids. *)
Definition ids (s : st) (e : ev) (s' : st) : Prop := match e with EvAlloc _ b _ _ => b = s_next s /\ s_next s' = S b | _ => s_next s' = s_next s end.

Definition keeps {A} (m : M st A) : Prop := forall s, linked s -> linked (fst (m s)).
Definition mkeeps {A} (m : M mst A) : Prop := forall p, linked (snd p) -> linked (snd (fst (m p))).

Definition view_of (s : st) : view := {| v_blk := allocation s; v_inst := fun p => option_map i_mixin (instance s p) |}.
Lemma seen_of s : seen s (view_of s).
Proof. split; reflexivity. Qed.

Lemma step_ext v w e v' : (forall b, v_blk w b = v_blk v b) -> (forall p, v_inst w p = v_inst v p) -> step E v e v' -> step E w e v'.
Proof.
  intros Hb Hi S. assert (Hf : forall p, free_place E v p -> free_place E w p) by (intros p H m; rewrite Hi; apply H).
  assert (Hg : forall m src, good_source v m src -> good_source w m src) by (intros m src H q Hq; rewrite Hi; exact (H q Hq)).
  destruct S; [eapply sp_alloc|eapply sp_free|eapply sp_construct|eapply sp_failed|eapply sp_assign|eapply sp_destroy]; unfold other_blocks, other_mixins, same_blocks, same_mixins in *; intros; rewrite ?Hb, ?Hi; eauto.
Qed.
Lemma times_snoc f l e : times f (l ++ [e]) = times f l + (if f e then 1 else 0).
Proof. unfold times. rewrite filter_app, app_length. cbn. destruct (f e); reflexivity. Qed.
(** The state after a legal event *)
Lemma snoc_split A (l : list A) x l1 y l2 : l ++ [x] = l1 ++ y :: l2 -> (l2 = [] /\ l = l1 /\ x = y) \/ exists l3, l = l1 ++ y :: l3.
Proof.
  revert l1. induction l as [|z l IH]; intros [|w l1] H; cbn in H.
  - injection H as -> <-. auto.
  - injection H as _ H. destruct l1; discriminate.
  - injection H as -> H. right. now exists l.
  - injection H as -> H. destruct (IH l1 H) as [(A1 & A2 & A3)|(l3 & A1)]; [left; subst; auto|right; exists l3; now subst].
Qed.
Definition shot_of (s : st) : snap := {| sn_w := s_w s; sn_blk := s_blk s; sn_obj := s_obj s |}.
Lemma linked_ev s s' e : linked s -> s_log s' = s_log s ++ [e] -> s_seen s' = s_seen s ++ [(e, shot_of s)] -> ids s e s' -> step E (view_of s) e (view_of s') -> (forall c, s_next s' <= c -> s_blk s' c = None) -> linked s'.
Proof.
  intros [(v & Hl & Hb & Hi) (Hn & (Q1 & Q2) & Q3)] He Hk Hid Hs Hn'. split; [|split; [exact Hn'|split; [split|]]].
  - exists (view_of s'). split; [|apply seen_of]. rewrite He. econstructor; [exact Hl|]. apply (step_ext (view_of s)); auto.
  - rewrite Hk, map_app, Q1, He. reflexivity.
  - intros l1 e' k l2 H. rewrite Hk in H. apply snoc_split in H. destruct H as [(_ & <- & [= <- <-])|(l3 & H)]; [|eauto]. exists v. rewrite Q1. split; [exact Hl|]. split; [exact Hb|exact Hi].
  - intros b. destruct (Q3 b) as [K1 K2]. rewrite He, times_snoc. destruct e as [a c sz al|a c sz al|f m p src err]; cbn [ids is_alloc] in *; rewrite ?Nat.add_0_r.
    + destruct Hid as [-> Hid]. rewrite Hid. destruct (Nat.eqb_spec (s_next s) b) as [<-|Hne]; [rewrite K2 by lia; split; lia|]. rewrite Nat.add_0_r. split; [exact K1|]. intros H. apply K2. lia.
    + now rewrite Hid.
    + now rewrite Hid.
Qed.
(** A change that no checker sees *)
Lemma linked_same s s' : linked s -> s_log s' = s_log s -> s_seen s' = s_seen s -> (forall b, allocation s' b = allocation s b) -> (forall p, instance s' p = instance s p) -> s_next s' = s_next s -> linked s'.
Proof.
  intros [(v & Hl & Hb & Hi) (Hn & (Q1 & Q2) & Q3)] He Hk Ha Hx Hne. split; [|split; [|split; [split|]]].
  - exists v. rewrite He. split; auto. split; intros; [rewrite Ha; auto|rewrite Hx; auto].
  - intros c Hc. rewrite Hne in Hc. specialize (Hn c Hc). specialize (Ha c). unfold allocation in Ha. rewrite Hn in Ha. destruct (s_blk s' c); [discriminate|reflexivity].
  - now rewrite Hk, He.
  - rewrite Hk. exact Q2.
  - intros b. rewrite He, Hne. apply Q3.
Qed.

(** ** Combinators *)
Lemma k_ret A (a : A) : keeps (ret a).
Proof. intros s H. exact H. Qed.
Lemma k_raise A e : keeps (raise e : M st A).
Proof. intros s H. exact H. Qed.
Lemma k_ub A u : keeps (ub u : M st A).
Proof. intros s H. exact H. Qed.
Lemma k_const A (f : st -> res A) : keeps (fun s => (s, f s)).
Proof. intros s H. exact H. Qed.
Lemma k_bnd A B (x : M st A) (f : A -> M st B) : keeps x -> (forall a, keeps (f a)) -> keeps (bnd x f).
Proof. intros Hx Hf s H. unfold bnd. specialize (Hx s H). destruct (x s) as [s1 [a|e|u]]; cbn in *; auto. apply Hf. exact Hx. Qed.
Lemma mk_ret A (a : A) : mkeeps (ret a).
Proof. intros s H. exact H. Qed.
Lemma mk_raise A e : mkeeps (raise e : M mst A).
Proof. intros s H. exact H. Qed.
Lemma mk_ub A u : mkeeps (ub u : M mst A).
Proof. intros s H. exact H. Qed.
Lemma mk_bnd A B (x : M mst A) (f : A -> M mst B) : mkeeps x -> (forall a, mkeeps (f a)) -> mkeeps (bnd x f).
Proof. intros Hx Hf s H. unfold bnd. specialize (Hx s H). destruct (x s) as [s1 [a|e|u]]; cbn in *; auto. apply Hf. exact Hx. Qed.
Lemma mk_lift A (x : M st A) : keeps x -> mkeeps (lift x).
Proof. intros Hx [mu s] H. unfold lift. specialize (Hx s H). cbn in *. destruct (x s). exact Hx. Qed.
Lemma mk_get_mu : mkeeps get_mu.
Proof. intros p H. exact H. Qed.
Lemma mk_set_mu f : mkeeps (set_mu f).
Proof. intros p H. exact H. Qed.
Lemma mk_get_mid : mkeeps get_mid.
Proof. intros p H. exact H. Qed.
Lemma k_get_obj o : keeps (get_obj o).
Proof. intros s H. unfold get_obj. destruct (s_obj s o); exact H. Qed.
Lemma k_get_ty r : keeps (get_ty r).
Proof. intros s H. unfold get_ty. destruct (w_type (s_w s) r); exact H. Qed.
Lemma k_put_obj o x : keeps (put_obj o x).
Proof. intros s H. eapply linked_same; eauto. Qed.
Lemma k_on_world A (f : world -> world * res A) : keeps (on_world f).
Proof. intros s H. eapply linked_same; eauto. Qed.

(** ** Memory *)
Lemma bounded s s' : (forall c, s_next s <= c -> s_blk s c = None) -> s_next s' = s_next s -> (forall c, s_blk s c = None -> s_blk s' c = None) -> forall c, s_next s' <= c -> s_blk s' c = None.
Proof. intros H1 H2 H3 c Hc. apply H3, H1. lia. Qed.

Lemma k_alloc a size align : keeps (alloc U a size align).
Proof.
  intros s H. unfold alloc, bnd, tick. destruct (an_err (u_ans U (s_calls s)) =? 0)%Z; [|eapply linked_same; eauto]. pose proof H as [_ [Hn _]].
  eapply linked_ev; [exact H|reflexivity|reflexivity|cbn; auto| |].
  - cbn. apply sp_alloc; cbn; unfold allocation, instance; cbn; unfold upd.
    + now rewrite Hn.
    + intros q. now rewrite Hn.
    + now rewrite Nat.eqb_refl.
    + intros c Hc. cbn. unfold allocation. cbn. unfold upd. apply Nat.eqb_neq in Hc. now rewrite Hc.
    + intros p. cbn. unfold instance. cbn. unfold upd. destruct (Nat.eqb_spec (fst p) (s_next s)) as [He|He]; [|reflexivity]. rewrite He. now rewrite Hn.
  - cbn. intros c Hc. unfold upd. destruct (Nat.eqb_spec c (s_next s)) as [->|]; [lia|]. apply Hn. lia.
Qed.

Lemma aget_in A k (l : list (N * A)) x : aget k l = Some x -> In k (map fst l).
Proof. induction l as [|[j y] l IH]; [discriminate|]. cbn. destruct (N.eqb_spec j k); [now left|right; auto]. Qed.
Lemma all_dead_free l k x : all_dead E l = true -> aget k l = Some x -> needs_destroy E x = false.
Proof.
  intros H Hx. unfold all_dead in H. rewrite forallb_forall in H. specialize (H k (aget_in _ _ _ _ Hx)). rewrite Hx in H. now apply negb_true_iff in H.
Qed.
Lemma aid_eq a b : aid_eqb a b = true -> a = b.
Proof. destruct a, b; cbn; try discriminate; intros H; apply Nat.eqb_eq in H; congruence. Qed.

Lemma k_free a b size align : keeps (free E a b size align).
Proof.
  intros s H. unfold free, bnd, get_blk. destruct (s_blk s b) as [k|] eqn:Hb; [|exact H].
  destruct (aid_eqb (b_alloc k) a && (b_size k =? size)%N && (b_align k =? align)%N) eqn:Hc; [|exact H]. apply andb_true_iff in Hc. destruct Hc as [Hc H3]. apply andb_true_iff in Hc. destruct Hc as [H1 H2].
  apply aid_eq in H1. apply N.eqb_eq in H2, H3. destruct (all_dead E (b_inst k)) eqn:Hd; [|exact H]. pose proof H as [_ [Hn _]]. eapply linked_ev; [exact H|reflexivity|reflexivity|cbn; auto| |].
  - cbn. apply sp_free; cbn; unfold allocation, instance; cbn; unfold upd.
    + rewrite Hb. congruence.
    + intros q m Hm. cbn in Hm. unfold instance in Hm. cbn in Hm. rewrite Hb in Hm. destruct (aget q (b_inst k)) as [x|] eqn:Hx; [|discriminate]. injection Hm as <-. exact (all_dead_free _ _ _ Hd Hx).
    + now rewrite Nat.eqb_refl.
    + intros c Hc. cbn. unfold allocation. cbn. unfold upd. apply Nat.eqb_neq in Hc. now rewrite Hc.
    + intros q. now rewrite Nat.eqb_refl.
    + intros p Hp. apply Nat.eqb_neq in Hp. now rewrite Hp.
  - cbn. intros c Hc. unfold upd. destruct (Nat.eqb c b); auto.
Qed.

Lemma blk_put s b k k' : s_blk s b = Some k -> (b_alloc k', b_size k', b_align k') = (b_alloc k, b_size k, b_align k) -> b_inst k' = b_inst k -> linked s -> linked (set_blk s b (Some k')).
Proof.
  intros Hb Ha Hi H. eapply linked_same; eauto.
  - intros c. unfold allocation. cbn. unfold upd. destruct (Nat.eqb_spec c b) as [->|]; [rewrite Hb; congruence|reflexivity].
  - intros p. unfold instance. cbn. unfold upd. destruct (Nat.eqb_spec (fst p) b) as [He|]; [rewrite He, Hb; congruence|reflexivity].
Qed.
Lemma k_read_data b i : keeps (read_data b i).
Proof. intros s H. unfold read_data, bnd, get_blk. destruct (s_blk s b) as [k|]; [|exact H]. destruct (b_data k i); exact H. Qed.
Lemma k_write_data b i d : keeps (write_data b i d).
Proof. intros s H. unfold write_data, bnd, get_blk. destruct (s_blk s b) as [k|] eqn:Hb; [|exact H]. eapply blk_put; eauto. Qed.
Lemma k_set_object p o : keeps (set_object p o).
Proof. intros s H. unfold set_object, bnd, get_blk. destruct (s_blk s (fst p)) as [k|] eqn:Hb; [|exact H]. eapply blk_put; eauto. Qed.

(** ** Calls *)
Lemma live_cases s m p : (exists x, binst (s_blk s) p = Some x /\ i_mixin x = m) \/ exists u, live m p s = (s, Ub u).
Proof.
  unfold live, binst, bnd, get_blk. destruct (s_blk s (fst p)) as [k|]; [|right; eexists; reflexivity]. destruct (aget (snd p) (b_inst k)) as [x|]; [|right; eexists; reflexivity].
  destruct (Nat.eqb_spec (i_mixin x) m); [left; eauto|right; eexists; reflexivity].
Qed.
Lemma vacant_cases s p : (has_blk s (fst p) /\ vacant_at E s p) \/ exists u, vacant E p s = (s, Ub u).
Proof.
  unfold vacant, vacant_at, has_blk, battr, binst, bnd, get_blk. destruct (s_blk s (fst p)) as [k|]; [|right; eexists; reflexivity]. destruct (aget (snd p) (b_inst k)) as [x|].
  - destruct (needs_destroy E x) eqn:Hd; [right; eexists; reflexivity|]. left. split; [discriminate|]. intros y [= <-]. exact Hd.
  - left. split; discriminate.
Qed.
Lemma ticked s : linked s -> linked (add_call s).
Proof. intros H. eapply linked_same; eauto. Qed.
Lemma in_blk_seen s b f : s_seen (in_blk s b f) = s_seen s.
Proof. unfold in_blk. now destruct (s_blk s b). Qed.
Lemma step_inst s f m p src e v : has_blk s (fst p) -> let s' := st_inst (st_call s f m p src e) p {| i_mixin := m; i_val := v |} in
  (s_log s' = s_log s ++ [EvCall f m p src e] /\ s_seen s' = s_seen s ++ [(EvCall f m p src e, shot_of s)]) /\ s_next s' = s_next s /\ (forall b, allocation s' b = allocation s b) /\
  (forall q, instance s' q = if addr_eqb q p then Some {| i_mixin := m; i_val := v |} else instance s q) /\ (forall c, s_blk s c = None -> s_blk s' c = None).
Proof.
  intros Hb. destruct (st_inst_views (st_call s f m p src e) p {| i_mixin := m; i_val := v |} Hb) as (V1 & V2 & V3 & V4). destruct (in_blk_rest (st_call s f m p src e) (fst p) (fun k => with_inst k (aset (snd p) {| i_mixin := m; i_val := v |} (b_inst k)))) as ((_ & _ & R1) & _ & R2).
  cbv zeta. split; [split; [exact R2|apply in_blk_seen]|]. split; [exact R1|]. split; [exact V1|]. split; [exact V4|]. intros c Hc. apply in_blk_none. exact Hc.
Qed.

Lemma vacant_free s p : vacant_at E s p -> free_place E (view_of s) p.
Proof. intros H m Hm. cbn in Hm. change (instance s p) with (binst (s_blk s) p) in Hm. destruct (binst (s_blk s) p) as [x|] eqn:Hx; [|discriminate]. injection Hm as <-. exact (H x Hx). Qed.
Lemma blk_alloc s b : has_blk s b -> v_blk (view_of s) b <> None.
Proof. intros H. exact H. Qed.
Lemma inst_alive s p x m : binst (s_blk s) p = Some x -> i_mixin x = m -> v_inst (view_of s) p = Some m.
Proof. intros H <-. cbn. change (instance s p) with (binst (s_blk s) p). now rewrite H. Qed.

Lemma k_construct f m p src : constructs f = true -> keeps (construct E U f m p src).
Proof.
  intros Hf s H. destruct (vacant_cases (add_call s) p) as [[Hb Hv]|[u Hu]].
  2:{ unfold construct. unfold bnd at 1, tick. unfold bnd at 1. rewrite Hu. now apply ticked. }
  assert (Hsrc : (exists q u, src = Some q /\ live m q (add_call s) = (add_call s, Ub u)) \/
    ((exists v, match src with Some q => exists x, binst (s_blk s) q = Some x /\ i_mixin x = m /\ i_val x = v | None => v = an_val (cur_ans U s) end) /\ good_source (view_of s) m src)).
  { destruct src as [q|]; [|right; split; [eauto|discriminate]]. destruct (live_cases (add_call s) m q) as [(x & Hx & Hm)|[u Hu]]; [|left; eauto]. right. split; [exists (i_val x); eauto|].
    intros q' [= <-]. eapply inst_alive; eauto. }
  destruct Hsrc as [(q & u & -> & Hu)|[[v Hs] Hg]].
  { unfold construct. unfold bnd at 1, tick. unfold bnd at 1. rewrite (vacant_step E (add_call s) p Hb Hv). unfold bnd at 1. unfold bnd at 1. rewrite Hu. now apply ticked. }
  rewrite (construct_step E U s f m p src v Hb Hv Hs). destruct (Z.eqb_spec (an_err (cur_ans U s)) 0) as [He|He]; cbn [fst].
  - destruct (step_inst s f m p src 0 v Hb) as (S1 & S2 & S3 & S4 & S5). pose proof H as [_ [Hn _]]. eapply linked_ev; [exact H|apply S1|apply S1|exact S2| |eapply bounded; eauto].
    apply sp_construct; auto.
    + now apply vacant_free.
    + cbn. rewrite S4. now rewrite addr_eqb_refl.
    + intros q Hq. cbn. rewrite S4. destruct (addr_eqb_spec q p); [congruence|reflexivity].
  - pose proof H as [_ [Hn _]]. eapply linked_ev; [exact H|reflexivity|reflexivity|cbn; auto| |exact Hn]. apply sp_failed; auto; [now apply vacant_free| |]; intros x; reflexivity.
Qed.

Lemma k_copy_asgn m p src : keeps (copy_asgn U m p src).
Proof.
  intros s H. destruct (live_cases (add_call s) m p) as [(x & Hx & Hm)|[u Hu]].
  2:{ unfold copy_asgn. unfold bnd at 1, tick. unfold bnd at 1. rewrite Hu. now apply ticked. }
  destruct (live_cases (add_call s) m src) as [(y & Hy & Hmy)|[u Hu]].
  2:{ unfold copy_asgn. unfold bnd at 1, tick. unfold bnd at 1. rewrite (live_step (add_call s) m p x Hx Hm). unfold bnd at 1. rewrite Hu. now apply ticked. }
  rewrite (copy_asgn_step U s m p src x y Hx Hm Hy Hmy). pose proof (binst_has s p x Hx) as Hb. pose proof H as [_ [Hn _]].
  assert (Hst : forall e v, linked (st_inst (st_call s FCopyAsgn m p (Some src) e) p {| i_mixin := m; i_val := v |})).
  { intros e v. destruct (step_inst s FCopyAsgn m p (Some src) e v Hb) as (S1 & S2 & S3 & S4 & S5). eapply linked_ev; [exact H|apply S1|apply S1|exact S2| |eapply bounded; eauto]. apply sp_assign; auto.
    - eapply inst_alive; eauto.
    - intros q [= <-]. eapply inst_alive; eauto.
    - intros q. cbn. rewrite S4. destruct (addr_eqb_spec q p) as [->|]; [|reflexivity]. change (instance s p) with (binst (s_blk s) p). change (s_blk (add_call s)) with (s_blk s) in Hx. rewrite Hx. cbn. congruence.
  }
  destruct (an_err (cur_ans U s) =? 0)%Z; apply Hst.
Qed.
Lemma k_update k m p : keeps (update U k m p).
Proof.
  intros s H. destruct (live_cases (add_call s) m p) as [(x & Hx & Hm)|[u Hu]].
  2:{ unfold update. unfold bnd at 1, tick. unfold bnd at 1. rewrite Hu. now apply ticked. }
  rewrite (update_step U s k m p x Hx Hm). pose proof (binst_has s p x Hx) as Hb. pose proof H as [_ [Hn _]]. cbn [fst].
  destruct (step_inst s (FUpdate k) m p None (an_err (cur_ans U s)) (an_val (cur_ans U s)) Hb) as (S1 & S2 & S3 & S4 & S5). eapply linked_ev; [exact H|apply S1|apply S1|exact S2| |eapply bounded; eauto]. apply sp_assign; auto.
  - eapply inst_alive; eauto.
  - discriminate.
  - intros q. cbn. rewrite S4. destruct (addr_eqb_spec q p) as [->|]; [|reflexivity]. change (instance s p) with (binst (s_blk s) p). change (s_blk (add_call s)) with (s_blk s) in Hx. rewrite Hx. cbn. congruence.
Qed.

Lemma step_inst2 s f m p src e v v' : has_blk s (fst p) -> has_blk s (fst src) -> let s' := st_inst (st_inst (st_call s f m p (Some src) e) p {| i_mixin := m; i_val := v |}) src {| i_mixin := m; i_val := v' |} in
  (s_log s' = s_log s ++ [EvCall f m p (Some src) e] /\ s_seen s' = s_seen s ++ [(EvCall f m p (Some src) e, shot_of s)]) /\ s_next s' = s_next s /\ (forall b, allocation s' b = allocation s b) /\
  (forall q, instance s' q = if addr_eqb q src then Some {| i_mixin := m; i_val := v' |} else if addr_eqb q p then Some {| i_mixin := m; i_val := v |} else instance s q) /\ (forall c, s_blk s c = None -> s_blk s' c = None).
Proof.
  intros Hb Hb2. destruct (step_inst s f m p (Some src) e v Hb) as (S1 & S2 & S3 & S4 & S5). set (s1 := st_inst (st_call s f m p (Some src) e) p {| i_mixin := m; i_val := v |}) in *.
  assert (Hb3 : has_blk s1 (fst src)) by (apply has_blk_inst; exact Hb2).
  destruct (st_inst_views s1 src {| i_mixin := m; i_val := v' |} Hb3) as (V1 & V2 & V3 & V4). destruct (in_blk_rest s1 (fst src) (fun k => with_inst k (aset (snd src) {| i_mixin := m; i_val := v' |} (b_inst k)))) as ((_ & _ & R1) & _ & R2).
  cbv zeta. split; [split; [etransitivity; [exact R2|apply S1]|etransitivity; [apply in_blk_seen|apply S1]]|]. split; [etransitivity; [exact R1|exact S2]|]. split; [intros b; etransitivity; [exact (V1 b)|exact (S3 b)]|]. split.
  - intros q. etransitivity; [exact (V4 q)|]. destruct (addr_eqb q src); [reflexivity|]. exact (S4 q).
  - intros c Hc. apply in_blk_none. now apply S5.
Qed.

Lemma k_move_init m p src : keeps (move_init E U m p src).
Proof.
  intros s H. destruct (vacant_cases (add_call s) p) as [[Hb Hv]|[u Hu]].
  2:{ unfold move_init. unfold bnd at 1, tick. unfold bnd at 1. rewrite Hu. now apply ticked. }
  destruct (live_cases (add_call s) m src) as [(x & Hx & Hm)|[u Hu]].
  2:{ unfold move_init. unfold bnd at 1, tick. unfold bnd at 1. rewrite (vacant_step E (add_call s) p Hb Hv). unfold bnd at 1. rewrite Hu. now apply ticked. }
  rewrite (move_init_step E U s m p src x Hb Hv Hx Hm). pose proof H as [_ [Hn _]]. pose proof (binst_has s src x Hx) as Hb2. cbn [fst].
  destruct (step_inst2 s FMoveInit m p src 0 (i_val x) (an_val (cur_ans U s)) Hb Hb2) as (S1 & S2 & S3 & S4 & S5). eapply linked_ev; [exact H|apply S1|apply S1|exact S2| |eapply bounded; eauto]. apply sp_construct; auto.
  - now apply vacant_free.
  - intros q [= <-]. eapply inst_alive; eauto.
  - cbn. rewrite S4. rewrite addr_eqb_refl. destruct (addr_eqb p src); reflexivity.
  - intros q Hq. cbn. rewrite S4. destruct (addr_eqb_spec q src) as [->|].
    + change (instance s src) with (binst (s_blk s) src). change (s_blk (add_call s)) with (s_blk s) in Hx. rewrite Hx. cbn. congruence.
    + destruct (addr_eqb_spec q p); [congruence|reflexivity].
Qed.
Lemma k_move_asgn m p src : keeps (move_asgn U m p src).
Proof.
  intros s H. destruct (live_cases (add_call s) m p) as [(y & Hy & Hmy)|[u Hu]].
  2:{ unfold move_asgn. unfold bnd at 1, tick. unfold bnd at 1. rewrite Hu. now apply ticked. }
  destruct (live_cases (add_call s) m src) as [(x & Hx & Hm)|[u Hu]].
  2:{ unfold move_asgn. unfold bnd at 1, tick. unfold bnd at 1. rewrite (live_step (add_call s) m p y Hy Hmy). unfold bnd at 1. rewrite Hu. now apply ticked. }
  rewrite (move_asgn_step U s m p src x y Hy Hmy Hx Hm). pose proof H as [_ [Hn _]]. pose proof (binst_has s src x Hx) as Hb2. pose proof (binst_has s p y Hy) as Hb. cbn [fst].
  destruct (step_inst2 s FMoveAsgn m p src 0 (i_val x) (an_val (cur_ans U s)) Hb Hb2) as (S1 & S2 & S3 & S4 & S5). eapply linked_ev; [exact H|apply S1|apply S1|exact S2| |eapply bounded; eauto]. apply sp_assign; auto.
  - eapply inst_alive; eauto.
  - intros q [= <-]. eapply inst_alive; eauto.
  - intros q. cbn. rewrite S4. change (s_blk (add_call s)) with (s_blk s) in Hx, Hy. destruct (addr_eqb_spec q src) as [->|].
    + change (instance s src) with (binst (s_blk s) src). rewrite Hx. cbn. congruence.
    + destruct (addr_eqb_spec q p) as [->|]; [|reflexivity]. change (instance s p) with (binst (s_blk s) p). rewrite Hy. cbn. congruence.
Qed.
Lemma k_destroy m p : keeps (destroy E m p).
Proof.
  intros s H. destruct (m_destroy (e_mixin E m)) eqn:Hd; [|rewrite destroy_null by auto; exact H].
  destruct (live_cases s m p) as [(x & Hx & Hm)|[u Hu]].
  2:{ unfold destroy. rewrite Hd. unfold bnd at 1. rewrite Hu. exact H. }
  rewrite (destroy_step E s m p x Hx Hm Hd). pose proof H as [_ [Hn _]]. pose proof (binst_has s p x Hx) as Hb. cbn [fst]. set (s1 := add_log s (EvCall FDestroy m p None 0)).
  destruct (st_del_views s1 p Hb) as (V1 & V2 & V3 & V4). destruct (in_blk_rest s1 (fst p) (fun k => with_inst k (adel (snd p) (b_inst k)))) as ((_ & _ & R1) & _ & R2).
  eapply linked_ev; [exact H|exact R2|apply in_blk_seen|exact R1| |eapply bounded; [exact Hn|exact R1|intros c Hc; apply in_blk_none; exact Hc]]. apply sp_destroy; auto.
  - eapply inst_alive; eauto.
  - change (v_inst (view_of (st_del s1 p)) p) with (option_map i_mixin (binst (s_blk (st_del s1 p)) p)). rewrite V4. now rewrite addr_eqb_refl.
  - intros q Hq. change (v_inst (view_of (st_del s1 p)) q) with (option_map i_mixin (binst (s_blk (st_del s1 p)) q)). rewrite V4. destruct (addr_eqb_spec q p); [congruence|reflexivity].
Qed.

(** ** Everything else is built from these *)
Hint Resolve k_ret k_raise k_ub k_const mk_ret mk_raise mk_ub mk_get_mu mk_set_mu mk_get_mid k_get_obj k_get_ty k_put_obj k_on_world k_alloc k_free k_read_data k_write_data k_set_object
  k_copy_asgn k_update k_move_init k_move_asgn k_destroy mk_lift : keeps.
Hint Extern 1 (keeps (construct _ _ _ _ _ _)) => apply k_construct; reflexivity : keeps.
Ltac kp := repeat first [ progress eauto with keeps | simple apply k_bnd; [|intros ?] | simple apply mk_bnd; [|intros ?] | simple apply mk_lift
  | match goal with
    | |- keeps (match ?x with _ => _ end) => destruct x
    | |- mkeeps (match ?x with _ => _ end) => destruct x
    | |- mkeeps (lift (match ?x with _ => _ end)) => destruct x
    end ].

Lemma mk_target_mixin mu i : mkeeps (target_mixin mu i).
Proof. unfold target_mixin. kp. Qed.
Lemma mk_target_offset mu i : mkeeps (target_offset mu i).
Proof. unfold target_offset. kp. Qed.
Lemma mk_target_data mu : mkeeps (target_data mu).
Proof. unfold target_data. kp. Qed.
Hint Resolve mk_target_mixin mk_target_offset mk_target_data : keeps.
Lemma k_aob r t a : keeps (allocate_object_buffer U r t a).
Proof. unfold allocate_object_buffer. kp. Qed.
Lemma k_dob r t a b : keeps (deallocate_object_buffer E r t a b).
Proof. unfold deallocate_object_buffer. kp. Qed.
Lemma k_alloc_external o m : keeps (alloc_external E U o m).
Proof. unfold alloc_external. kp. Qed.
Lemma k_free_external o m b : keeps (free_external E o m b).
Proof. unfold free_external. kp. Qed.
Hint Resolve k_aob k_dob k_alloc_external k_free_external : keeps.
Lemma mk_alloc_one i : mkeeps (alloc_one E U i).
Proof. unfold alloc_one. kp. Qed.
Hint Resolve mk_alloc_one : keeps.
Lemma mk_alloc_loop l : mkeeps (alloc_loop E U l).
Proof. induction l; cbn [alloc_loop]; kp. Qed.
Hint Resolve mk_alloc_loop : keeps.
Lemma mk_allocate : mkeeps (allocate_mixin_data E U).
Proof. unfold allocate_mixin_data. kp. Qed.
Lemma mk_dealloc_one i : mkeeps (dealloc_one E i).
Proof. unfold dealloc_one. kp. Qed.
Lemma mk_down f n : (forall i, mkeeps (f i)) -> mkeeps (down_loop f n).
Proof. intros H. induction n; cbn [down_loop]; kp. Qed.
Lemma mk_destroy_one i : mkeeps (destroy_one E i).
Proof. unfold destroy_one. kp. Qed.
Hint Resolve mk_allocate mk_dealloc_one mk_down mk_destroy_one : keeps.
Lemma mk_deallocate : mkeeps (deallocate_mixin_data E).
Proof. unfold deallocate_mixin_data. kp. Qed.
Lemma mk_destroy_new : mkeeps (destroy_new_mixins E).
Proof. unfold destroy_new_mixins. kp. Qed.
Hint Resolve mk_deallocate mk_destroy_new : keeps.
Lemma mk_rollback : mkeeps (rollback E).
Proof. unfold rollback. kp. Qed.
Lemma mk_finalize_one ob ot i : mkeeps (finalize_one E U ob ot i).
Proof. unfold finalize_one. kp. Qed.
Hint Resolve mk_rollback mk_finalize_one : keeps.
Lemma mk_finalize_loop ob ot l : mkeeps (finalize_loop E U ob ot l).
Proof. induction l; cbn [finalize_loop]; kp. Qed.
Lemma mk_install : mkeeps install.
Proof. unfold install. kp. Qed.
Hint Resolve mk_finalize_loop mk_install : keeps.
Lemma mk_finalize : mkeeps (finalize E U).
Proof. unfold finalize. kp. Qed.
Hint Resolve mk_finalize : keeps.

Definition cbk (cn : cb_new) : Prop := forall m p i, keeps (cn m p i).
Definition ucbk (uc : cb_common) : Prop := forall m p i j, keeps (uc m p i j).
Lemma mk_update_next cn uc : cbk cn -> ucbk uc -> mkeeps (update_next cn uc).
Proof. intros H1 H2. unfold cbk, ucbk in *. unfold update_next. kp. Qed.
Hint Resolve mk_update_next : keeps.
Lemma mk_turns cn uc n : cbk cn -> ucbk uc -> mkeeps (update_turns cn uc n).
Proof. intros H1 H2. induction n; cbn [update_turns]; kp. Qed.
Hint Resolve mk_turns : keeps.
Lemma mk_each cn uc u : cbk cn -> ucbk uc -> mkeeps (update_each cn uc u).
Proof. intros H1 H2. unfold update_each. kp. Qed.
Lemma ck_noop : ucbk noop_common.
Proof. intros m p i j. unfold noop_common. kp. Qed.
Lemma ck_default : cbk (default_init E U).
Proof. intros m p i. unfold default_init. kp. Qed.
Hint Resolve mk_each ck_noop ck_default : keeps.
Lemma mk_default u : mkeeps (default_each E U u).
Proof. unfold default_each, construct_each. kp. Qed.
Hint Resolve mk_default : keeps.
Lemma mk_update_at i cn uc : cbk cn -> ucbk uc -> mkeeps (update_at E U i cn uc).
Proof. intros H1 H2. unfold update_at. kp. Qed.
Hint Resolve mk_update_at : keeps.
Lemma mk_start x : mkeeps (start E U x).
Proof. unfold start. kp. Qed.
Lemma mk_unwind A e : mkeeps (unwind E e : M mst A).
Proof. unfold unwind. kp. Qed.
Hint Resolve mk_start mk_unwind : keeps.
Lemma mk_catch A (x : M mst unit) (f : exn -> M mst A) (g : unit -> M mst A) : mkeeps x -> (forall e, mkeeps (f e)) -> (forall a, mkeeps (g a)) ->
  mkeeps (fun p => match x p with (p', Throw e) => f e p' | (p', Ok a) => g a p' | (p', Ub u) => (p', Ub u) end).
Proof. intros H1 H2 H3 p H. specialize (H1 p H). destruct (x p) as [p' [a|e|u]]; cbn in *; [apply H3|apply H2|]; exact H1. Qed.
Lemma mk_finish unw : mkeeps (finish E U unw).
Proof.
  unfold finish. kp. apply (mk_catch unit (default_each E U None) (fun e => rollback E;; raise e) (fun _ => finalize E U)); intros; kp.
Qed.
Hint Resolve mk_finish : keeps.
Lemma k_get_old x : keeps (get_old x).
Proof. unfold get_old. kp. Qed.
Hint Resolve k_get_old : keeps.
Lemma k_perform unw o r body : mkeeps body -> keeps (perform E U unw o r body).
Proof.
  intros Hb. unfold perform. kp. intros s H.
  assert (H1 : mkeeps (start E U a;; body)) by kp. specialize (H1 (new_mut o a a0 r a1, s) H). destruct ((start E U a;; body) (new_mut o a a0 r a1, s)) as [p [x|e|u]]; cbn in H1.
  - pose proof (mk_finish unw p H1) as H2. destruct (finish E U unw p) as [[mu' s'] res]. exact H2.
  - pose proof (mk_unwind unit e p H1) as H2. destruct (unwind E e p) as [[mu' s'] res]. exact H2.
  - destruct p. exact H1.
Qed.
Hint Resolve k_perform : keeps.

(** ** Objects *)
Lemma k_the_type x : keeps (the_type x).
Proof. unfold the_type. kp. Qed.
Lemma k_fresh o : keeps (fresh_obj o).
Proof. intros s H. unfold fresh_obj. destruct (s_obj s o); exact H. Qed.
Lemma k_mod o f : keeps (mod_obj o f).
Proof. unfold mod_obj. kp. Qed.
Lemma k_run_mut mu a : mkeeps a -> keeps (run_mut mu a).
Proof. intros Ha s H. unfold run_mut. specialize (Ha (mu, s) H). destruct (a (mu, s)) as [[mu' s'] r]. exact Ha. Qed.
Hint Resolve k_the_type k_fresh k_mod k_run_mut : keeps.
Lemma k_clear_data o : keeps (clear_mixin_data E o).
Proof. unfold clear_mixin_data. kp. Qed.
Lemma k_redirect b o l : keeps (redirect_loop b o l).
Proof. induction l; cbn [redirect_loop]; kp. Qed.
Hint Resolve k_clear_data k_redirect : keeps.
Lemma k_usurp o src : keeps (usurp o src).
Proof. unfold usurp. kp. Qed.
Lemma k_dtor o : keeps (obj_dtor E o).
Proof. unfold obj_dtor. kp. Qed.
Lemma k_reset unw o r : keeps (reset_type E U unw o r).
Proof. unfold reset_type. kp. Qed.
Hint Resolve k_usurp k_dtor k_reset : keeps.
Lemma k_with_new o a body : keeps body -> keeps (with_new E o a body).
Proof.
  intros Hb. unfold with_new. kp. intros s H. specialize (Hb s H). destruct (body s) as [s' [x|e|u]]; cbn in *; auto.
  assert (Hk : keeps (obj_dtor E o;; raise e : M st unit)) by kp. now apply Hk.
Qed.
Hint Resolve k_with_new : keeps.
Lemma k_data_at x i : keeps (data_at x i).
Proof. unfold data_at. kp. Qed.
Lemma k_the_mid : keeps the_mid.
Proof. intros s H. exact H. Qed.
Hint Resolve k_data_at k_the_mid : keeps.
Lemma ck_copy_new y : cbk (copy_new E U y).
Proof. intros m p i. unfold copy_new. kp. Qed.
Lemma ck_copy_common y : ucbk (copy_common E U y).
Proof. intros m p i j. unfold copy_common. kp. Qed.
Lemma ck_copy_checked y : cbk (copy_new_checked E U y).
Proof. intros m p i. unfold copy_new_checked. kp. Qed.
Hint Resolve ck_copy_new ck_copy_common ck_copy_checked : keeps.
Lemma mk_construct_each cn u : cbk cn -> mkeeps (construct_each cn u).
Proof. intros H. unfold construct_each. kp. Qed.
Hint Resolve mk_construct_each : keeps.
Lemma k_cmatch_loop mid x y own l : keeps (copy_matching_loop E U mid x y own l).
Proof. induction l as [|[i m] l IH]; cbn [copy_matching_loop]; kp. Qed.
Lemma k_mmatch_loop fb mid x y own l : keeps (move_matching_loop E U fb mid x y own l).
Proof. induction l as [|[i m] l IH]; cbn [move_matching_loop]; kp. Qed.
Hint Resolve k_cmatch_loop k_mmatch_loop : keeps.
Lemma ck_do_init k m : cbk (do_init E U k m).
Proof. intros m' p i. unfold do_init. kp. Qed.
Hint Resolve ck_do_init : keeps.
Lemma mk_ops_loop l : mkeeps (ops_loop E U l).
Proof. induction l as [|[[k m] i] l IH]; cbn [ops_loop]; kp. Qed.
Hint Resolve mk_ops_loop : keeps.
Lemma k_mutate_to unw o r ops : keeps (mutate_to E U unw o r ops).
Proof. unfold mutate_to. kp. Qed.
Lemma k_mutated_type aok t f : keeps (mutated_type E aok t f).
Proof. unfold mutated_type. kp. Qed.
Hint Resolve k_mutate_to k_mutated_type : keeps.
Lemma ck_wrap_init c : cbk (wrap_init E U c).
Proof. intros m p i. unfold wrap_init. destruct (co_init c); kp. Qed.
Lemma ck_wrap_update c : ucbk (wrap_update U c).
Proof. intros m p i j. unfold wrap_update. destruct (co_update c); kp. Qed.
Lemma ck_wrap_cop c : cbk (wrap_cop E U c).
Proof. intros m p i. unfold wrap_cop. destruct (cp_init c); kp. Qed.
Lemma ck_user_new k : cbk (user_new E U k).
Proof. intros m p i. unfold user_new. kp. Qed.
Lemma ck_user_common k : ucbk (user_common U k).
Proof. intros m p i j. unfold user_common. kp. Qed.
Hint Resolve ck_wrap_init ck_wrap_update ck_wrap_cop ck_user_new ck_user_common : keeps.
Lemma mk_cover_loop cs l : mkeeps (cover_loop E U cs l).
Proof. induction l as [|[i m] l IH]; cbn [cover_loop]; kp. Qed.
Lemma mk_cop_loop cs l : mkeeps (cop_loop E U cs l).
Proof. induction l as [|[i m] l IH]; cbn [cop_loop]; kp. Qed.
Lemma mk_pstep p : mkeeps (run_pstep E U p).
Proof. destruct p; cbn [run_pstep]; kp. Qed.
Hint Resolve mk_cover_loop mk_cop_loop mk_pstep : keeps.
Lemma mk_psteps l : mkeeps (run_psteps E U l).
Proof. induction l; cbn [run_psteps]; kp. Qed.
Hint Resolve mk_psteps : keeps.

Lemma k_op op : keeps (op_run E U op).
Proof.
  destruct op; cbn [op_run]; unfold new_empty, new_of_type, new_moved, move_assign, copy, copy_from, copy_matching_from, move_matching_from, clear, seal, mutate, gradual, c_mutate_to, c_mutate, piecewise, use_mixin; repeat first [progress kp | simple apply k_with_new].
Qed.

Lemma linked_init : linked (init_st E).
Proof. split; [|split; [auto|split; [split; [reflexivity|intros [|? ?] e k l2 H; discriminate]|split; cbn; auto]]]. exists (view_of (init_st E)). split; [constructor; reflexivity|apply seen_of]. Qed.

(** This holds for all programs, also for those that do not respect the contracts, until they run into undefined
    behaviour. *)
Lemma orun_linked ok tr s : orun E U ok tr s -> linked s.
Proof. induction 1 as [|tr s op r s' _ IH _ Hrun _]; [apply linked_init|]. pose proof (k_op op s IH) as H. now rewrite Hrun in H. Qed.

(** ** Counting *)
Definition one {A} (x : option A) : nat := match x with Some _ => 1 | None => 0 end.
Lemma count_blocks l v b : legal E l v -> times (is_alloc b) l = times (is_free b) l + one (v_blk v b).
Proof.
  induction 1 as [v Hb Hi|l v e v' _ IH S]; [now rewrite Hb|]. rewrite !times_snoc. destruct S; cbn [is_alloc is_free]; try (rewrite H4 || rewrite H5 || rewrite H6; lia).
  - destruct (Nat.eqb_spec b0 b) as [->|Hn]; [rewrite H1; rewrite H in IH; cbn in *; lia|]. rewrite H2 by auto. lia.
  - destruct (Nat.eqb_spec b0 b) as [->|Hn]; [rewrite H1; rewrite H in IH; cbn in *; lia|]. rewrite H2 by auto. lia.
Qed.
Definition mixin_here (x : option mptr) (m : mptr) : nat := match x with Some y => if y =? m then 1 else 0 | None => 0 end.
Lemma same_addr_spec p q : reflect (p = q) (same_addr p q).
Proof. exact (addr_eqb_spec p q). Qed.
Lemma count_mixins l v m p : m_destroy (e_mixin E m) = true -> legal E l v -> times (is_birth m p) l = times (is_death m p) l + mixin_here (v_inst v p) m.
Proof.
  intros Hm. induction 1 as [v Hb Hi|l v e v' _ IH S]; [now rewrite Hi|]. rewrite !times_snoc. destruct S; cbn [is_birth is_death].
  - rewrite H3. lia.
  - destruct (Nat.eq_dec (fst p) b) as [He|Hn]; [|rewrite H4 by auto; lia]. destruct p as [c q]. cbn in He. subst c. rewrite H3. specialize (H0 q). unfold free_place in H0.
    destruct (v_inst v (b, q)) as [m'|]; cbn in *; [|lia]. destruct (Nat.eqb_spec m' m) as [->|]; [|lia]. specialize (H0 m eq_refl). congruence.
  - rewrite H. cbn. assert (Hd : (match f with FDestroy => (m0 =? m) && same_addr p0 p | _ => false end) = false) by (destruct f; auto; discriminate). rewrite Hd. clear Hd.
    destruct (same_addr_spec p0 p) as [->|Hn].
    + rewrite H3. unfold free_place in H1. rewrite andb_true_r, andb_true_r. destruct (v_inst v p) as [m'|]; unfold mixin_here in *.
      * destruct (Nat.eqb_spec m' m) as [->|]; [specialize (H1 m eq_refl); congruence|]. destruct (m0 =? m); lia.
      * destruct (m0 =? m); lia.
    + rewrite H4 by auto. rewrite andb_false_r. cbn. lia.
  - assert (Hd : (match f with FDestroy => (m0 =? m) && same_addr p0 p | _ => false end) = false) by (destruct f; auto; discriminate). rewrite Hd. clear Hd. rewrite H4.
    assert (He : (err =? 0)%Z = false) by now apply Z.eqb_neq. rewrite He, andb_false_r. lia.
  - assert (Hd : (match f with FDestroy => (m0 =? m) && same_addr p0 p | _ => false end) = false) by (destruct f; auto; discriminate). rewrite Hd. clear Hd. rewrite H3.
    assert (Hc : constructs f = false) by (destruct f; auto; discriminate). rewrite Hc. cbn. lia.
  - cbn. destruct (same_addr_spec p0 p) as [->|Hn].
    + rewrite H2, H1 in *. cbn in *. destruct (m0 =? m); cbn; lia.
    + rewrite H3 by auto. rewrite andb_false_r. lia.
Qed.
End LogP.
