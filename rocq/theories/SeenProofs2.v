(** What functions of mixins see: object_mutation *)
From Coq Require Import List Arith ZArith NArith Lia Bool.
From Verif Require Import Base Sv BaseLemmas Info MixinInfo TypeMut TypeBuild TypeQuery Domain TypesProofs Heap HeapProofs Mutation Object SpecObj SpecLog LogProofs SpecSeen PlaceProofs SeenProofs.
Import ListNotations.

Section Mut.
Variable E : env.
Variable U : user.
Variable s0 : st.
Variable o : nat.
Variable so : fn -> nat.
Hypothesis SO : so FMoveInit = o.
Variable own : nat -> Prop.
Variable t : type_rec.
Variable old : option (tref * type_rec).
Variable od : option nat.
Notation mid0 := (w_mid (s_w s0)).
Notation n0 := (s_next s0).

Definition is_old (m : mptr) : Prop := match od, old with Some _, Some (_, ot) => index_of ot (mid0 m) <> None | _, _ => False end.
Definition common (i : nat) : Prop := exists m, nth_error (t_mixins t) i = Some m /\ is_old m.
Notation K := (K s0 o so own common).
Notation tr := (tr s0 o so own common).
Notation mine := (mine s0 o own).
Notation own_old := (own_old s0 own).
Notation good_buf := (good_buf s0 o own).

(** Is this the mutation that ends an object? *)
Variable inv : bool.

Record MU (mu : omut) : Prop := {
  mu_o : mu_obj mu = o;
  mu_t : mu_ty mu = t;
  mu_ol : mu_old mu = old;
  mu_od : mu_odata mu = od;
  mu_ob : forall b, od = Some b -> own_old o b;
  mu_tb : forall b, mu_tdata mu = Some b -> good_buf b;
  mu_tn : inv = false -> forall b, mu_tdata mu = Some b -> n0 <= b \/ forall i m, nth_error (t_mixins t) i = Some m -> is_old m
}.
Lemma mu_same mu mu' : MU mu -> mu_obj mu' = mu_obj mu -> mu_ty mu' = mu_ty mu -> mu_tdata mu' = mu_tdata mu -> mu_odata mu' = mu_odata mu -> mu_old mu' = mu_old mu -> MU mu'.
Proof. intros [A B C D F G H] H1 H2 H3 H4 H5. constructor; rewrite ?H1, ?H2, ?H3, ?H4, ?H5; auto. Qed.

Definition OK (ph : bool) (p : mst) : Prop := K ph (snd p) /\ MU (fst p).
Lemma ok_weak ph p : OK ph p -> OK false p.
Proof. intros [A B]. split; auto. eapply k_weak; eauto. Qed.
Definition mtr {A} (ph : bool) (p : mst) (x : M mst A) (G : A -> mst -> Prop) : Prop :=
  forall p' r, x p = (p', r) -> match r with Ok a => OK ph p' /\ G a p' | Throw _ => OK ph p' | Ub _ => True end.

Lemma m_ret A ph p (a : A) (G : A -> mst -> Prop) : OK ph p -> G a p -> mtr ph p (ret a) G.
Proof. intros P H p' r [= <- <-]. auto. Qed.
Lemma m_raise A ph p e (G : A -> mst -> Prop) : OK ph p -> mtr ph p (raise e) G.
Proof. intros P p' r [= <- <-]. auto. Qed.
Lemma m_ub A ph p u (G : A -> mst -> Prop) : mtr ph p (ub u) G.
Proof. intros p' r [= <- <-]. exact Logic.I. Qed.
Lemma m_weak A ph p (x : M mst A) (G H : A -> mst -> Prop) : mtr ph p x G -> (forall a p', OK ph p' -> G a p' -> H a p') -> mtr ph p x H.
Proof. intros Hx HG s' r Hr. specialize (Hx s' r Hr). destruct r; auto. destruct Hx. auto. Qed.
Lemma m_T A ph p (x : M mst A) (G : A -> mst -> Prop) : mtr ph p x G -> mtr ph p x T.
Proof. intros H. eapply m_weak; eauto. intros. exact Logic.I. Qed.
Lemma m_bnd A B ph p (x : M mst A) (f : A -> M mst B) G H : mtr ph p x G -> (forall a p', OK ph p' -> G a p' -> mtr ph p' (f a) H) -> mtr ph p (bnd x f) H.
Proof.
  intros Hx Hf p' r. unfold bnd. destruct (x p) as [p1 [a|e|u]] eqn:Hs; pose proof (Hx _ _ Hs) as Hk; cbn in Hk.
  - destruct Hk as [Hk1 Hk2]. intros Hr. exact (Hf a p1 Hk1 Hk2 p' r Hr).
  - intros [= <- <-]. exact Hk.
  - intros [= <- <-]. exact Logic.I.
Qed.
Lemma m_lift A ph p (x : M st A) G : OK ph p -> tr ph (snd p) x G -> mtr ph p (lift x) (fun a p' => fst p' = fst p /\ G a (snd p')).
Proof.
  intros [P1 P2] Hx p' r. unfold lift. destruct (x (snd p)) as [s1 r1] eqn:Hs. intros [= <- <-]. specialize (Hx _ _ Hs). destruct r1; auto.
  - destruct Hx as [X1 X2]. split; [split; auto|]. cbn. auto.
  - split; auto.
Qed.
Lemma m_liftT A ph p (x : M st A) : OK ph p -> tr ph (snd p) x T -> mtr ph p (lift x) (fun a p' => fst p' = fst p).
Proof. intros H1 H2. eapply m_weak; [apply m_lift; eauto|]. intros a p' _ [H _]. exact H. Qed.
Lemma m_get_mu ph p : OK ph p -> mtr ph p get_mu (fun a p' => a = fst p /\ p' = p).
Proof. intros P p' r [= <- <-]. auto. Qed.
Lemma m_set_mu ph p f : OK ph p -> MU (f (fst p)) -> mtr ph p (set_mu f) (fun _ p' => p' = (f (fst p), snd p)).
Proof. intros [P1 P2] H p' r [= <- <-]. split; [split; auto|auto]. Qed.
Lemma m_get_mid ph p : OK ph p -> mtr ph p get_mid (fun a p' => a = mid0 /\ p' = p).
Proof. intros P p' r [= <- <-]. split; auto. split; auto. apply (k_mid _ _ _ _ _ _ _ (proj1 P)). Qed.
Lemma m_target_mixin ph p i : OK ph p -> mtr ph p (target_mixin (fst p) i) (fun m p' => nth_error (t_mixins t) i = Some m /\ p' = p).
Proof. intros P. unfold target_mixin. rewrite (mu_t _ (proj2 P)). destruct (nth_error (t_mixins t) i); [apply m_ret|apply m_ub]; auto. Qed.
Lemma m_target_offset ph p i : OK ph p -> mtr ph p (target_offset (fst p) i) (fun _ p' => p' = p).
Proof. intros P. unfold target_offset. destruct (nth_error _ i); [apply m_ret|apply m_ub]; auto. Qed.
Lemma m_target_data ph p : OK ph p -> mtr ph p (target_data (fst p)) (fun b p' => mu_tdata (fst p) = Some b /\ p' = p).
Proof. intros P. unfold target_data. destruct (mu_tdata (fst p)); [apply m_ret|apply m_ub]; auto. Qed.
Lemma m_get_obj ph p c : OK ph p -> mtr ph p (lift (get_obj c)) (fun x p' => p' = p).
Proof.
  intros P. eapply m_weak; [apply m_lift; [exact P|apply tr_get_obj; apply P]|]. cbn. intros a p' _ (H1 & H2 & H3). destruct p, p'; cbn in *; congruence.
Qed.
Lemma m_read ph p b i : OK ph p -> good_buf b -> mtr ph p (lift (read_data b i)) (fun d p' => mine (snd p) (md_mixin d) /\ (n0 <= b -> fst (md_mixin d) < n0 -> common i) /\ (forall e, md_buf d = Some e -> n0 <= e \/ own e) /\ p' = p).
Proof.
  intros P Hb. eapply m_weak; [apply m_lift; [exact P|apply tr_read; [apply P|exact Hb]]|]. cbn. intros a p' _ (H1 & H2 & H3 & H4 & H5). split; auto. split; auto. split; auto. destruct p, p'; cbn in *; congruence.
Qed.
Lemma old_some mu m ob oi : MU mu -> old_slot mu mid0 m = Some (ob, oi) -> od = Some ob /\ is_old m.
Proof.
  intros I H. unfold old_slot in H. rewrite (mu_od _ I), (mu_ol _ I) in H. unfold is_old. destruct od as [b|]; [|discriminate]. destruct old as [[r ot]|]; [|discriminate]. destruct (index_of ot (mid0 m)); [|discriminate]. injection H as <- <-. split; auto. discriminate.
Qed.
Lemma old_none mu m : MU mu -> old_slot mu mid0 m = None -> ~ is_old m.
Proof.
  intros I H. unfold old_slot in H. rewrite (mu_od _ I), (mu_ol _ I) in H. unfold is_old. destruct od as [b|]; [|tauto]. destruct old as [[r ot]|]; [|tauto]. destruct (index_of ot (mid0 m)); [discriminate|]. congruence.
Qed.
Lemma old_good mu b : MU mu -> od = Some b -> good_buf b.
Proof. intros I H. right. eapply mu_ob; eauto. Qed.

Ltac mb H := eapply m_bnd; [apply H; auto|].

(** ** Allocation *)
Lemma m_two ph p A B (x : M st A) (y : M st B) : OK ph p -> tr ph (snd p) (x;; y) T -> mtr ph p (lift x;; lift y) (fun _ p' => fst p' = fst p).
Proof.
  intros P H p' r Hr. apply (m_liftT _ ph p (x;; y) P H p' r). rewrite <- Hr. unfold lift, bnd. destruct (x (snd p)) as [s1 [a|e|u]]; auto.
Qed.
Lemma m_alloc_one ph p i tb : OK ph p -> mu_tdata (fst p) = Some tb -> n0 <= tb < s_next (snd p) -> mtr ph p (alloc_one E U i) (fun _ p' => mu_tdata (fst p') = Some tb /\ mu_uu (fst p') = mu_uu (fst p) /\ tb < s_next (snd p')).
Proof.
  intros P Htb Hn. unfold alloc_one. mb m_get_mu. intros ? ? _ (-> & ->). mb m_target_offset. intros off ? _ ->. mb m_target_data. intros tb' ? _ (Htb' & ->). assert (tb' = tb) as -> by congruence. clear Htb'.
  assert (Hup : forall p', OK ph p' -> fst p' = fst p -> s_next (snd p) <= s_next (snd p') -> mtr ph p' (set_mu (fun mu => with_au mu (S i))) (fun _ p2 => mu_tdata (fst p2) = Some tb /\ mu_uu (fst p2) = mu_uu (fst p) /\ tb < s_next (snd p2))).
  { intros p' P' Hf Hle. eapply m_weak; [apply m_set_mu; auto; eapply mu_same; [apply P'|..]; reflexivity|]. cbn. intros _ p2 _ ->. cbn. rewrite Hf. split; auto. split; auto. lia. }
  (* the next block only grows *)
  assert (Hgrow : forall q A (x : M mst A) (G : A -> mst -> Prop), mtr ph q x G -> (forall q' r, x q = (q', r) -> s_next (snd q) <= s_next (snd q')) -> mtr ph q x (fun a q' => G a q' /\ s_next (snd q) <= s_next (snd q'))).
  { intros q A x G Hx Hg q' r Hr. specialize (Hx q' r Hr). specialize (Hg q' r Hr). destruct r; auto. destruct Hx. auto. }
  eapply m_bnd with (G := fun _ p' => fst p' = fst p /\ s_next (snd p) <= s_next (snd p')); [|intros ? p' P' (H1 & H2); apply Hup; auto].
  assert (Hwn : forall s b j d s' r, write_data b j d s = (s', r) -> s_next s' = s_next s).
  { intros s b j d s' r. unfold write_data, bnd, get_blk. destruct (s_blk s b); intros [= <- <-]; reflexivity. }
  assert (Hon : forall s q c s' r, set_object q c s = (s', r) -> s_next s' = s_next s).
  { intros s q c s' r. unfold set_object, bnd, get_blk. destruct (s_blk s (fst q)); intros [= <- <-]; reflexivity. }
  assert (Hboth : forall q b j d c q' r, (lift (write_data b j d);; lift (set_object (md_mixin d) c)) q = (q', r) -> s_next (snd q) <= s_next (snd q')).
  { intros q b j d c q' r. unfold bnd, lift. destruct (write_data b j d (snd q)) as [s1 [a|e|u]] eqn:Hw; pose proof (Hwn _ _ _ _ _ _ Hw) as H1.
    - destruct (set_object (md_mixin d) c (snd (fst q, s1))) as [s2 r2] eqn:Ho. cbn in Ho. pose proof (Hon _ _ _ _ _ Ho) as H2. intros [= <- <-]. cbn. lia.
    - intros [= <- <-]. cbn. lia.
    - intros [= <- <-]. cbn. lia. }
  destruct (negb (off =? 0)%N).
  - rewrite (mu_o _ (proj2 P)). apply Hgrow; [|intros q' r; apply (Hboth p tb i {| md_buf := None; md_mixin := (tb, off) |})].
    apply (m_two ph p _ _ (write_data tb i {| md_buf := None; md_mixin := (tb, off) |}) (set_object (tb, off) o) P). apply (tr_write_set s0 o so own common ph (snd p) tb i {| md_buf := None; md_mixin := (tb, off) |}); cbn; auto; [apply P|lia|discriminate].
  - mb m_target_mixin. intros m ? _ (Hm & ->). mb m_get_mid. intros ? ? _ (-> & ->). destruct (old_slot (fst p) mid0 m) as [[ob oi]|] eqn:Ho.
    + destruct (old_some _ _ _ _ (proj2 P) Ho) as [Hod Hisold]. eapply m_bnd; [apply m_read; [exact P|eapply old_good; [apply P|exact Hod]]|]. intros d ? _ (Hd & _ & Hbuf & ->). apply Hgrow.
      * apply m_liftT; auto. apply tr_write_new; auto; [apply P|lia|]. intros _. exists m. auto.
      * intros q' r. unfold lift. destruct (write_data tb i d (snd p)) as [s1 r1] eqn:Hw. intros [= <- <-]. cbn. rewrite (Hwn _ _ _ _ _ _ Hw). lia.
    + mb m_get_obj. intros x ? _ ->. eapply m_bnd with (G := fun e p' => fst p' = fst p /\ n0 <= e < s_next (snd p') /\ s_next (snd p) <= s_next (snd p')).
      * intros q' r Hr. pose proof (m_lift nat ph p _ _ P (tr_alloc U s0 o so own common ph (snd p) (ext_alloc E x m) (m_buf_size (e_mixin E m)) (m_buf_off (e_mixin E m)) (proj1 P)) q' r Hr) as Hk.
        destruct r as [e|e|u]; auto. destruct Hk as (Hk1 & Hk2 & Hk3). split; auto. split; auto. split; auto. unfold alloc_external, lift in Hr. rewrite alloc_step in Hr. destruct (an_err (u_ans U (s_calls (snd p))) =? 0)%Z; [|discriminate]. injection Hr as <- <-. cbn. lia.
      * cbn beta. intros e p' P' (Hf & He & Hle). rewrite (mu_o _ (proj2 P)). eapply m_weak; [apply Hgrow; [|intros q' r; apply (Hboth p' tb i {| md_buf := Some e; md_mixin := (e, m_buf_off (e_mixin E m)) |})]|].
        -- apply (m_two ph p' _ _ (write_data tb i {| md_buf := Some e; md_mixin := (e, m_buf_off (e_mixin E m)) |}) (set_object (e, m_buf_off (e_mixin E m)) o) P').
           apply (tr_write_set s0 o so own common ph (snd p') tb i {| md_buf := Some e; md_mixin := (e, m_buf_off (e_mixin E m)) |}); cbn; auto; [apply P'|lia|]. intros e0 [= <-]. left. lia.
        -- cbn. intros _ q' _ (H1 & H2). split; [congruence|lia].
Qed.
Lemma m_alloc_loop ph l tb : forall p, OK ph p -> mu_tdata (fst p) = Some tb -> n0 <= tb < s_next (snd p) -> mtr ph p (alloc_loop E U l) (fun _ p' => mu_uu (fst p') = mu_uu (fst p)).
Proof.
  induction l as [|i l IH]; intros p P H1 H2; cbn [alloc_loop]; [apply m_ret; auto|]. eapply m_bnd; [apply m_alloc_one with (tb := tb); auto|]. cbn. intros ? p' P' (A1 & A2 & A3). rewrite <- A2. apply IH; auto. lia.
Qed.
Lemma m_allocate ph p : OK ph p -> inv = false -> (same_type (fst p) = true -> forall i m, nth_error (t_mixins t) i = Some m -> od <> None -> is_old m) -> mtr ph p (allocate_mixin_data E U) (fun _ p' => mu_uu (fst p') = mu_uu (fst p)).
Proof.
  intros P Hi HT. unfold allocate_mixin_data. mb m_get_mu. intros ? ? _ (-> & ->). destruct (same_type (fst p)) eqn:Hs.
  - eapply m_weak; [apply m_set_mu; auto|cbn; intros _ p2 _ ->; reflexivity]. pose proof (proj2 P) as [A B C D F G H]. constructor; cbn; auto.
    + intros b Hb. right. apply F. congruence.
    + intros _ b Hb. right. intros i m Hm. eapply HT; eauto. congruence.
  - mb m_get_obj. intros x ? _ ->. eapply m_bnd.
    + apply m_lift; [exact P|]. unfold allocate_object_buffer. eapply tr_bnd; [apply tr_alloc; apply P|].
      intros b s' P' Hb. cbn in Hb. eapply tr_bnd with (G := fun _ s2 => s_next s2 = s_next s').
      * intros s2 r Hr. pose proof (tr_incr s0 o so own common ph s' (mu_ref (fst p)) P' s2 r Hr) as Hk. destruct r as [a|e|u]; auto. destruct Hk. split; auto. unfold on_world in Hr. injection Hr as <- _. reflexivity.
      * cbn. intros ? s2 P2 Hn. apply tr_ret with (G := fun b s2 => n0 <= b < s_next s2); auto. lia.
    + cbn beta. intros b p' P' (Hf & Hb). eapply m_bnd; [apply m_set_mu; auto|].
      * pose proof (proj2 P') as [A B C D F G H]. constructor; cbn; auto; intros; assert (b0 = b) as -> by congruence; left; lia.
      * cbn. intros ? p2 P2 ->. eapply m_weak; [apply m_alloc_loop with (tb := b); auto|]. cbn. intros. congruence.
Qed.

(** ** Roll back *)
Lemma m_down ph f : (forall i p, OK ph p -> mtr ph p (f i) T) -> forall n p, OK ph p -> mtr ph p (down_loop f n) T.
Proof. intros H. induction n; intros p P; cbn [down_loop]; [apply m_ret; auto; exact Logic.I|]. mb H. intros ? ? P' _. now apply IHn. Qed.
Lemma m_free_external p c m b : OK false p -> n0 <= b \/ own b -> mtr false p (lift (free_external E c m b)) T.
Proof. intros P Hb. eapply m_T. apply m_liftT; auto. unfold free_external. apply tr_free; auto. apply P. Qed.
Lemma tr_dob s r k a b : K false s -> n0 <= b \/ own b -> tr false s (deallocate_object_buffer E r k a b) T.
Proof. intros P Hb. unfold deallocate_object_buffer. eapply tr_bnd; [apply tr_free; auto|]. intros ? ? P' _. now apply tr_decr. Qed.
Lemma m_dealloc_one i p : OK false p -> mtr false p (dealloc_one E i) T.
Proof.
  intros P. unfold dealloc_one. mb m_get_mu. intros ? ? _ (-> & ->). mb m_target_data. intros tb ? _ (Htb & ->). eapply m_bnd; [apply m_read; [exact P|eapply mu_tb; [apply P|exact Htb]]|]. intros d ? _ (Hd & _ & Hbuf & ->).
  destruct (md_buf d) as [b|]; [|apply m_ret; auto; exact Logic.I]. mb m_target_mixin. intros m ? _ (Hm & ->). mb m_get_mid. intros ? ? _ (-> & ->).
  destruct (old_slot (fst p) mid0 m); [apply m_ret; auto; exact Logic.I|]. mb m_get_obj. intros ? ? _ ->. apply m_free_external; auto.
Qed.
Lemma good_own b : good_buf b -> n0 <= b \/ own b.
Proof. intros [H|(_ & H & _)]; auto. Qed.
Lemma m_deallocate p : OK false p -> mtr false p (deallocate_mixin_data E) T.
Proof.
  intros P. unfold deallocate_mixin_data. mb m_get_mu. intros ? ? _ (-> & ->). destruct (negb (mu_uu (fst p) =? 0)); [apply m_ub|].
  eapply m_bnd; [apply m_down; [intros; now apply m_dealloc_one|exact P]|]. intros ? p1 P1 _. eapply m_bnd; [apply m_set_mu; auto; eapply mu_same; [apply P1|..]; reflexivity|]. intros ? p2 P2 _.
  destruct (mu_tdata (fst p)) as [tb|] eqn:Htb; [|apply m_ret; auto; exact Logic.I]. mb m_get_obj. intros ? ? _ ->. eapply m_bnd; [apply m_liftT; [exact P2|apply tr_dob; [apply P2|apply good_own; eapply mu_tb; [apply P|exact Htb]]]|].
  intros ? p3 P3 _. eapply m_T. apply m_set_mu; auto. pose proof (proj2 P3) as [A B C D F G H]. constructor; cbn; auto; discriminate.
Qed.
Lemma m_destroy_one i p : OK false p -> mtr false p (destroy_one E i) T.
Proof.
  intros P. unfold destroy_one. mb m_get_mu. intros ? ? _ (-> & ->). mb m_target_mixin. intros m ? _ (Hm & ->). mb m_get_mid. intros ? ? _ (-> & ->).
  destruct (old_slot (fst p) mid0 m); [apply m_ret; auto; exact Logic.I|]. destruct (m_destroy (e_mixin E m)); [|apply m_ret; auto; exact Logic.I].
  mb m_target_data. intros tb ? _ (Htb & ->). eapply m_bnd; [apply m_read; [exact P|eapply mu_tb; [apply P|exact Htb]]|]. intros d ? _ (Hd & _ & Hbuf & ->). eapply m_T. apply m_liftT; auto. apply tr_destroy; auto. apply P.
Qed.
Lemma m_destroy_new p : OK false p -> mtr false p (destroy_new_mixins E) T.
Proof.
  intros P. unfold destroy_new_mixins. mb m_get_mu. intros ? ? _ (-> & ->). eapply m_bnd; [apply m_down; [intros; now apply m_destroy_one|exact P]|]. intros ? p1 P1 _. eapply m_T. apply m_set_mu; auto. eapply mu_same; [apply P1|..]; reflexivity.
Qed.
Lemma m_rollback p : OK false p -> mtr false p (rollback E) T.
Proof.
  intros P. unfold rollback. eapply m_bnd; [apply m_set_mu; auto; eapply mu_same; [apply P|..]; reflexivity|]. intros ? p1 P1 _. mb m_get_mu. intros ? ? _ (-> & ->).
  eapply m_bnd; [instantiate (1 := T); destruct (negb (same_type (fst p1)))|].
  - mb m_destroy_new. intros ? ? P2 _. now apply m_deallocate.
  - apply m_ret; auto. exact Logic.I.
  - intros ? p3 P3 _. eapply m_T. apply m_set_mu; auto. eapply mu_same; [apply P3|..]; reflexivity.
Qed.

(** ** The end *)
Lemma from_mine ph s f q : K ph s -> mine s q -> so f = o -> from_ok so s f (Some q).
Proof. intros P M Hf q' [= <-] Hb. rewrite Hf. eapply mine_back; eauto. Qed.
Lemma m_read_old ph p b i : OK ph p -> own_old o b -> mtr ph p (lift (read_data b i)) (fun d p' => (forall s, mine s (md_mixin d)) /\ own (fst (md_mixin d)) /\ (forall e, md_buf d = Some e -> own e) /\ p' = p).
Proof.
  intros P Hb. eapply m_weak; [apply m_lift; [exact P|apply tr_read_old with (c := o); [apply P|apply Hb]]|]. cbn. intros a p' _ (H1 & H2 & H3 & H4 & H5). destruct Hb as (_ & _ & Hb). destruct (Hb i a H2) as [B1 B2].
  split; [intros s; now left|]. split; auto. split; auto. destruct p, p'; cbn in *; congruence.
Qed.
Lemma m_finalize_one p ob ot i : OK false p -> od = Some ob -> mtr false p (finalize_one E U ob ot i) T.
Proof.
  intros P Hod. unfold finalize_one. mb m_get_mu. intros ? ? _ (-> & ->). eapply m_bnd with (G := fun m p' => p' = p).
  { destruct (nth_error (t_mixins ot) i); [apply m_ret|apply m_ub]; auto. }
  intros m ? _ ->. eapply m_bnd; [apply m_read_old; [exact P|eapply mu_ob; [apply P|exact Hod]]|]. intros d ? _ (Hd & Hd2 & Hd3 & ->). mb m_get_mid. intros ? ? _ (-> & ->).
  rewrite (mu_t _ (proj2 P)). destruct (index_of t (mid0 m)) as [ti|].
  - destruct (md_buf d); [apply m_ret; auto; exact Logic.I|]. mb m_target_data. intros tb ? _ (Htb & ->). eapply m_bnd; [apply m_read; [exact P|eapply mu_tb; [apply P|exact Htb]]|]. intros nd ? _ (Hnd & _ & _ & ->).
    eapply m_bnd with (G := T).
    + destruct (m_move_init (e_mixin E m)); [|apply m_ub]. eapply m_T. apply m_liftT; [exact P|]. apply tr_move_init; auto; [apply P|]. eapply from_mine; eauto. apply P.
    + intros ? p1 P1 _. eapply m_T. apply m_liftT; auto. apply tr_destroy; auto. apply P1.
  - eapply m_bnd; [apply m_liftT; [exact P|apply tr_destroy; auto; apply P]|]. intros ? p1 P1 H1. destruct (md_buf d) as [b|]; [|apply m_ret; auto; exact Logic.I]. mb m_get_obj. intros x ? _ ->. apply m_free_external; auto.
Qed.
Lemma m_finalize_loop ob ot l : forall p, OK false p -> od = Some ob -> mtr false p (finalize_loop E U ob ot l) T.
Proof.
  induction l as [|i l IH]; intros p P H1; cbn [finalize_loop]; [apply m_ret; auto; exact Logic.I|]. eapply m_bnd; [eapply m_finalize_one; eauto|]. cbn. intros ? p1 P1 _. now apply IH.
Qed.
(** What was seen, when the object may be no longer as before *)
Definition fin {A} (p : mst) (x : M mst A) : Prop :=
  forall p' r, x p = (p', r) -> match r with Ub _ => True | Throw _ => K false (snd p') | Ok _ => seen_ok s0 o so own (snd p') end.
Lemma fin_tr A ph p (x : M mst A) G : mtr ph p x G -> fin p x.
Proof. intros H p' r Hr. specialize (H p' r Hr). destruct r; auto; [destruct H as [H _]; apply (k_seen _ _ _ _ _ _ _ (proj1 H))|eapply k_weak; apply H]. Qed.
Lemma fin_bnd A B ph p (x : M mst A) (f : A -> M mst B) G : mtr ph p x G -> (forall a p', OK ph p' -> G a p' -> fin p' (f a)) -> fin p (bnd x f).
Proof.
  intros Hx Hf p' r. unfold bnd. destruct (x p) as [p1 [a|e|u]] eqn:Hs; pose proof (Hx _ _ Hs) as Hk; cbn in Hk.
  - destruct Hk as [Hk1 Hk2]. intros Hr. exact (Hf a p1 Hk1 Hk2 p' r Hr).
  - intros [= <- <-]. eapply k_weak. apply Hk.
  - intros [= <- <-]. exact Logic.I.
Qed.
Lemma fin_install p : seen_ok s0 o so own (snd p) -> fin p install.
Proof.
  intros H p' r. unfold install, bnd, get_mu, lift, get_obj. cbn. destruct (s_obj (snd p) (mu_obj (fst p))); cbn; intros [= <- <-]; [|exact Logic.I]. exact H.
Qed.
Lemma fin_finalize p : OK false p -> fin p (finalize E U).
Proof.
  intros P. unfold finalize. eapply fin_bnd; [apply m_get_mu; exact P|]. intros ? ? _ (-> & ->). destruct (negb (mu_complete (fst p))); [eapply fin_tr with (G := T), m_ret; [exact P|exact Logic.I]|].
  destruct (same_type (fst p)); [intros p' r [= <- <-]; apply (k_seen _ _ _ _ _ _ _ (proj1 P))|].
  assert (Hs : fin p (match mu_odata (fst p) with None => ret tt | Some ob => match mu_old (fst p) with None => ub UbAssert | Some (r, ot) => finalize_loop E U ob ot (seq 0 (num_mixins ot));; (let* o := lift (get_obj (mu_obj (fst p))) in lift (deallocate_object_buffer E r ot (o_alloc o) ob);; set_mu with_old_null) end end)).
  { destruct (mu_odata (fst p)) as [ob|] eqn:Ho; [|eapply fin_tr with (G := T), m_ret; [exact P|exact Logic.I]]. destruct (mu_old (fst p)) as [[r ot]|]; [|apply (fin_tr _ false p _ T), m_ub].
    assert (Hod : od = Some ob) by (rewrite <- (mu_od _ (proj2 P)); exact Ho).
    eapply fin_bnd; [apply m_finalize_loop; [exact P|exact Hod]|]. intros ? p1 P1 _. eapply fin_bnd; [apply m_get_obj; exact P1|]. intros x ? _ ->.
    eapply fin_bnd; [apply m_liftT; [exact P1|apply tr_dob; [apply P1|apply good_own; eapply old_good; [apply P1|exact Hod]]]|]. intros ? p2 P2 _ p' r' [= <- <-]. apply (k_seen _ _ _ _ _ _ _ (proj1 P2)). }
  intros p' r Hr. unfold bnd at 1 in Hr. match type of Hr with (match ?x with _ => _ end) = _ => destruct x as [p1 [a|e|u]] eqn:Hx end; specialize (Hs _ _ Hx); cbn in Hs.
  - exact (fin_install p1 Hs p' r Hr).
  - injection Hr as <- <-. exact Hs.
  - injection Hr as <- <-. exact Logic.I.
Qed.

(** ** Functions that are called for mixins *)
Definition cn_ok (cn : cb_new) : Prop := forall s m p i, K true s -> mine s p -> n0 <= fst p -> tr true s (cn m p i) T.
Definition uc_ok (uc : cb_common) : Prop := forall s m p i j, K true s -> mine s p -> tr true s (uc m p i j) T.
Hypothesis NI : inv = false.
Lemma m_update_next p cn uc : OK true p -> cn_ok cn -> uc_ok uc -> mtr true p (update_next cn uc) T.
Proof.
  intros P H1 H2. unfold update_next. mb m_get_mu. intros ? ? _ (-> & ->). destruct (mu_complete (fst p)) eqn:Hc; [apply m_ret; auto; exact Logic.I|].
  mb m_target_mixin. intros m ? _ (Hm & ->). mb m_get_mid. intros ? ? _ (-> & ->).
  eapply m_bnd with (G := fun _ p' => fst p' = fst p).
  - destruct (old_slot (fst p) mid0 m) as [[ob oi]|] eqn:Ho.
    + destruct (old_some _ _ _ _ (proj2 P) Ho) as [Hod Hisold]. eapply m_bnd; [apply m_read; [exact P|eapply old_good; [apply P|exact Hod]]|]. intros d ? _ (Hd & _ & Hbuf & ->). apply m_liftT; auto. apply H2; auto. apply P.
    + pose proof (old_none _ _ (proj2 P) Ho) as Hno. mb m_target_data. intros tb ? _ (Htb & ->). eapply m_bnd; [apply m_read; [exact P|eapply mu_tb; [apply P|exact Htb]]|]. intros d ? _ (Hd & Hd2 & _ & ->).
      apply m_liftT; auto. apply H1; auto; [apply P|]. destruct (Nat.le_gt_cases n0 (fst (md_mixin d))) as [|Hlt]; auto. exfalso. destruct (mu_tn _ (proj2 P) NI tb Htb) as [Hn|Hn].
      * destruct (Hd2 Hn Hlt) as (m' & Hm' & Hi). assert (m' = m) as -> by congruence. auto.
      * apply Hno. eapply Hn; eauto.
  - cbn. intros ? p1 P1 Hf. eapply m_T. apply m_set_mu; auto. eapply mu_same; [apply P1|..]; reflexivity.
Qed.
Lemma m_turns cn uc n : cn_ok cn -> uc_ok uc -> forall p, OK true p -> mtr true p (update_turns cn uc n) T.
Proof.
  intros H1 H2. induction n; intros p P; cbn [update_turns]; [apply m_ret; auto; exact Logic.I|]. eapply m_bnd; [apply m_update_next; auto|]. intros ? ? P' _. now apply IHn.
Qed.
Lemma m_each cn uc u p : cn_ok cn -> uc_ok uc -> OK true p -> mtr true p (update_each cn uc u) T.
Proof. intros H1 H2 P. unfold update_each. mb m_get_mu. intros ? ? _ (-> & ->). now apply m_turns. Qed.
Lemma uc_noop : uc_ok noop_common.
Proof. intros s m p i j P Hp. apply tr_ret; auto. exact Logic.I. Qed.
Lemma cn_default : cn_ok (default_init E U).
Proof. intros s m p i P Hp H. unfold default_init. destruct (m_init (e_mixin E m)); [apply tr_construct; auto; discriminate|now apply tr_raise]. Qed.
Lemma m_default u p : OK true p -> mtr true p (default_each E U u) T.
Proof. intros P. apply m_each; auto; [apply cn_default|apply uc_noop]. Qed.
Lemma m_update_at i cn uc p : cn_ok cn -> uc_ok uc -> OK true p -> mtr true p (update_at E U i cn uc) T.
Proof.
  intros H1 H2 P. unfold update_at. mb m_get_mu. intros ? ? _ (-> & ->). destruct ((i <? mu_uu (fst p)) || (num_mixins (mu_ty (fst p)) <? i)); [apply m_raise; auto|].
  mb m_default. intros ? ? P' _. apply m_update_next; auto.
Qed.

(** ** The whole mutation *)
Lemma m_unwind A e p : OK false p -> mtr false p (unwind E e : M mst A) T.
Proof.
  intros P. unfold unwind. mb m_get_mu. intros ? ? _ (-> & ->). eapply m_bnd; [instantiate (1 := T)|intros ? ? P' _; now apply m_raise].
  destruct (mu_moved (fst p)); [apply m_ret; auto; exact Logic.I|now apply m_rollback].
Qed.
Lemma fin_finish unw p : OK true p -> fin p (finish E U unw).
Proof.
  intros P. unfold finish. eapply fin_bnd; [apply m_get_mu; exact P|]. intros ? ? _ (-> & ->). destruct (mu_moved (fst p)); [eapply fin_tr with (G := T), m_ret; [exact P|exact Logic.I]|].
  destruct unw; [eapply fin_tr, m_rollback; eapply ok_weak; eauto|].
  intros p' r. destruct (default_each E U None p) as [p1 [a|e|u]] eqn:Hd; pose proof (m_default None p P _ _ Hd) as A1; cbn in A1.
  - apply fin_finalize. eapply ok_weak. apply A1.
  - assert (Hk : mtr false p1 (rollback E;; raise e : M mst unit) T) by (eapply m_bnd; [apply m_rollback; eapply ok_weak; eauto|]; intros ? ? P' _; now apply m_raise).
    apply (fin_tr _ _ _ _ _ Hk).
  - intros [= <- <-]. exact Logic.I.
Qed.
End Mut.
