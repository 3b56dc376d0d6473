(** Where mixins are: object_mutation *)
From Coq Require Import List Arith ZArith NArith Lia Bool.
From Verif Require Import Base Sv BaseLemmas Info MixinInfo TypeMut TypeBuild TypeQuery Domain TypesProofs ElemProofs Heap HeapProofs Mutation Object SpecObj SpecLog SpecLayout SpecPlace PlaceProofs.
Import ListNotations.

Section Mut.
Variable E : env.
Variable U : user.
Variable mid0 : mptr -> option nat.
Variable t : type_rec.
Hypothesis HS : sound_layout E (t_mixins t) (t_offsets t) (t_buf_size t) (t_buf_align t).
(** Is the layout of the buffers known? Rolling back does not need it. *)
Variable full : Prop.
Hypothesis FU : full.
Notation PI := (PI E mid0).
Notation trs := (trs E mid0).

(** The buffer [b] has the layout of type [k]. *)
Definition fitsL (L : plan) (b : nat) (k : type_rec) : Prop := forall i m, nth_error (t_mixins k) i = Some m ->
  exists ms offs sz al off, L b = Some (CObj ms offs sz al) /\ nth_error ms i = Some m /\ nth_error offs i = Some off /\ nth_error (t_offsets k) i = Some off.
Lemma fits_ext L L' b k : ext L L' -> fitsL L b k -> fitsL L' b k.
Proof. intros H F i m Hi. destruct (F i m Hi) as (ms & offs & sz & al & off & A & B). exists ms, offs, sz, al, off. auto. Qed.
Lemma fits_slot L b k i m m' d : fitsL L b k -> nth_error (t_mixins k) i = Some m -> dslot E L b i m' d -> m' = m.
Proof. intros F Hi (ms & offs & sz & al & off & A & B & C & _). destruct (F i m Hi) as (ms' & offs' & sz' & al' & off' & A' & B' & C' & D'). congruence. Qed.

Record MI (L : plan) (mu : omut) : Prop := {
  mi_ty : mu_ty mu = t;
  mi_t : full -> forall tb, mu_tdata mu = Some tb -> fitsL L tb t;
  mi_o : full -> forall ob, mu_odata mu = Some ob -> exists r ot, mu_old mu = Some (r, ot) /\ fitsL L ob ot /\
    (forall m i, In m (t_mixins t) -> index_of ot (mid0 m) = Some i -> nth_error (t_mixins ot) i = Some m) /\
    (forall m i, In m (t_mixins ot) -> index_of t (mid0 m) = Some i -> nth_error (t_mixins t) i = Some m) /\
    (r = mu_ref mu -> ot = t)
}.
Lemma mi_ext L L' mu : ext L L' -> MI L mu -> MI L' mu.
Proof.
  intros H [A B C]. constructor; auto.
  - intros F tb Hb. eapply fits_ext; eauto.
  - intros F ob Ho. destruct (C F ob Ho) as (r & ot & D1 & D2 & D3). exists r, ot. split; auto. split; auto. eapply fits_ext; eauto.
Qed.
Lemma mi_same L mu mu' : MI L mu -> mu_ty mu' = mu_ty mu -> mu_tdata mu' = mu_tdata mu -> mu_odata mu' = mu_odata mu -> mu_old mu' = mu_old mu -> mu_ref mu' = mu_ref mu -> MI L mu'.
Proof. intros [A B C] H1 H2 H3 H4 H5. constructor; rewrite ?H1, ?H2, ?H3, ?H4, ?H5; auto. Qed.

Definition OK (L : plan) (p : mst) : Prop := PI L (snd p) /\ MI L (fst p).
Definition mtr {A} (L : plan) (p : mst) (x : M mst A) (G : A -> plan -> mst -> Prop) : Prop :=
  forall p' r, x p = (p', r) -> exists L', ext L L' /\ OK L' p' /\ forall a, r = Ok a -> G a L' p'.

Lemma m_stay A L p (r : res A) x (G : A -> plan -> mst -> Prop) : OK L p -> x p = (p, r) -> (forall a, r = Ok a -> G a L p) -> mtr L p x G.
Proof. intros P Hx H s' r' Hx'. rewrite Hx in Hx'. injection Hx' as <- <-. exists L. split; [apply ext_refl|]. auto. Qed.
Lemma m_ret A L p (a : A) (G : A -> plan -> mst -> Prop) : OK L p -> G a L p -> mtr L p (ret a) G.
Proof. intros P H. apply (m_stay A L p (Ok a)); auto. intros a' [= <-]. exact H. Qed.
Lemma m_raise A L p e (G : A -> plan -> mst -> Prop) : OK L p -> mtr L p (raise e) G.
Proof. intros P. apply (m_stay A L p (Throw e)); auto. discriminate. Qed.
Lemma m_ub A L p u (G : A -> plan -> mst -> Prop) : OK L p -> mtr L p (ub u) G.
Proof. intros P. apply (m_stay A L p (Ub u)); auto. discriminate. Qed.
Lemma m_weak A L p (x : M mst A) (G H : A -> plan -> mst -> Prop) : mtr L p x G -> (forall a L' p', ext L L' -> OK L' p' -> G a L' p' -> H a L' p') -> mtr L p x H.
Proof. intros Hx HG p' r Hr. destruct (Hx p' r Hr) as (L' & A1 & A2 & A3). exists L'. split; auto. Qed.
Lemma m_T A L p (x : M mst A) (G : A -> plan -> mst -> Prop) : mtr L p x G -> mtr L p x T.
Proof. intros H. eapply m_weak; eauto. intros. exact Logic.I. Qed.
Lemma m_bnd A B L p (x : M mst A) (f : A -> M mst B) G H : mtr L p x G -> (forall a L' p', ext L L' -> OK L' p' -> G a L' p' -> mtr L' p' (f a) H) -> mtr L p (bnd x f) H.
Proof.
  intros Hx Hf p' r. unfold bnd. destruct (x p) as [p1 [a|e|u]] eqn:Hs; destruct (Hx _ _ Hs) as (L1 & A1 & A2 & A3).
  - intros Hr. destruct (Hf a L1 p1 A1 A2 (A3 a eq_refl) p' r Hr) as (L2 & B1 & B2 & B3). exists L2. split; [eapply ext_trans; eauto|]. auto.
  - intros [= <- <-]. exists L1. split; auto. split; auto. discriminate.
  - intros [= <- <-]. exists L1. split; auto. split; auto. discriminate.
Qed.
Lemma m_lift A L p (x : M st A) G : OK L p -> trs L (snd p) x G -> mtr L p (lift x) (fun a L' p' => fst p' = fst p /\ G a L' (snd p')).
Proof.
  intros [P1 P2] Hx p' r. unfold lift. destruct (x (snd p)) as [s1 r1] eqn:Hs. intros [= <- <-]. destruct (Hx _ _ Hs) as (L1 & A1 & A2 & A3). exists L1. split; auto.
  split; [split; cbn; auto; eapply mi_ext; eauto|]. intros a Ha. cbn. auto.
Qed.
Lemma m_liftT A L p (x : M st A) : OK L p -> trs L (snd p) x T -> mtr L p (lift x) (fun a L' p' => fst p' = fst p).
Proof. intros H1 H2. eapply m_weak; [apply m_lift; eauto|]. intros a L' p' _ _ [H _]. exact H. Qed.
Lemma m_get_mu L p : OK L p -> mtr L p get_mu (fun a L' p' => a = fst p /\ L' = L /\ p' = p).
Proof. intros P. apply (m_stay _ L p (Ok (fst p))); auto. intros a [= <-]. auto. Qed.
Lemma m_set_mu L p f : OK L p -> MI L (f (fst p)) -> mtr L p (set_mu f) (fun _ L' p' => L' = L /\ p' = (f (fst p), snd p)).
Proof. intros [P1 P2] H p' r [= <- <-]. exists L. split; [apply ext_refl|]. split; [split; auto|auto]. Qed.
Lemma m_get_mid L p : OK L p -> mtr L p get_mid (fun a L' p' => a = mid0 /\ L' = L /\ p' = p).
Proof. intros P. apply (m_stay _ L p (Ok (w_mid (s_w (snd p))))); auto. intros a [= <-]. destruct P as [P _]. rewrite (pl_mid _ _ _ _ P). auto. Qed.
Lemma m_target_mixin L p i : OK L p -> mtr L p (target_mixin (fst p) i) (fun m L' p' => nth_error (t_mixins t) i = Some m /\ L' = L /\ p' = p).
Proof. intros P. unfold target_mixin. rewrite (mi_ty _ _ (proj2 P)). destruct (nth_error (t_mixins t) i); [apply m_ret|apply m_ub]; auto. Qed.
Lemma m_target_offset L p i : OK L p -> mtr L p (target_offset (fst p) i) (fun o L' p' => nth_error (t_offsets t) i = Some o /\ L' = L /\ p' = p).
Proof. intros P. unfold target_offset. rewrite (mi_ty _ _ (proj2 P)). destruct (nth_error (t_offsets t) i); [apply m_ret|apply m_ub]; auto. Qed.
Lemma m_target_data L p : OK L p -> mtr L p (target_data (fst p)) (fun b L' p' => mu_tdata (fst p) = Some b /\ L' = L /\ p' = p).
Proof. intros P. unfold target_data. destruct (mu_tdata (fst p)); [apply m_ret|apply m_ub]; auto. Qed.
Lemma m_get_obj L p o : OK L p -> mtr L p (lift (get_obj o)) (fun x L' p' => L' = L /\ p' = p).
Proof.
  intros P. eapply m_weak; [apply m_lift; [exact P|apply tr_get_obj; apply P]|]. cbn. intros a L' p' _ _ (H1 & H2 & -> & H3). split; auto. destruct p, p'; cbn in *; congruence.
Qed.
Lemma m_read_data L p b i : OK L p -> mtr L p (lift (read_data b i)) (fun d L' p' => (exists m, dslot E L b i m d) /\ L' = L /\ p' = p).
Proof.
  intros P. eapply m_weak; [apply m_lift; [exact P|apply tr_read_data; apply P]|]. cbn. intros a L' p' _ _ (H1 & H2 & H3 & -> & H4). split; auto. split; auto. destruct p, p'; cbn in *; congruence.
Qed.

Ltac mb H := eapply m_bnd; [apply H; auto|].
Ltac stay := intros ? ? ? _ ? (? & -> & ->).

Lemma old_slot_inv L mu m ob oi : MI L mu -> old_slot mu mid0 m = Some (ob, oi) -> In m (t_mixins t) ->
  exists ot, fitsL L ob ot /\ nth_error (t_mixins ot) oi = Some m.
Proof.
  intros I H Hm. unfold old_slot in H. destruct (mu_odata mu) as [b|] eqn:Hb; [|discriminate]. destruct (mi_o _ _ I FU b Hb) as (r & ot & A1 & A2 & A3 & A4 & A5). rewrite A1 in H.
  destruct (index_of ot (mid0 m)) as [j|] eqn:Hj; [|discriminate]. injection H as <- <-. exists ot. auto.
Qed.

(** ** Allocation *)
Lemma m_alloc_one L p i : OK L p -> mtr L p (alloc_one E U i) (fun _ _ p' => mu_uu (fst p') = mu_uu (fst p)).
Proof.
  intros P. unfold alloc_one. mb m_get_mu. intros ? ? ? _ _ (-> & -> & ->). mb m_target_offset. intros off ? ? _ _ (Hoff & -> & ->). mb m_target_data. intros tb ? ? _ _ (Htb & -> & ->).
  destruct HS as (Hlen & _ & H3 & _). assert (Hm : exists m, nth_error (t_mixins t) i = Some m).
  { destruct (nth_error (t_mixins t) i) eqn:Hn; [eauto|]. apply nth_error_None in Hn. apply nth_error_lt in Hoff. lia. }
  destruct Hm as (m & Hm). destruct (mi_t _ _ (proj2 P) FU tb Htb i m Hm) as (ms & offs & sz & al & off' & A & B & C & D). assert (off' = off) as -> by congruence. clear D.
  assert (Hfin : forall L' p', OK L' p' -> fst p' = fst p -> mtr L' p' (set_mu (fun mu => with_au mu (S i))) (fun _ _ p2 => mu_uu (fst p2) = mu_uu (fst p))).
  { intros L' p' P' Hf. eapply m_weak; [apply m_set_mu; auto; eapply mi_same; [apply P'|..]; reflexivity|]. cbn. intros _ _ p2 _ _ (_ & ->). cbn. congruence. }
  eapply m_bnd with (G := fun _ _ p' => fst p' = fst p); [|intros ? ? ? _ P' ?; apply Hfin; auto]. destruct (N.eqb_spec off 0) as [->|Hz]; cbn [negb].
  - mb m_target_mixin. intros m' ? ? _ _ (Hm' & -> & ->). assert (m' = m) as -> by congruence. clear Hm'. mb m_get_mid. intros ? ? ? _ _ (-> & -> & ->).
    assert (Hex : external (e_mixin E m) = true) by (apply (H3 i m 0%N); auto). destruct (old_slot (fst p) mid0 m) as [[ob oi]|] eqn:Ho.
    + destruct (old_slot_inv L (fst p) m ob oi (proj2 P) Ho) as (ot & F & Hot); [eapply nth_error_In; eauto|]. mb m_read_data. intros d ? ? _ _ ((m' & Hd) & -> & ->).
      pose proof (fits_slot _ _ _ _ _ _ _ F Hot Hd) as ->. eapply m_weak; [apply m_liftT; [exact P|]|auto]. eapply tr_write_data; [apply P|].
      instantiate (1 := m). exists ms, offs, sz, al, 0%N. split; auto. split; auto. split; auto. destruct Hd as (ms2 & offs2 & sz2 & al2 & off2 & B1 & B2 & B3 & [(B4 & B5 & B6)|(e & B4 & B5 & B6 & B7)]).
      * exfalso. pose proof (pl_sound _ _ _ _ (proj1 P) _ _ B1) as (_ & _ & S3 & _). apply B5. now apply (S3 oi m off2).
      * right. exists e. auto.
    + mb m_get_obj. intros o ? ? _ _ (-> & ->). eapply m_bnd; [apply m_lift; [exact P|]; unfold alloc_external; apply tr_alloc with (c := CExt m); cbn; auto; apply P|].
      cbn beta. intros e L' p' Hx P' (Hf & He). rewrite <- Hf. assert (Hd : dslot E L' tb i m {| md_buf := Some e; md_mixin := (e, m_buf_off (e_mixin E m)) |}).
      { exists ms, offs, sz, al, 0%N. split; auto. split; auto. split; auto. right. exists e. auto. }
      eapply m_bnd; [apply m_liftT; [exact P'|eapply tr_write_data; [apply P'|exact Hd]]|]. intros ? L2 p2 Hx2 P2 Hf2. rewrite <- Hf2. eapply m_weak; [apply m_liftT; [exact P2|]|auto].
      apply tr_set_object with (m := m); [apply P2|]. eapply spot_ext; [exact Hx2|]. exact (dslot_spot _ _ _ _ _ _ Hd).
  - assert (Hd : dslot E L tb i m {| md_buf := None; md_mixin := (tb, off) |}) by (exists ms, offs, sz, al, off; auto 8).
    eapply m_bnd; [apply m_liftT; [exact P|eapply tr_write_data; [apply P|exact Hd]]|]. intros ? L2 p2 Hx2 P2 Hf2. rewrite <- Hf2. eapply m_weak; [apply m_liftT; [exact P2|]|auto].
    apply tr_set_object with (m := m); [apply P2|]. eapply spot_ext; [exact Hx2|]. exact (dslot_spot _ _ _ _ _ _ Hd).
Qed.
Lemma m_alloc_loop l : forall L p, OK L p -> mtr L p (alloc_loop E U l) (fun _ _ p' => mu_uu (fst p') = mu_uu (fst p)).
Proof.
  induction l as [|i l IH]; intros L p P; cbn [alloc_loop]; [apply m_ret; auto|]. mb m_alloc_one. cbn. intros ? ? ? _ P' <-. now apply IH.
Qed.
Lemma tr_incr L s r : PI L s -> trs L s (on_world (fun w => incr_nobj w r)) T.
Proof. intros P. eapply tr_T. apply tr_on_world; auto. unfold incr_nobj. destruct (w_type (s_w s) r); reflexivity. Qed.
Lemma tr_decr L s r : PI L s -> trs L s (on_world (fun w => decr_nobj w r)) T.
Proof. intros P. eapply tr_T. apply tr_on_world; auto. unfold decr_nobj. destruct (w_type (s_w s) r) as [k|]; [|reflexivity]. destruct (t_nobj k); reflexivity. Qed.
Lemma m_allocate L p : OK L p -> mtr L p (allocate_mixin_data E U) (fun _ _ p' => mu_uu (fst p') = mu_uu (fst p)).
Proof.
  intros P. unfold allocate_mixin_data. mb m_get_mu. intros ? ? ? _ _ (-> & -> & ->). destruct (same_type (fst p)) eqn:Hs.
  - eapply m_weak; [apply m_set_mu; auto|cbn; intros _ _ p2 _ _ (_ & ->); reflexivity]. destruct (proj2 P) as [A B C]. constructor; cbn; auto. intros _ tb Hb. destruct (C FU tb Hb) as (r & ot & D1 & D2 & _ & _ & D5). unfold same_type in Hs. rewrite D1 in Hs.
    destruct (tref_eqb_spec r (mu_ref (fst p))); [|discriminate]. rewrite <- D5; auto.
  - mb m_get_obj. intros o ? ? _ _ (-> & ->). eapply m_bnd; [apply m_lift; [exact P|]|].
    + unfold allocate_object_buffer. eapply tr_bnd; [apply tr_alloc with (c := CObj (t_mixins t) (t_offsets t) (t_buf_size t) (t_buf_align t)); cbn; auto; [apply P|..]; rewrite (mi_ty _ _ (proj2 P)); reflexivity|].
      intros b L' s' _ P' Hb. eapply tr_bnd; [apply tr_incr; auto|]. intros ? L2 s2 Hx P2 _. apply tr_ret with (G := fun b L2 _ => L2 b = Some (CObj (t_mixins t) (t_offsets t) (t_buf_size t) (t_buf_align t))); auto.
    + cbn beta. intros b L' p' Hx P' (Hf & Hb). eapply m_bnd; [apply m_set_mu; auto|].
      * destruct (proj2 P') as [A B C]. constructor; cbn; auto. intros _ tb [= <-] i m Hi. destruct HS as (Hl & _). destruct (nth_error (t_offsets t) i) as [off|] eqn:Ho; [|apply nth_error_None in Ho; apply nth_error_lt in Hi; lia].
        exists (t_mixins t), (t_offsets t), (t_buf_size t), (t_buf_align t), off. auto.
      * cbn. intros ? ? p2 _ P2 (_ & ->). rewrite (mi_ty _ _ (proj2 P)). eapply m_weak; [apply m_alloc_loop; auto|]. cbn. intros _ _ p3 _ _ ->. congruence.
Qed.

(** ** Roll back *)
Lemma m_down f : (forall i L p, OK L p -> mtr L p (f i) T) -> forall n L p, OK L p -> mtr L p (down_loop f n) T.
Proof. intros H. induction n; intros L p P; cbn [down_loop]; [apply m_ret; auto; exact Logic.I|]. mb H. intros ? ? ? _ P' _. now apply IHn. Qed.
Lemma m_free_external L p o m b : OK L p -> mtr L p (lift (free_external E o m b)) T.
Proof. intros P. eapply m_T. apply m_liftT; auto. unfold free_external. apply tr_free. apply P. Qed.
Lemma tr_dob L s r k a b : PI L s -> trs L s (deallocate_object_buffer E r k a b) T.
Proof. intros P. unfold deallocate_object_buffer. eapply tr_bnd; [apply tr_free; auto|]. intros ? ? ? _ P' _. now apply tr_decr. Qed.
Lemma m_dealloc_one i L p : OK L p -> mtr L p (dealloc_one E i) T.
Proof.
  intros P. unfold dealloc_one. mb m_get_mu. intros ? ? ? _ _ (-> & -> & ->). mb m_target_data. intros tb ? ? _ _ (Htb & -> & ->). mb m_read_data. intros d ? ? _ _ (Hd & -> & ->).
  destruct (md_buf d) as [b|]; [|apply m_ret; auto; exact Logic.I]. mb m_target_mixin. intros m ? ? _ _ (Hm & -> & ->). mb m_get_mid. intros ? ? ? _ _ (-> & -> & ->).
  destruct (old_slot (fst p) mid0 m); [apply m_ret; auto; exact Logic.I|]. mb m_get_obj. intros ? ? ? _ _ (-> & ->). now apply m_free_external.
Qed.
Lemma m_deallocate L p : OK L p -> mtr L p (deallocate_mixin_data E) T.
Proof.
  intros P. unfold deallocate_mixin_data. mb m_get_mu. intros ? ? ? _ _ (-> & -> & ->). destruct (negb (mu_uu (fst p) =? 0)); [apply m_ub; auto|].
  mb m_down; [intros; now apply m_dealloc_one|]. intros ? L1 p1 _ P1 _. eapply m_bnd; [apply m_set_mu; auto; eapply mi_same; [apply P1|..]; reflexivity|]. intros ? L2 p2 _ P2 _.
  destruct (mu_tdata (fst p)) as [tb|]; [|apply m_ret; auto; exact Logic.I]. mb m_get_obj. intros ? ? ? _ _ (-> & ->). eapply m_bnd; [apply m_liftT; [exact P2|apply tr_dob; apply P2]|].
  intros ? L3 p3 _ P3 _. eapply m_T. apply m_set_mu; auto. destruct (proj2 P3) as [A B C]. constructor; cbn; auto. discriminate.
Qed.
Lemma m_destroy_one i L p : OK L p -> mtr L p (destroy_one E i) T.
Proof.
  intros P. unfold destroy_one. mb m_get_mu. intros ? ? ? _ _ (-> & -> & ->). mb m_target_mixin. intros m ? ? _ _ (Hm & -> & ->). mb m_get_mid. intros ? ? ? _ _ (-> & -> & ->).
  destruct (old_slot (fst p) mid0 m); [apply m_ret; auto; exact Logic.I|]. destruct (m_destroy (e_mixin E m)); [|apply m_ret; auto; exact Logic.I].
  mb m_target_data. intros tb ? ? _ _ (Htb & -> & ->). mb m_read_data. intros d ? ? _ _ (Hd & -> & ->). eapply m_T. apply m_liftT; auto. apply tr_destroy. apply P.
Qed.
Lemma m_destroy_new L p : OK L p -> mtr L p (destroy_new_mixins E) T.
Proof.
  intros P. unfold destroy_new_mixins. mb m_get_mu. intros ? ? ? _ _ (-> & -> & ->). mb m_down; [intros; now apply m_destroy_one|]. intros ? L1 p1 _ P1 _. eapply m_T. apply m_set_mu; auto. eapply mi_same; [apply P1|..]; reflexivity.
Qed.
Lemma m_rollback L p : OK L p -> mtr L p (rollback E) T.
Proof.
  intros P. unfold rollback. eapply m_bnd; [apply m_set_mu; auto; eapply mi_same; [apply P|..]; reflexivity|]. intros ? L1 p1 _ P1 _. mb m_get_mu. intros ? ? ? _ _ (-> & -> & ->).
  eapply m_bnd; [instantiate (1 := T); destruct (negb (same_type (fst p1)))|].
  - mb m_destroy_new. intros ? ? ? _ P2 _. now apply m_deallocate.
  - apply m_ret; auto. exact Logic.I.
  - intros ? L3 p3 _ P3 _. eapply m_T. apply m_set_mu; auto. eapply mi_same; [apply P3|..]; reflexivity.
Qed.

(** ** The end *)
Lemma m_finalize_one L p r ob ot i : OK L p -> mu_odata (fst p) = Some ob -> mu_old (fst p) = Some (r, ot) -> mtr L p (finalize_one E U ob ot i) (fun _ _ p' => fst p' = fst p).
Proof.
  intros P Hod Hol. destruct (mi_o _ _ (proj2 P) FU ob Hod) as (r' & ot' & A1 & A2 & A3 & A4 & A5). assert (ot' = ot) as -> by congruence.
  unfold finalize_one. mb m_get_mu. intros ? ? ? _ _ (-> & -> & ->). eapply m_bnd with (G := fun m L' p' => nth_error (t_mixins ot) i = Some m /\ L' = L /\ p' = p).
  { destruct (nth_error (t_mixins ot) i); [apply m_ret|apply m_ub]; auto. }
  intros m ? ? _ _ (Hm & -> & ->). mb m_read_data. intros d ? ? _ _ ((m' & Hd) & -> & ->). pose proof (fits_slot _ _ _ _ _ _ _ A2 Hm Hd) as ->. mb m_get_mid. intros ? ? ? _ _ (-> & -> & ->).
  rewrite (mi_ty _ _ (proj2 P)). destruct (index_of t (mid0 m)) as [ti|] eqn:Hti.
  - destruct (md_buf d); [apply m_ret; auto|]. mb m_target_data. intros tb ? ? _ _ (Htb & -> & ->). mb m_read_data. intros nd ? ? _ _ ((m' & Hnd) & -> & ->).
    assert (Hmt : nth_error (t_mixins t) ti = Some m) by (apply A4; auto; eapply nth_error_In; eauto). pose proof (fits_slot _ _ _ _ _ _ _ (mi_t _ _ (proj2 P) FU tb Htb) Hmt Hnd) as ->.
    eapply m_bnd with (G := fun _ _ p' => fst p' = fst p).
    + destruct (m_move_init (e_mixin E m)); [|apply m_ub; auto]. apply m_liftT; auto. apply tr_move_init; [apply P|]. eapply dslot_spot; eauto.
    + intros ? L1 p1 _ P1 H1. eapply m_weak; [apply m_liftT; [exact P1|apply tr_destroy; apply P1]|]. cbn. intros. congruence.
  - eapply m_bnd; [apply m_liftT; [exact P|apply tr_destroy; apply P]|]. intros ? L1 p1 _ P1 H1. destruct (md_buf d) as [b|]; [|apply m_ret; auto]. mb m_get_obj. intros o ? ? _ _ (-> & ->).
    eapply m_weak; [apply m_liftT; [exact P1|unfold free_external; apply tr_free; apply P1]|]. cbn. intros. congruence.
Qed.
Lemma m_finalize_loop r ob ot l : forall L p, OK L p -> mu_odata (fst p) = Some ob -> mu_old (fst p) = Some (r, ot) -> mtr L p (finalize_loop E U ob ot l) (fun _ _ p' => fst p' = fst p).
Proof.
  induction l as [|i l IH]; intros L p P H1 H2; cbn [finalize_loop]; [apply m_ret; auto|]. eapply m_bnd; [eapply m_finalize_one; eauto|]. cbn. intros ? L1 p1 _ P1 H3.
  eapply m_weak; [apply IH; auto; congruence|]. cbn. intros. congruence.
Qed.
Lemma m_install L p : OK L p -> mtr L p install T.
Proof.
  intros P. unfold install. mb m_get_mu. intros ? ? ? _ _ (-> & -> & ->). mb m_get_obj. intros o ? ? _ _ (-> & ->). eapply m_T. apply m_liftT; auto. eapply tr_T. apply tr_put_obj. apply P.
Qed.
Lemma mi_null L mu : MI L mu -> MI L (with_old_null mu).
Proof. intros [A B C]. constructor; cbn; auto. discriminate. Qed.
Lemma m_finalize L p : OK L p -> mtr L p (finalize E U) T.
Proof.
  intros P. unfold finalize. mb m_get_mu. intros ? ? ? _ _ (-> & -> & ->). destruct (negb (mu_complete (fst p))); [apply m_ret; auto; exact Logic.I|].
  destruct (same_type (fst p)); [eapply m_T; apply m_set_mu; auto; apply mi_null; apply P|]. eapply m_bnd; [instantiate (1 := T)|intros ? ? ? _ P' _; now apply m_install].
  destruct (mu_odata (fst p)) as [ob|] eqn:Ho; [|apply m_ret; auto; exact Logic.I]. destruct (mu_old (fst p)) as [[r ot]|] eqn:Hold; [|apply m_ub; auto].
  eapply m_bnd; [eapply m_finalize_loop; eauto|]. intros ? L1 p1 _ P1 _. mb m_get_obj. intros o ? ? _ _ (-> & ->). eapply m_bnd; [apply m_liftT; [exact P1|apply tr_dob; apply P1]|].
  intros ? L2 p2 _ P2 _. eapply m_T. apply m_set_mu; auto. apply mi_null. apply P2.
Qed.

(** ** Functions that are called for mixins *)
Definition cn_ok (cn : cb_new) : Prop := forall L s m p i, PI L s -> spot E L m p -> trs L s (cn m p i) T.
Definition uc_ok (uc : cb_common) : Prop := forall L s m p i j, PI L s -> trs L s (uc m p i j) T.
(** for the mixin at one index only *)
Definition cn_at (n : nat) (cn : cb_new) : Prop := forall L s m p i, PI L s -> spot E L m p -> nth_error (t_mixins t) n = Some m -> trs L s (cn m p i) T.

Definition next_mu (mu mu' : omut) : Prop := mu_complete mu = true /\ mu' = mu \/
  mu_complete mu = false /\ mu' = with_uu mu (S (mu_uu mu)) (S (mu_uu mu) =? num_mixins t).
Lemma m_update_next L p cn uc : OK L p -> (mu_complete (fst p) = false -> cn_at (mu_uu (fst p)) cn) -> uc_ok uc -> mtr L p (update_next cn uc) (fun _ _ p' => next_mu (fst p) (fst p')).
Proof.
  intros P H1 H2. unfold update_next. mb m_get_mu. intros ? ? ? _ _ (-> & -> & ->). destruct (mu_complete (fst p)) eqn:Hc; [apply m_ret; auto; left; auto|]. specialize (H1 eq_refl).
  mb m_target_mixin. intros m ? ? _ _ (Hm & -> & ->). mb m_get_mid. intros ? ? ? _ _ (-> & -> & ->).
  eapply m_bnd with (G := fun _ _ p' => fst p' = fst p).
  - destruct (old_slot (fst p) mid0 m) as [[ob oi]|].
    + mb m_read_data. intros d ? ? _ _ (Hd & -> & ->). apply m_liftT; auto. apply H2. apply P.
    + mb m_target_data. intros tb ? ? _ _ (Htb & -> & ->). mb m_read_data. intros d ? ? _ _ ((m' & Hd) & -> & ->). pose proof (fits_slot _ _ _ _ _ _ _ (mi_t _ _ (proj2 P) FU tb Htb) Hm Hd) as ->.
      apply m_liftT; auto. apply H1; auto; [apply P|]. eapply dslot_spot; eauto.
  - cbn. intros ? L1 p1 _ P1 Hf. eapply m_weak; [apply m_set_mu; auto; eapply mi_same; [apply P1|..]; reflexivity|]. cbn. intros _ _ p2 _ _ (_ & ->). cbn. right. split; auto. rewrite Hf. now rewrite (mi_ty _ _ (proj2 P)).
Qed.
Lemma cn_ok_at cn n : cn_ok cn -> cn_at n cn.
Proof. intros H L s m p i P Hp _. now apply H. Qed.
Lemma m_turns cn uc n : cn_ok cn -> uc_ok uc -> forall L p, OK L p -> mtr L p (update_turns cn uc n) T.
Proof.
  intros H1 H2. induction n; intros L p P; cbn [update_turns]; [apply m_ret; auto; exact Logic.I|]. eapply m_bnd; [apply m_update_next; auto; intros; now apply cn_ok_at|]. intros ? ? ? _ P' _. now apply IHn.
Qed.
Lemma m_each cn uc u L p : cn_ok cn -> uc_ok uc -> OK L p -> mtr L p (update_each cn uc u) T.
Proof. intros H1 H2 P. unfold update_each. mb m_get_mu. intros ? ? ? _ _ (-> & -> & ->). now apply m_turns. Qed.
Lemma uc_noop : uc_ok noop_common.
Proof. intros L s m p i j P. apply tr_ret; auto. exact Logic.I. Qed.
Lemma cn_default : cn_ok (default_init E U).
Proof. intros L s m p i P H. unfold default_init. destruct (m_init (e_mixin E m)); [now apply tr_construct|now apply tr_raise]. Qed.
Lemma m_default u L p : OK L p -> mtr L p (default_each E U u) T.
Proof. intros P. apply m_each; auto; [apply cn_default|apply uc_noop]. Qed.
Lemma m_update_at i cn uc L p : cn_ok cn -> uc_ok uc -> OK L p -> mtr L p (update_at E U i cn uc) T.
Proof.
  intros H1 H2 P. unfold update_at. mb m_get_mu. intros ? ? ? _ _ (-> & -> & ->). destruct ((i <? mu_uu (fst p)) || (num_mixins (mu_ty (fst p)) <? i)); [apply m_raise; auto|].
  mb m_default. intros ? ? ? _ P' _. eapply m_T. apply m_update_next; auto. intros. now apply cn_ok_at.
Qed.

(** Default construction up to index [i] leaves the mutation at [i]. *)
Lemma m_turns_uu n : forall L p i, OK L p -> mu_uu (fst p) + n = i -> i < num_mixins t -> mtr L p (update_turns (default_init E U) noop_common n) (fun _ _ p' => mu_complete (fst p') = true \/ mu_uu (fst p') = i).
Proof.
  induction n; intros L p i P H1 H2; cbn [update_turns]; [apply m_ret; auto; right; lia|]. eapply m_bnd; [apply m_update_next; auto; [intros; apply cn_ok_at; apply cn_default|apply uc_noop]|].
  cbn. intros ? L1 p1 _ P1 [[Hc He]|[Hc He]].
  - clear IHn. assert (Hl : forall k L p, OK L p -> mu_complete (fst p) = true -> mtr L p (update_turns (default_init E U) noop_common k) (fun _ _ p' => mu_complete (fst p') = true \/ mu_uu (fst p') = i)).
    { induction k; intros L' p' P' Hc'; cbn [update_turns]; [apply m_ret; auto|]. eapply m_bnd; [apply m_update_next; auto; [intros; congruence|apply uc_noop]|].
      cbn. intros ? L3 p3 _ P3 [[Hc3 He3]|[Hc3 _]]; [|congruence]. apply IHk; auto. now rewrite He3. }
    apply Hl; auto. now rewrite He.
  - apply IHn; auto. rewrite He. cbn. lia.
Qed.
Lemma m_default_uu i L p : OK L p -> mu_uu (fst p) <= i -> i < num_mixins t -> mtr L p (default_each E U (Some i)) (fun _ _ p' => mu_complete (fst p') = true \/ mu_uu (fst p') = i).
Proof.
  intros P H1 H2. unfold default_each, construct_each, update_each. mb m_get_mu. intros ? ? ? _ _ (-> & -> & ->). rewrite (mi_ty _ _ (proj2 P)).
  destruct (Nat.ltb_spec (num_mixins t) i); [lia|]. apply m_turns_uu; auto. lia.
Qed.

(** ** The whole mutation *)
Lemma m_start x L p : OK L p -> mtr L p (start E U x) (fun _ _ p' => mu_uu (fst p') = mu_uu (fst p)).
Proof. intros P. unfold start. destruct (o_sealed x); [now apply m_raise|]. now apply m_allocate. Qed.
Lemma m_unwind A e L p : OK L p -> mtr L p (unwind E e : M mst A) T.
Proof.
  intros P. unfold unwind. mb m_get_mu. intros ? ? ? _ _ (-> & -> & ->). eapply m_bnd; [instantiate (1 := T)|intros ? ? ? _ P' _; now apply m_raise].
  destruct (mu_moved (fst p)); [apply m_ret; auto; exact Logic.I|now apply m_rollback].
Qed.
Lemma m_finish unw L p : OK L p -> mtr L p (finish E U unw) T.
Proof.
  intros P. unfold finish. mb m_get_mu. intros ? ? ? _ _ (-> & -> & ->). destruct (mu_moved (fst p)); [apply m_ret; auto; exact Logic.I|]. destruct unw; [now apply m_rollback|].
  intros p' r. destruct (default_each E U None p) as [p1 [a|e|u]] eqn:Hd; destruct (m_default None L p P _ _ Hd) as (L1 & A1 & A2 & A3).
  - intros Hf. destruct (m_finalize L1 p1 A2 _ _ Hf) as (L2 & B1 & B2 & B3). exists L2. split; [eapply ext_trans; eauto|auto].
  - intros Hf. assert (Hk : mtr L1 p1 (rollback E;; raise e : M mst unit) T) by (mb m_rollback; intros ? ? ? _ P' _; now apply m_raise).
    destruct (Hk _ _ Hf) as (L2 & B1 & B2 & B3). exists L2. split; [eapply ext_trans; eauto|auto].
  - intros [= <- <-]. exists L1. split; [exact A1|]. split; [exact A2|intros; exact Logic.I].
Qed.
End Mut.
