(** Where mixins are: every place that is used belongs to the layout of its block *)
From Coq Require Import List Arith ZArith NArith Lia Bool.
From Verif Require Import Base Sv BaseLemmas Info MixinInfo TypeMut TypeBuild TypeQuery Domain ElemProofs Heap HeapProofs Mutation Object SpecObj SpecLog LogProofs SpecLayout SpecPlace TypeTheorems PartProofs.
Import ListNotations.

(** What a block was allocated for: the buffer of an object of a type, or an external mixin *)
Inductive contents := CObj (ms : list mptr) (offs : list N) (size align : N) | CExt (m : mptr).
Definition plan := nat -> option contents.
Definition ext (L L' : plan) : Prop := forall b c, L b = Some c -> L' b = Some c.
Lemma ext_refl L : ext L L.
Proof. intros b c H. exact H. Qed.
Lemma ext_trans L1 L2 L3 : ext L1 L2 -> ext L2 L3 -> ext L1 L3.
Proof. intros A B b c H. auto. Qed.
Definition ladd (L : plan) (b : nat) (c : contents) : plan := upd L b (Some c).
Lemma ladd_same L b c : ladd L b c b = Some c.
Proof. apply upd_same. Qed.
Lemma ladd_ext L b c : L b = None -> ext L (ladd L b c).
Proof. intros H b' c' H'. unfold ladd. rewrite upd_other; auto. congruence. Qed.

Section Place.
Variable E : env.
Variable U : user.
Hypothesis SZ : sized_mixins E.
Hypothesis AM : aligned_mixins E.

Definition c_size (c : contents) : N := match c with CObj _ _ s _ => s | CExt m => m_buf_size (e_mixin E m) end.
Definition c_align (c : contents) : N := match c with CObj _ _ _ a => a | CExt m => m_buf_off (e_mixin E m) end.
Definition c_sound (c : contents) : Prop := match c with CObj ms offs s a => sound_layout E ms offs s a | CExt _ => True end.

(** [p] is a place for mixin [m] *)
Definition spot (L : plan) (m : mptr) (p : addr) : Prop :=
  match L (fst p) with
  | Some (CObj ms offs _ _) => exists i, nth_error ms i = Some m /\ nth_error offs i = Some (snd p) /\ snd p <> 0%N
  | Some (CExt m') => m' = m /\ snd p = m_buf_off (e_mixin E m)
  | None => False
  end.
Definition sound (L : plan) : Prop := forall b c, L b = Some c -> c_sound c.
Lemma spot_ext L L' m p : ext L L' -> spot L m p -> spot L' m p.
Proof. intros H. unfold spot. destruct (L (fst p)) as [c|] eqn:Hc; [|tauto]. now rewrite (H _ _ Hc). Qed.

Lemma spot_well L m p : sound L -> spot L m p -> exists c, L (fst p) = Some c /\ well_placed E (c_size c) (c_align c) m (snd p).
Proof.
  intros S H. unfold spot in H. destruct (L (fst p)) as [c|] eqn:Hc; [|destruct H]. exists c. split; auto. pose proof (S _ _ Hc) as Hs. destruct c as [ms offs sz al|m'].
  - destruct H as (i & H1 & H2 & H3). destruct Hs as (L1 & L2 & L3 & L4). destruct (L3 i m (snd p) H1 H2) as [A B]. destruct (external (e_mixin E m)); [tauto|].
    destruct (B eq_refl) as (B1 & B2 & B3 & B4 & B5). split; [exact B4|]. split; [exact B5|exact B2].
  - destruct H as [-> ->]. destruct (SZ m) as [A B]. pose proof (c22 (e_mixin E m) _ _ (AM m) B) as (_ & _ & C). cbv zeta in C. rewrite <- A in C. cbn [c_size c_align].
    destruct (C 0%N (N.divide_0_r _)) as (C1 & C2 & C3 & C4 & C5). rewrite !N.add_0_l in *. split; [exact C3|]. split; [exact C5|]. intros base Hb. destruct (C base Hb) as (D1 & D2 & D3 & D4 & D5). auto.
Qed.
Lemma spot_apart L m m' b off off' : sound L -> spot L m (b, off) -> spot L m' (b, off') -> (m = m' /\ off = off') \/ places_apart E m off m' off'.
Proof.
  intros S. unfold spot. cbn [fst snd]. destruct (L b) as [[ms offs sz al|m0]|] eqn:Hc; [|intros [-> ->] [-> ->]; auto|intros []].
  intros (i & A1 & A2 & A3) (j & B1 & B2 & B3). destruct (S _ _ Hc) as (L1 & L2 & L3 & L4). destruct (Nat.eq_dec i j) as [->|Hn]; [left; split; congruence|]. right.
  destruct (L3 _ _ _ A1 A2) as [X1 _]. destruct (L3 _ _ _ B1 B2) as [Y1 _].
  unfold places_apart. apply (L4 i j); auto; [destruct (external (e_mixin E m))|destruct (external (e_mixin E m'))]; tauto.
Qed.
Lemma spot_fun L m m' p : sound L -> spot L m p -> spot L m' p -> m = m'.
Proof.
  intros S A B. destruct p as [b off]. destruct (spot_apart L m m' b off off S A B) as [[]|Hp]; auto. exfalso.
  destruct (spot_well L m _ S A) as (c & Hc & W1 & _). cbn [snd] in W1. unfold places_apart, apart in Hp. lia.
Qed.
(** The array of mixin data ends before the first mixin. *)
Lemma spot_array L m b off ms offs sz al : sound L -> L b = Some (CObj ms offs sz al) -> spot L m (b, off) -> (16 * N.of_nat (length ms) <= off - 8)%N.
Proof.
  intros S Hc. unfold spot. cbn [fst snd]. rewrite Hc. intros (i & A1 & A2 & A3). destruct (S _ _ Hc) as (L1 & L2 & L3 & L4). destruct (L3 _ _ _ A1 A2) as [X1 X2].
  destruct (external (e_mixin E m)); [tauto|]. now apply X2.
Qed.

(** The entry [i] of the array in block [b] *)
Definition dslot (L : plan) (b i : nat) (m : mptr) (d : mdata) : Prop :=
  exists ms offs sz al off, L b = Some (CObj ms offs sz al) /\ nth_error ms i = Some m /\ nth_error offs i = Some off /\
    ((md_buf d = None /\ off <> 0%N /\ md_mixin d = (b, off)) \/
     (exists e, md_buf d = Some e /\ off = 0%N /\ L e = Some (CExt m) /\ md_mixin d = (e, m_buf_off (e_mixin E m)))).
Lemma dslot_ext L L' b i m d : ext L L' -> dslot L b i m d -> dslot L' b i m d.
Proof. intros H (ms & offs & sz & al & off & A & B & C & D). exists ms, offs, sz, al, off. split; auto. split; auto. split; auto. destruct D as [D|(e & D1 & D2 & D3 & D4)]; auto. right. exists e. auto. Qed.
Lemma dslot_spot L b i m d : dslot L b i m d -> spot L m (md_mixin d).
Proof.
  intros (ms & offs & sz & al & off & A & B & C & [(D1 & D2 & D3)|(e & D1 & D2 & D3 & D4)]).
  - rewrite D3. unfold spot. cbn [fst snd]. rewrite A. exists i. auto.
  - rewrite D4. unfold spot. cbn [fst snd]. now rewrite D3.
Qed.

Section Mid.
Variable mid0 : mptr -> option nat.

Definition good_ev (L : plan) (e : ev) : Prop :=
  match e with
  | EvAlloc _ b sz al => exists c, L b = Some c /\ sz = c_size c /\ al = c_align c
  | EvFree _ _ _ _ => True
  | EvCall _ m p src _ => spot L m p /\ forall q, src = Some q -> spot L m q
  end.
Lemma good_ext L L' e : ext L L' -> good_ev L e -> good_ev L' e.
Proof.
  intros H. destruct e as [a b sz al|a b sz al|f m p src err]; cbn; auto.
  - intros (c & A & B & C). exists c. auto.
  - intros [A B]. split; [eapply spot_ext; eauto|]. intros q Hq. eapply spot_ext; eauto.
Qed.

Record PI (L : plan) (s : st) : Prop := {
  pl_mid : w_mid (s_w s) = mid0;
  pl_sound : sound L;
  pl_next : forall b, s_next s <= b -> L b = None;
  pl_dat : forall b i d, bdat (s_blk s) b i = Some d -> exists m, dslot L b i m d;
  pl_inst : forall p x, binst (s_blk s) p = Some x -> spot L (i_mixin x) p;
  pl_back : forall p o, bback (s_blk s) p = Some o -> exists m, spot L m p;
  pl_log : forall e, In e (s_log s) -> good_ev L e
}.

Lemma pi_change L s s' : PI L s -> w_mid (s_w s') = w_mid (s_w s) -> s_next s' = s_next s ->
  (forall b i d, bdat (s_blk s') b i = Some d -> bdat (s_blk s) b i = Some d \/ exists m, dslot L b i m d) ->
  (forall p x, binst (s_blk s') p = Some x -> binst (s_blk s) p = Some x \/ spot L (i_mixin x) p) ->
  (forall p o, bback (s_blk s') p = Some o -> bback (s_blk s) p = Some o \/ exists m, spot L m p) ->
  (forall e, In e (s_log s') -> In e (s_log s) \/ good_ev L e) -> PI L s'.
Proof.
  intros [P1 P2 P3 P4 P5 P6 P7] H1 H2 H3 H4 H5 H6. constructor; auto.
  - congruence.
  - intros b. rewrite H2. auto.
  - intros b i d Hd. destruct (H3 b i d Hd); eauto.
  - intros p x Hx. destruct (H4 p x Hx); eauto.
  - intros p o Ho. destruct (H5 p o Ho); eauto.
  - intros e He. destruct (H6 e He); eauto.
Qed.
Lemma pi_same L s s' : PI L s -> w_mid (s_w s') = w_mid (s_w s) -> s_next s' = s_next s -> s_blk s' = s_blk s -> s_log s' = s_log s -> PI L s'.
Proof. intros P H1 H2 H3 H4. eapply pi_change; eauto; rewrite ?H3, ?H4; auto. Qed.

(** ** Programs on the state *)
Definition trs {A} (L : plan) (s : st) (x : M st A) (G : A -> plan -> st -> Prop) : Prop :=
  forall s' r, x s = (s', r) -> exists L', ext L L' /\ PI L' s' /\ forall a, r = Ok a -> G a L' s'.
Definition T {A S} : A -> plan -> S -> Prop := fun _ _ _ => True.

Lemma tr_stay A L s (r : res A) x (G : A -> plan -> st -> Prop) : PI L s -> x s = (s, r) -> (forall a, r = Ok a -> G a L s) -> trs L s x G.
Proof. intros P Hx H s' r' Hx'. rewrite Hx in Hx'. injection Hx' as <- <-. exists L. split; [apply ext_refl|]. auto. Qed.
Lemma tr_ret A L s (a : A) (G : A -> plan -> st -> Prop) : PI L s -> G a L s -> trs L s (ret a) G.
Proof. intros P H. apply (tr_stay A L s (Ok a)); auto. intros a' [= <-]. exact H. Qed.
Lemma tr_raise A L s e (G : A -> plan -> st -> Prop) : PI L s -> trs L s (raise e) G.
Proof. intros P. apply (tr_stay A L s (Throw e)); auto. discriminate. Qed.
Lemma tr_ub A L s u (G : A -> plan -> st -> Prop) : PI L s -> trs L s (ub u) G.
Proof. intros P. apply (tr_stay A L s (Ub u)); auto. discriminate. Qed.
Lemma tr_const A L s (f : st -> res A) : PI L s -> trs L s (fun s => (s, f s)) (fun a L' s' => f s = Ok a /\ L' = L /\ s' = s).
Proof. intros P. apply (tr_stay A L s (f s)); auto. Qed.
Lemma tr_weak A L s (x : M st A) (G H : A -> plan -> st -> Prop) : trs L s x G -> (forall a L' s', ext L L' -> PI L' s' -> G a L' s' -> H a L' s') -> trs L s x H.
Proof. intros Hx HG s' r Hr. destruct (Hx s' r Hr) as (L' & A1 & A2 & A3). exists L'. split; auto. Qed.
Lemma tr_T A L s (x : M st A) (G : A -> plan -> st -> Prop) : trs L s x G -> trs L s x T.
Proof. intros H. eapply tr_weak; eauto. intros. exact Logic.I. Qed.
Lemma tr_bnd A B L s (x : M st A) (f : A -> M st B) G H : trs L s x G -> (forall a L' s', ext L L' -> PI L' s' -> G a L' s' -> trs L' s' (f a) H) -> trs L s (bnd x f) H.
Proof.
  intros Hx Hf s' r. unfold bnd. destruct (x s) as [s1 [a|e|u]] eqn:Hs; destruct (Hx _ _ Hs) as (L1 & A1 & A2 & A3).
  - intros Hr. destruct (Hf a L1 s1 A1 A2 (A3 a eq_refl) s' r Hr) as (L2 & B1 & B2 & B3). exists L2. split; [eapply ext_trans; eauto|]. auto.
  - intros [= <- <-]. exists L1. split; auto. split; auto. discriminate.
  - intros [= <- <-]. exists L1. split; auto. split; auto. discriminate.
Qed.
Lemma tr_get_obj L s o : PI L s -> trs L s (get_obj o) (fun x L' s' => s_obj s o = Some x /\ L' = L /\ s' = s).
Proof. intros P. unfold get_obj. destruct (s_obj s o) eqn:Ho; eapply tr_stay; eauto; cbn; try (rewrite Ho; reflexivity); try discriminate. intros a [= ->]. auto. Qed.
Lemma tr_get_ty L s r : PI L s -> trs L s (get_ty r) (fun t L' s' => w_type (s_w s) r = Some t /\ L' = L /\ s' = s).
Proof. intros P. unfold get_ty. destruct (w_type (s_w s) r) eqn:Ho; eapply tr_stay; eauto; cbn; try (rewrite Ho; reflexivity); try discriminate. intros a [= ->]. auto. Qed.
Lemma tr_put_obj L s o x : PI L s -> trs L s (put_obj o x) (fun _ L' s' => L' = L /\ s' = set_obj s o x).
Proof. intros P s' r [= <- <-]. exists L. split; [apply ext_refl|]. split; [eapply pi_same; eauto|]. auto. Qed.
Lemma tr_on_world A L s (f : world -> world * res A) : PI L s -> w_mid (fst (f (s_w s))) = w_mid (s_w s) -> trs L s (on_world f) (fun a L' s' => L' = L /\ s' = set_w s (fst (f (s_w s))) /\ snd (f (s_w s)) = Ok a).
Proof. intros P Hm s' r [= <- <-]. exists L. split; [apply ext_refl|]. split; [eapply pi_same; eauto|]. auto. Qed.

(** ** Memory *)
Lemma tr_alloc L s a size align c : PI L s -> c_sound c -> size = c_size c -> align = c_align c -> trs L s (alloc U a size align) (fun b L' _ => L' b = Some c).
Proof.
  intros P Hs H1 H2 s' r. rewrite alloc_step. destruct (an_err (u_ans U (s_calls s)) =? 0)%Z.
  2:{ intros [= <- <-]. exists L. split; [apply ext_refl|]. split; [eapply pi_same; eauto|discriminate]. }
  intros [= <- <-]. set (b := s_next s). assert (Hb : L b = None) by (apply (pl_next _ _ P); unfold b; lia). pose proof (ladd_ext L b c Hb) as Hx. exists (ladd L b c). split; auto. split; [|intros a' [= <-]; apply ladd_same].
  destruct P as [P1 P2 P3 P4 P5 P6 P7]. constructor; auto.
  - intros b' c'. unfold ladd, upd. destruct (b' =? b); [intros [= <-]; auto|apply P2].
  - cbn. intros b' Hb'. unfold ladd. rewrite upd_other by (fold b in Hb'; lia). apply P3. fold b. lia.
  - cbn. intros b' i d. unfold bdat, upd. fold b. destruct (Nat.eqb_spec b' b) as [->|]; [discriminate|]. intros Hd. destruct (P4 b' i d Hd) as (m & Hm). exists m. eapply dslot_ext; eauto.
  - cbn. intros p x. unfold binst, upd. fold b. destruct (Nat.eqb_spec (fst p) b) as [He|]; [discriminate|]. intros Hd. eapply spot_ext; [exact Hx|]. now apply P5.
  - cbn. intros p o. unfold bback, upd. fold b. destruct (Nat.eqb_spec (fst p) b) as [He|]; [discriminate|]. intros Hd. destruct (P6 p o Hd) as (m & Hm). exists m. eapply spot_ext; eauto.
  - cbn. intros e He. apply in_app_or in He. destruct He as [He|[<-|[]]]; [eapply good_ext; eauto|]. cbn. exists c. fold b. rewrite ladd_same. auto.
Qed.
Lemma tr_free L s a b size align : PI L s -> trs L s (free E a b size align) T.
Proof.
  intros P. unfold free. intros s' r. unfold bnd, get_blk. destruct (s_blk s b) as [k|] eqn:Hb.
  2:{ intros [= <- <-]. exists L. split; [apply ext_refl|]. split; auto; discriminate. }
  destruct (aid_eqb (b_alloc k) a && (b_size k =? size)%N && (b_align k =? align)%N); [destruct (all_dead E (b_inst k))|]; intros [= <- <-]; exists L; (split; [apply ext_refl|]); (split; [|intros; exact Logic.I]); auto.
  eapply pi_change; eauto; cbn.
  - intros b' i d. unfold bdat, upd. destruct (b' =? b); [discriminate|auto].
  - intros p x. unfold binst, upd. destruct (fst p =? b); [discriminate|auto].
  - intros p x. unfold bback, upd. destruct (fst p =? b); [discriminate|auto].
  - intros e He. apply in_app_or in He. destruct He as [He|[<-|[]]]; auto. right. exact Logic.I.
Qed.
Lemma tr_read_data L s b i : PI L s -> trs L s (read_data b i) (fun d L' s' => (exists m, dslot L b i m d) /\ bdat (s_blk s) b i = Some d /\ L' = L /\ s' = s).
Proof.
  intros P. destruct (bdat (s_blk s) b i) as [d|] eqn:Hd.
  - eapply tr_stay; eauto; [apply read_data_step; eauto|]. intros a [= <-]. split; auto. eapply pl_dat; eauto.
  - unfold bdat in Hd. unfold read_data. intros s' r. unfold bnd, get_blk. destruct (s_blk s b) as [k|]; [rewrite Hd|]; intros [= <- <-]; exists L; (split; [apply ext_refl|]); split; auto; discriminate.
Qed.
Lemma has_or s b : has_blk s b \/ s_blk s b = None.
Proof. unfold has_blk. destruct (battr (s_blk s) b) eqn:Hb; [left; discriminate|right; now apply battr_none]. Qed.
Lemma tr_write_data L s b i m d : PI L s -> dslot L b i m d -> trs L s (write_data b i d) T.
Proof.
  intros P Hd. destruct (has_or s b) as [Hb|Hb].
  - intros s' r. rewrite write_data_step by auto. intros [= <- <-]. exists L. split; [apply ext_refl|]. split; [|intros; exact Logic.I].
    destruct (st_data_views s b i d Hb) as (V1 & V2 & V3 & V4). destruct (in_blk_rest s b (fun k => with_data k i d)) as ((R1 & R2 & R3) & _ & R4). fold (st_data s b i d) in *.
    eapply pi_change; eauto.
    + now rewrite R1.
    + intros b' j d'. rewrite V2. destruct (Nat.eqb_spec b' b) as [->|]; cbn; auto. destruct (Nat.eqb_spec j i) as [->|]; auto. intros [= <-]. eauto.
    + intros p x. rewrite V4. auto.
    + intros p o. rewrite V3. auto.
    + rewrite R4. auto.
  - eapply tr_stay; eauto; [unfold write_data, bnd, get_blk; rewrite Hb; reflexivity|discriminate].
Qed.
Lemma tr_set_object L s p o m : PI L s -> spot L m p -> trs L s (set_object p o) T.
Proof.
  intros P Hd. destruct (has_or s (fst p)) as [Hb|Hb].
  - intros s' r. rewrite set_object_step by auto. intros [= <- <-]. exists L. split; [apply ext_refl|]. split; [|intros; exact Logic.I].
    destruct (st_back_views s p o Hb) as (V1 & V2 & V3 & V4). destruct (in_blk_rest s (fst p) (fun k => with_back k (snd p) o)) as ((R1 & R2 & R3) & _ & R4). fold (st_back s p o) in *.
    eapply pi_change; eauto.
    + now rewrite R1.
    + intros b' j d'. rewrite V2. auto.
    + intros q x. rewrite V4. auto.
    + intros q o'. rewrite V3. destruct (addr_eqb_spec q p) as [->|]; eauto.
    + rewrite R4. auto.
  - eapply tr_stay; eauto; [unfold set_object, bnd, get_blk; rewrite Hb; reflexivity|discriminate].
Qed.

(** ** Calls *)
Lemma pi_tick L s : PI L s -> PI L (add_call s).
Proof. intros P. eapply pi_same; eauto. Qed.
Lemma pi_call L s f m p src e : PI L s -> spot L m p -> (forall q, src = Some q -> spot L m q) -> PI L (st_call s f m p src e).
Proof. intros P H1 H2. eapply pi_change; eauto; cbn; auto. intros x Hx. apply in_app_or in Hx. destruct Hx as [Hx|[<-|[]]]; auto. right. cbn. auto. Qed.
Lemma pi_inst L s p x : PI L s -> has_blk s (fst p) -> spot L (i_mixin x) p -> PI L (st_inst s p x).
Proof.
  intros P Hb H. destruct (st_inst_views s p x Hb) as (V1 & V2 & V3 & V4). destruct (in_blk_rest s (fst p) (fun k => with_inst k (aset (snd p) x (b_inst k)))) as ((R1 & R2 & R3) & _ & R4). fold (st_inst s p x) in *.
  eapply pi_change; eauto.
  - now rewrite R1.
  - intros b' j d'. rewrite V2. auto.
  - intros q y. rewrite V4. destruct (addr_eqb_spec q p) as [->|]; auto. intros [= <-]. auto.
  - intros q o'. rewrite V3. auto.
  - rewrite R4. auto.
Qed.
Lemma pi_del L s p : PI L s -> has_blk s (fst p) -> PI L (st_del s p).
Proof.
  intros P Hb. destruct (st_del_views s p Hb) as (V1 & V2 & V3 & V4). destruct (in_blk_rest s (fst p) (fun k => with_inst k (adel (snd p) (b_inst k)))) as ((R1 & R2 & R3) & _ & R4). fold (st_del s p) in *.
  eapply pi_change; eauto.
  - now rewrite R1.
  - intros b' j d'. rewrite V2. auto.
  - intros q y. rewrite V4. destruct (addr_eqb_spec q p) as [->|]; auto. discriminate.
  - intros q o'. rewrite V3. auto.
  - rewrite R4. auto.
Qed.
Lemma tr_done A L s s1 (r : res A) x : PI L s1 -> x s = (s1, r) -> trs L s x T.
Proof. intros P Hx s' r' Hx'. rewrite Hx in Hx'. injection Hx' as <- <-. exists L. split; [apply ext_refl|]. split; auto. intros. exact Logic.I. Qed.
Lemma inst_spot L s m p x : PI L s -> binst (s_blk s) p = Some x -> i_mixin x = m -> spot L m p.
Proof. intros P H <-. eapply pl_inst; eauto. Qed.

Lemma tr_construct L s f m p src : PI L s -> spot L m p -> trs L s (construct E U f m p src) T.
Proof.
  intros P Hp. destruct (vacant_cases E (add_call s) p) as [[Hb Hv]|[u Hu]].
  2:{ eapply tr_done; [apply pi_tick; exact P|]. unfold construct. unfold bnd at 1, tick. unfold bnd at 1. rewrite Hu. reflexivity. }
  assert (Hsrc : (exists q u, src = Some q /\ live m q (add_call s) = (add_call s, Ub u)) \/
    ((exists v, match src with Some q => exists x, binst (s_blk s) q = Some x /\ i_mixin x = m /\ i_val x = v | None => v = an_val (cur_ans U s) end) /\ forall q, src = Some q -> spot L m q)).
  { destruct src as [q|]; [|right; split; [eauto|discriminate]]. destruct (live_cases (add_call s) m q) as [(x & Hx & Hm)|[u Hu]]; [|left; eauto]. right. split; [exists (i_val x); eauto|].
    intros q' [= <-]. eapply inst_spot; eauto. }
  destruct Hsrc as [(q & u & -> & Hu)|[[v Hs] Hg]].
  { eapply tr_done; [apply pi_tick; exact P|]. unfold construct. unfold bnd at 1, tick. unfold bnd at 1. rewrite (vacant_step E (add_call s) p Hb Hv). unfold bnd at 1. unfold bnd at 1. rewrite Hu. reflexivity. }
  pose proof (construct_step E U s f m p src v Hb Hv Hs) as Hc. destruct (an_err (cur_ans U s) =? 0)%Z; (eapply tr_done; [|exact Hc]).
  - apply pi_inst; auto. now apply pi_call.
  - now apply pi_call.
Qed.
Lemma tr_copy_asgn L s m p src : PI L s -> trs L s (copy_asgn U m p src) T.
Proof.
  intros P. destruct (live_cases (add_call s) m p) as [(x & Hx & Hm)|[u Hu]].
  2:{ eapply tr_done; [apply pi_tick; exact P|]. unfold copy_asgn. unfold bnd at 1, tick. unfold bnd at 1. rewrite Hu. reflexivity. }
  destruct (live_cases (add_call s) m src) as [(y & Hy & Hmy)|[u Hu]].
  2:{ eapply tr_done; [apply pi_tick; exact P|]. unfold copy_asgn. unfold bnd at 1, tick. unfold bnd at 1. rewrite (live_step (add_call s) m p x Hx Hm). unfold bnd at 1. rewrite Hu. reflexivity. }
  pose proof (copy_asgn_step U s m p src x y Hx Hm Hy Hmy) as Hc. pose proof (binst_has s p x Hx) as Hb.
  assert (Hp : spot L m p) by (eapply inst_spot; eauto). assert (Hq : forall q, Some src = Some q -> spot L m q) by (intros q [= <-]; eapply inst_spot; eauto).
  destruct (an_err (cur_ans U s) =? 0)%Z; (eapply tr_done; [|exact Hc]); apply pi_inst; auto; now apply pi_call.
Qed.
Lemma tr_update L s k m p : PI L s -> trs L s (update U k m p) T.
Proof.
  intros P. destruct (live_cases (add_call s) m p) as [(x & Hx & Hm)|[u Hu]].
  2:{ eapply tr_done; [apply pi_tick; exact P|]. unfold update. unfold bnd at 1, tick. unfold bnd at 1. rewrite Hu. reflexivity. }
  assert (Hp : spot L m p) by (eapply inst_spot; eauto). eapply tr_done; [|exact (update_step U s k m p x Hx Hm)].
  apply pi_inst; [|exact (binst_has s p x Hx)|exact Hp]. apply pi_call; auto. discriminate.
Qed.
Lemma tr_move_init L s m p src : PI L s -> spot L m p -> trs L s (move_init E U m p src) T.
Proof.
  intros P Hp. destruct (vacant_cases E (add_call s) p) as [[Hb Hv]|[u Hu]].
  2:{ eapply tr_done; [apply pi_tick; exact P|]. unfold move_init. unfold bnd at 1, tick. unfold bnd at 1. rewrite Hu. reflexivity. }
  destruct (live_cases (add_call s) m src) as [(x & Hx & Hm)|[u Hu]].
  2:{ eapply tr_done; [apply pi_tick; exact P|]. unfold move_init. unfold bnd at 1, tick. unfold bnd at 1. rewrite (vacant_step E (add_call s) p Hb Hv). unfold bnd at 1. rewrite Hu. reflexivity. }
  assert (Hq : spot L m src) by (eapply inst_spot; eauto). eapply tr_done; [|exact (move_init_step E U s m p src x Hb Hv Hx Hm)].
  apply pi_inst; [| |exact Hq]; [apply pi_inst; [|exact Hb|exact Hp]|apply has_blk_inst; exact (binst_has s src x Hx)]. apply pi_call; auto. now intros q [= <-].
Qed.
Lemma tr_move_asgn L s m p src : PI L s -> trs L s (move_asgn U m p src) T.
Proof.
  intros P. destruct (live_cases (add_call s) m p) as [(y & Hy & Hmy)|[u Hu]].
  2:{ eapply tr_done; [apply pi_tick; exact P|]. unfold move_asgn. unfold bnd at 1, tick. unfold bnd at 1. rewrite Hu. reflexivity. }
  destruct (live_cases (add_call s) m src) as [(x & Hx & Hm)|[u Hu]].
  2:{ eapply tr_done; [apply pi_tick; exact P|]. unfold move_asgn. unfold bnd at 1, tick. unfold bnd at 1. rewrite (live_step (add_call s) m p y Hy Hmy). unfold bnd at 1. rewrite Hu. reflexivity. }
  assert (Hp : spot L m p) by (eapply inst_spot; eauto). assert (Hq : spot L m src) by (eapply inst_spot; eauto). eapply tr_done; [|exact (move_asgn_step U s m p src x y Hy Hmy Hx Hm)].
  apply pi_inst; [| |exact Hq]; [apply pi_inst; [|exact (binst_has s p y Hy)|exact Hp]|apply has_blk_inst; exact (binst_has s src x Hx)]. apply pi_call; auto. now intros q [= <-].
Qed.
Lemma tr_destroy L s m p : PI L s -> trs L s (destroy E m p) T.
Proof.
  intros P. destruct (m_destroy (e_mixin E m)) eqn:Hd; [|eapply tr_done; [exact P|now apply destroy_null]].
  destruct (live_cases s m p) as [(x & Hx & Hm)|[u Hu]].
  2:{ eapply tr_done; [exact P|]. unfold destroy. rewrite Hd. unfold bnd at 1. rewrite Hu. reflexivity. }
  eapply tr_done; [|exact (destroy_step E s m p x Hx Hm Hd)]. apply pi_del; [|exact (binst_has s p x Hx)].
  assert (Hp : spot L m p) by (eapply inst_spot; eauto). eapply pi_change; eauto; cbn; auto. intros e He. apply in_app_or in He. destruct He as [He|[<-|[]]]; auto. right. cbn. split; auto. discriminate.
Qed.
End Mid.
End Place.
