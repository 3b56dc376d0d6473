(** The memory that belongs to an object, complete or under construction. *)
From Coq Require Import List Arith ZArith NArith Lia Bool.
From Verif Require Import Base Sv BaseLemmas Info TypeBuild TypeQuery Domain Heap HeapProofs Mutation.
Import ListNotations.

Section Part.
Variable E : env.

(** Mixin and offset at an index of a type *)
Definition slot_at (t : type_rec) (i : nat) (m : mptr) (off : N) : Prop :=
  nth_error (t_mixins t) i = Some m /\ nth_error (t_offsets t) i = Some off.

(** What is used about a type *)
Record tgood (mid : mptr -> option nat) (t : type_rec) : Prop := {
  tg_len : length (t_offsets t) = length (t_mixins t);
  tg_nodup : NoDup (t_mixins t);
  tg_ext : forall i m off, slot_at t i m off -> (off = 0%N <-> external (e_mixin E m) = true);
  tg_off : forall i j off, nth_error (t_offsets t) i = Some off -> nth_error (t_offsets t) j = Some off -> off <> 0%N -> i = j;
  tg_idx : forall m i, nth_error (t_mixins t) i = Some m -> index_of t (mid m) = Some i
}.

Lemma slot_ex mid t i : tgood mid t -> i < length (t_mixins t) -> exists m off, slot_at t i m off.
Proof.
  intros G Hi. destruct (nth_error (t_mixins t) i) as [m|] eqn:Hm; [|apply nth_error_None in Hm; lia].
  destruct (nth_error (t_offsets t) i) as [off|] eqn:Ho; [|apply nth_error_None in Ho; rewrite (tg_len _ _ G) in Ho; lia].
  exists m, off. now split.
Qed.
Lemma slot_fun t i m off m' off' : slot_at t i m off -> slot_at t i m' off' -> m' = m /\ off' = off.
Proof. intros [A B] [C D]. rewrite A in C. rewrite B in D. injection C as <-. injection D as <-. auto. Qed.
Lemma slot_lt t i m off : slot_at t i m off -> i < length (t_mixins t).
Proof. intros [A _]. now apply nth_error_lt in A. Qed.
Lemma slot_inj mid t i j m off off' : tgood mid t -> slot_at t i m off -> slot_at t j m off' -> i = j.
Proof.
  intros G [A _] [B _]. pose proof (tg_nodup _ _ G) as Hn. rewrite NoDup_nth_error in Hn. apply Hn; [now apply nth_error_lt in A|congruence].
Qed.

Definition ext_al (a : nat) (m : mptr) : aid := match m_allocator (e_mixin E m) with Some n => AMix n | None => AObj a end.
Lemma ext_al_eq x m : ext_alloc E x m = ext_al (o_alloc x) m.
Proof. reflexivity. Qed.

(** The blocks of an object with array [tb]: the array itself and the owned blocks of external mixins *)
Definition fp (t : type_rec) (tb : nat) (dd : nat -> mdata) (own : nat -> bool) (b : nat) : Prop :=
  b = tb \/ exists i m, slot_at t i m 0%N /\ own i = true /\ md_buf (dd i) = Some b.

(** [dd] are the entries of the array, [dat] tells which are written, [own] which external blocks belong to it, and
    [con] where there is a constructed mixin. *)
Record part (B : blocks) (o a : nat) (t : type_rec) (tb : nat) (dd : nat -> mdata) (dat own con : nat -> bool) : Prop := {
  pa_blk : battr B tb = Some (AObj a, t_buf_size t, t_buf_align t);
  pa_range : forall i, dat i = true -> i < length (t_mixins t);
  pa_data : forall i, bdat B tb i = if dat i then Some (dd i) else None;
  pa_int : forall i m off, slot_at t i m off -> dat i = true -> off <> 0%N ->
    dd i = {| md_buf := None; md_mixin := (tb, off) |} /\ bback B (tb, off) = Some o;
  pa_ext : forall i m, slot_at t i m 0%N -> own i = true ->
    dat i = true /\ exists e, e <> tb /\ dd i = {| md_buf := Some e; md_mixin := (e, m_buf_off (e_mixin E m)) |} /\
    battr B e = Some (ext_al a m, m_buf_size (e_mixin E m), m_buf_off (e_mixin E m)) /\ bback B (md_mixin (dd i)) = Some o;
  pa_inj : forall i j m m', slot_at t i m 0%N -> slot_at t j m' 0%N -> own i = true -> own j = true -> md_buf (dd i) = md_buf (dd j) -> i = j;
  pa_con : forall i, con i = true -> exists m off v, slot_at t i m off /\ dat i = true /\ (off = 0%N -> own i = true) /\
    binst B (md_mixin (dd i)) = Some {| i_mixin := m; i_val := v |};
  pa_live : forall p x, fp t tb dd own (fst p) -> binst B p = Some x -> needs_destroy E x = true -> exists i, con i = true /\ p = md_mixin (dd i)
}.

Definition agree (B B' : blocks) (b : nat) : Prop :=
  battr B' b = battr B b /\ (forall i, bdat B' b i = bdat B b i) /\
  (forall n, binst B' (b, n) = binst B (b, n)) /\ (forall n, bback B' (b, n) = bback B (b, n)).
Lemma agree_eq B B' b : B' b = B b -> agree B B' b.
Proof. intros H. unfold agree, battr, bdat, binst, bback. simpl. rewrite H. auto. Qed.
Lemma agree_inst B B' p : agree B B' (fst p) -> binst B' p = binst B p.
Proof. intros (_ & _ & H & _). destruct p. apply H. Qed.
Lemma agree_back B B' p : agree B B' (fst p) -> bback B' p = bback B p.
Proof. intros (_ & _ & _ & H). destruct p. apply H. Qed.
Lemma agree_refl B b : agree B B b.
Proof. now apply agree_eq. Qed.
Lemma agree_trans A B C b : agree A B b -> agree B C b -> agree A C b.
Proof. intros (A1 & A2 & A3 & A4) (B1 & B2 & B3 & B4). split; [congruence|]. split; [|split]; intros n; [rewrite B2|rewrite B3|rewrite B4]; auto. Qed.
Lemma agree_sym A B b : agree A B b -> agree B A b.
Proof. intros (A1 & A2 & A3 & A4). split; [congruence|]. split; [|split]; intros n; symmetry; auto. Qed.

Section One.
Variables (mid : mptr -> option nat) (o a : nat) (t : type_rec) (tb : nat).
Hypothesis G : tgood mid t.

(** A slot whose memory belongs to the part *)
Definition mine (dat own : nat -> bool) (i : nat) (m : mptr) (off : N) : Prop :=
  slot_at t i m off /\ dat i = true /\ (off = 0%N -> own i = true).

Lemma part_mine_fp B dd dat own con i m off : part B o a t tb dd dat own con -> mine dat own i m off -> fp t tb dd own (fst (md_mixin (dd i))).
Proof.
  intros P (Hs & Hd & Ho). destruct (N.eq_dec off 0) as [->|Hz].
  - destruct (pa_ext _ _ _ _ _ _ _ _ _ P i m Hs (Ho eq_refl)) as (_ & e & _ & He & _). right. exists i, m. rewrite He. auto.
  - destruct (pa_int _ _ _ _ _ _ _ _ _ P i m off Hs Hd Hz) as (-> & _). now left.
Qed.
Lemma part_mine_back B dd dat own con i m off : part B o a t tb dd dat own con -> mine dat own i m off -> bback B (md_mixin (dd i)) = Some o.
Proof.
  intros P (Hs & Hd & Ho). destruct (N.eq_dec off 0) as [->|Hz].
  - destruct (pa_ext _ _ _ _ _ _ _ _ _ P i m Hs (Ho eq_refl)) as (_ & e & _ & He & _ & Hb). auto.
  - destruct (pa_int _ _ _ _ _ _ _ _ _ P i m off Hs Hd Hz) as (-> & Hb). auto.
Qed.
Lemma part_mine_blk B dd dat own con i m off : part B o a t tb dd dat own con -> mine dat own i m off -> battr B (fst (md_mixin (dd i))) <> None.
Proof.
  intros P (Hs & Hd & Ho). destruct (N.eq_dec off 0) as [->|Hz].
  - destruct (pa_ext _ _ _ _ _ _ _ _ _ P i m Hs (Ho eq_refl)) as (_ & e & _ & He & Hb & _). rewrite He. simpl. congruence.
  - destruct (pa_int _ _ _ _ _ _ _ _ _ P i m off Hs Hd Hz) as (-> & _). simpl. rewrite (pa_blk _ _ _ _ _ _ _ _ _ P). congruence.
Qed.
Lemma part_addr_inj B dd dat own con i j m m' off off' : part B o a t tb dd dat own con -> mine dat own i m off -> mine dat own j m' off' ->
  md_mixin (dd i) = md_mixin (dd j) -> i = j.
Proof.
  intros P (Hs & Hd & Ho) (Hs' & Hd' & Ho') He. destruct (N.eq_dec off 0) as [->|Hz], (N.eq_dec off' 0) as [->|Hz'].
  - apply (pa_inj _ _ _ _ _ _ _ _ _ P i j m m'); auto.
    destruct (pa_ext _ _ _ _ _ _ _ _ _ P i m Hs (Ho eq_refl)) as (_ & e & _ & H1 & _).
    destruct (pa_ext _ _ _ _ _ _ _ _ _ P j m' Hs' (Ho' eq_refl)) as (_ & e' & _ & H2 & _). rewrite H1, H2 in *. simpl in *. congruence.
  - exfalso. destruct (pa_ext _ _ _ _ _ _ _ _ _ P i m Hs (Ho eq_refl)) as (_ & e & Hne & H1 & _).
    destruct (pa_int _ _ _ _ _ _ _ _ _ P j m' off' Hs' Hd' Hz') as (H2 & _). rewrite H1, H2 in He. simpl in He. congruence.
  - exfalso. destruct (pa_ext _ _ _ _ _ _ _ _ _ P j m' Hs' (Ho' eq_refl)) as (_ & e & Hne & H1 & _).
    destruct (pa_int _ _ _ _ _ _ _ _ _ P i m off Hs Hd Hz) as (H2 & _). rewrite H1, H2 in He. simpl in He. congruence.
  - destruct (pa_int _ _ _ _ _ _ _ _ _ P i m off Hs Hd Hz) as (H1 & _). destruct (pa_int _ _ _ _ _ _ _ _ _ P j m' off' Hs' Hd' Hz') as (H2 & _).
    rewrite H1, H2 in He. simpl in He. injection He as ->. destruct Hs as [_ A], Hs' as [_ A']. eapply tg_off; eauto.
Qed.
Lemma part_con_mine B dd dat own con i : part B o a t tb dd dat own con -> con i = true -> exists m off v, mine dat own i m off /\ binst B (md_mixin (dd i)) = Some {| i_mixin := m; i_val := v |}.
Proof. intros P H. destruct (pa_con _ _ _ _ _ _ _ _ _ P i H) as (m & off & v & A1 & A2 & A3 & A4). exists m, off, v. unfold mine. auto. Qed.

(** No constructed mixin at a place where there should be none *)
Lemma part_vacant s dd dat own con i m off : part (s_blk s) o a t tb dd dat own con -> mine dat own i m off -> con i = false -> vacant_at E s (md_mixin (dd i)).
Proof.
  intros P Hm Hc x Hx. destruct (needs_destroy E x) eqn:Hn; auto. exfalso.
  destruct (pa_live _ _ _ _ _ _ _ _ _ P (md_mixin (dd i)) x) as (j & Hj & He); auto.
  - eapply part_mine_fp; eauto.
  - destruct (part_con_mine _ _ _ _ _ _ P Hj) as (m' & off' & v & Hm' & _). assert (i = j) by (eapply part_addr_inj; eauto). congruence.
Qed.

Lemma part_frame B B' dd dat own con : part B o a t tb dd dat own con -> (forall b, fp t tb dd own b -> agree B B' b) -> part B' o a t tb dd dat own con.
Proof.
  intros P Ha. assert (Htb : agree B B' tb) by (apply Ha; now left).
  constructor.
  - destruct Htb as (-> & _). apply (pa_blk _ _ _ _ _ _ _ _ _ P).
  - apply (pa_range _ _ _ _ _ _ _ _ _ P).
  - intros i. destruct Htb as (_ & -> & _). apply (pa_data _ _ _ _ _ _ _ _ _ P).
  - intros i m off H1 H2 H3. destruct (pa_int _ _ _ _ _ _ _ _ _ P i m off H1 H2 H3) as (A & Hb). split; auto. rewrite (agree_back B); auto.
  - intros i m H1 H2. assert (Hm : fp t tb dd own (fst (md_mixin (dd i)))) by (destruct (pa_ext _ _ _ _ _ _ _ _ _ P i m H1 H2) as (A & e & He & Hd & _); right; exists i, m; rewrite Hd; auto).
    destruct (pa_ext _ _ _ _ _ _ _ _ _ P i m H1 H2) as (A & e & He & Hd & Hat & Hb). split; auto. exists e. split; auto. split; auto. split.
    + destruct (Ha _ Hm) as (H & _). rewrite Hd in H. simpl in H. congruence.
    + rewrite (agree_back B); auto.
  - apply (pa_inj _ _ _ _ _ _ _ _ _ P).
  - intros i Hi. destruct (part_con_mine _ _ _ _ _ _ P Hi) as (m & off & v & Hm & Hv). exists m, off, v. destruct Hm as (A1 & A2 & A3).
    split; auto. split; auto. split; auto. rewrite (agree_inst B); auto. apply Ha. eapply part_mine_fp; eauto; split; eauto.
  - intros p x Hf Hx Hn. rewrite (agree_inst B) in Hx by auto. eapply pa_live; eauto.
Qed.

(** Views that are equal but for the instance at one place *)
Definition inst_at (B B' : blocks) (p : addr) (v : option inst) : Prop :=
  (forall c, battr B' c = battr B c) /\ (forall c i, bdat B' c i = bdat B c i) /\
  (forall q, bback B' q = bback B q) /\ (forall q, binst B' q = if addr_eqb q p then v else binst B q).

Lemma part_set B B' dd dat own con con' i m off x : part B o a t tb dd dat own con -> mine dat own i m off ->
  inst_at B B' (md_mixin (dd i)) (Some x) -> i_mixin x = m -> (forall j, con' j = if j =? i then true else con j) -> part B' o a t tb dd dat own con'.
Proof.
  intros P Hm (V1 & V2 & V3 & V4) Hx Hc. constructor.
  - rewrite V1. apply (pa_blk _ _ _ _ _ _ _ _ _ P).
  - apply (pa_range _ _ _ _ _ _ _ _ _ P).
  - intros j. rewrite V2. apply (pa_data _ _ _ _ _ _ _ _ _ P).
  - intros j m' off' H1 H2 H3. rewrite V3. apply (pa_int _ _ _ _ _ _ _ _ _ P j m' off' H1 H2 H3).
  - intros j m' H1 H2. destruct (pa_ext _ _ _ _ _ _ _ _ _ P j m' H1 H2) as (A & e & He & Hd & Hat & Hb). split; auto. exists e. rewrite V1, V3. auto.
  - apply (pa_inj _ _ _ _ _ _ _ _ _ P).
  - intros j. rewrite Hc. destruct (Nat.eqb_spec j i) as [->|Hne].
    + intros _. destruct Hm as (A1 & A2 & A3). exists m, off, (i_val x). split; auto. split; auto. split; auto. rewrite V4, addr_eqb_refl. destruct x. simpl in *. congruence.
    + intros Hj. destruct (part_con_mine _ _ _ _ _ _ P Hj) as (m' & off' & v & Hm' & Hv). exists m', off', v. destruct Hm' as (A1 & A2 & A3).
      split; auto. split; auto. split; auto. rewrite V4. destruct (addr_eqb_spec (md_mixin (dd j)) (md_mixin (dd i))) as [He|]; auto.
      exfalso. apply Hne. eapply part_addr_inj; eauto; split; eauto.
  - intros p y Hf Hy Hn. rewrite V4 in Hy. destruct (addr_eqb_spec p (md_mixin (dd i))) as [->|Hne].
    + exists i. rewrite Hc, Nat.eqb_refl. auto.
    + destruct (pa_live _ _ _ _ _ _ _ _ _ P p y Hf Hy Hn) as (j & Hj & ->). exists j. rewrite Hc. destruct (Nat.eqb_spec j i); auto.
Qed.

Lemma part_del B B' dd dat own con con' i m off : part B o a t tb dd dat own con -> mine dat own i m off ->
  inst_at B B' (md_mixin (dd i)) None -> (forall j, con' j = if j =? i then false else con j) -> part B' o a t tb dd dat own con'.
Proof.
  intros P Hm (V1 & V2 & V3 & V4) Hc. constructor.
  - rewrite V1. apply (pa_blk _ _ _ _ _ _ _ _ _ P).
  - apply (pa_range _ _ _ _ _ _ _ _ _ P).
  - intros j. rewrite V2. apply (pa_data _ _ _ _ _ _ _ _ _ P).
  - intros j m' off' H1 H2 H3. rewrite V3. apply (pa_int _ _ _ _ _ _ _ _ _ P j m' off' H1 H2 H3).
  - intros j m' H1 H2. destruct (pa_ext _ _ _ _ _ _ _ _ _ P j m' H1 H2) as (A & e & He & Hd & Hat & Hb). split; auto. exists e. rewrite V1, V3. auto.
  - apply (pa_inj _ _ _ _ _ _ _ _ _ P).
  - intros j. rewrite Hc. destruct (Nat.eqb_spec j i) as [->|Hne]; [discriminate|].
    intros Hj. destruct (part_con_mine _ _ _ _ _ _ P Hj) as (m' & off' & v & Hm' & Hv). exists m', off', v. destruct Hm' as (A1 & A2 & A3).
    split; auto. split; auto. split; auto. rewrite V4. destruct (addr_eqb_spec (md_mixin (dd j)) (md_mixin (dd i))) as [He|]; auto.
    exfalso. apply Hne. eapply part_addr_inj; eauto; split; eauto.
  - intros p y Hf Hy Hn. rewrite V4 in Hy. destruct (addr_eqb_spec p (md_mixin (dd i))) as [->|Hne]; [discriminate|].
    destruct (pa_live _ _ _ _ _ _ _ _ _ P p y Hf Hy Hn) as (j & Hj & ->). exists j. rewrite Hc. destruct (Nat.eqb_spec j i) as [->|]; auto.
Qed.

(** A mixin without destroy function can be forgotten *)
Lemma part_forget B dd dat own con con' i m off : part B o a t tb dd dat own con -> slot_at t i m off -> m_destroy (e_mixin E m) = false ->
  (forall j, con' j = if j =? i then false else con j) -> part B o a t tb dd dat own con'.
Proof.
  intros P Hs Hd Hc. destruct P as [P1 P2 P3 P4 P5 P6 P7 P8]. constructor; auto.
  - intros j. rewrite Hc. destruct (j =? i); [discriminate|auto].
  - intros p x Hf Hx Hn. destruct (P8 p x Hf Hx Hn) as (j & Hj & ->). exists j. rewrite Hc. split; auto.
    destruct (Nat.eqb_spec j i) as [->|]; auto. destruct (P7 i Hj) as (m' & off' & v & Hs' & _ & _ & Hv).
    destruct (slot_fun _ _ _ _ _ _ Hs Hs') as (-> & ->). rewrite Hx in Hv. injection Hv as ->. unfold needs_destroy in Hn. simpl in Hn. congruence.
Qed.

Lemma part_ext B dd dat own con dat' own' con' : part B o a t tb dd dat own con ->
  (forall i, dat' i = dat i) -> (forall i, own' i = own i) -> (forall i, con' i = con i) -> part B o a t tb dd dat' own' con'.
Proof.
  intros [P1 P2 P3 P4 P5 P6 P7 P8] Hd Ho Hc. constructor; auto.
  - intros i. rewrite Hd. auto.
  - intros i. rewrite Hd. auto.
  - intros i m off. rewrite Hd. apply P4.
  - intros i m. rewrite Hd, Ho. auto.
  - intros i j m m'. rewrite !Ho. apply P6.
  - intros i. rewrite Hc, Hd, Ho. apply P7.
  - intros p x Hf Hx Hn. destruct (P8 p x) as (j & Hj & ->); auto.
    + destruct Hf as [Hf|(i & m & A1 & A2 & A3)]; [now left|right]. exists i, m. rewrite Ho in A2. auto.
    + exists j. now rewrite Hc.
Qed.

(** The block of an owned external mixin is released *)
Lemma part_disown B B' dd dat own own' con i m e : part B o a t tb dd dat own con -> slot_at t i m 0%N -> own i = true -> con i = false ->
  md_buf (dd i) = Some e -> (forall b, b <> e -> agree B B' b) -> (forall j, own' j = if j =? i then false else own j) ->
  part B' o a t tb dd dat own' con.
Proof.
  intros P Hs Ho Hc He Ha Hw.
  assert (Hsub : forall b, fp t tb dd own' b -> fp t tb dd own b /\ b <> e).
  { intros b [->|(j & m' & A1 & A2 & A3)].
    - split; [now left|]. destruct (pa_ext _ _ _ _ _ _ _ _ _ P i m Hs Ho) as (_ & e' & Hne & Hd & _). rewrite Hd in He. simpl in He. congruence.
    - rewrite Hw in A2. destruct (Nat.eqb_spec j i) as [->|Hne]; [discriminate|]. split; [right; exists j, m'; auto|]. intros ->.
      apply Hne. apply (pa_inj _ _ _ _ _ _ _ _ _ P j i m' m); auto. congruence. }
  assert (Htb : tb <> e) by (destruct (Hsub tb); [now left|auto]).
  destruct (Ha tb Htb) as (T1 & T2 & T3 & T4).
  constructor.
  - rewrite T1. apply (pa_blk _ _ _ _ _ _ _ _ _ P).
  - apply (pa_range _ _ _ _ _ _ _ _ _ P).
  - intros j. rewrite T2. apply (pa_data _ _ _ _ _ _ _ _ _ P).
  - intros j m' off H1 H2 H3. destruct (pa_int _ _ _ _ _ _ _ _ _ P j m' off H1 H2 H3) as (A & Hb). split; auto. rewrite T4. auto.
  - intros j m' H1 H2. assert (Hfj : forall b, md_buf (dd j) = Some b -> b <> e) by (intros b Hb; apply (Hsub b); right; exists j, m'; auto).
    rewrite Hw in H2. destruct (Nat.eqb_spec j i) as [->|Hne]; [discriminate|].
    destruct (pa_ext _ _ _ _ _ _ _ _ _ P j m' H1 H2) as (A & e' & He' & Hd & Hat & Hb). split; auto. exists e'. split; auto. split; auto.
    assert (e' <> e) by (apply Hfj; rewrite Hd; auto). destruct (Ha e') as (-> & _ & _ & K); auto. split; auto. rewrite Hd in *. simpl in *. rewrite K. auto.
  - intros j k m1 m2 H1 H2. rewrite !Hw. destruct (j =? i); [discriminate|]. destruct (k =? i); [discriminate|]. eapply pa_inj; eauto.
  - intros j Hj. destruct (part_con_mine _ _ _ _ _ _ P Hj) as (m' & off & v & Hm & Hv). pose proof Hm as (A1 & A2 & A3).
    assert (Hji : j <> i) by congruence. exists m', off, v. split; auto. split; auto. split.
    + intros Hz. rewrite Hw. destruct (Nat.eqb_spec j i); auto.
    + rewrite (agree_inst B); auto. apply Ha. intros Heq.
      destruct (pa_ext _ _ _ _ _ _ _ _ _ P i m Hs Ho) as (_ & e' & Hne & Hd & _). rewrite Hd in He. simpl in He. injection He as ->.
      destruct (N.eq_dec off 0) as [->|Hz].
      * destruct (pa_ext _ _ _ _ _ _ _ _ _ P j m' A1 (A3 eq_refl)) as (_ & e' & _ & Hd' & _). apply Hji. apply (pa_inj _ _ _ _ _ _ _ _ _ P j i m' m); auto.
        rewrite Hd, Hd' in *. simpl in *. congruence.
      * destruct (pa_int _ _ _ _ _ _ _ _ _ P j m' off A1 A2 Hz) as (Hd' & _). rewrite Hd' in Heq. simpl in Heq. congruence.
  - intros p x Hf Hx Hn. destruct (Hsub _ Hf) as (Hf' & Hne). rewrite (agree_inst B) in Hx by auto. eapply pa_live; eauto.
Qed.

End One.
End Part.
