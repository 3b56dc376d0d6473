(** Bytes of mixins: memory behaves as if every mixin had bytes of its own *)
From Coq Require Import List Arith ZArith NArith Lia Bool.
From Verif Require Import Base Info Heap Object SpecObj SpecMut SpecLayout SpecLog SpecPlace Common SpecCommon.
Import ListNotations.

Lemma runs_code codes m f : code_of codes m f = runs codes m f.
Proof. destruct f; reflexivity. Qed.
Lemma inside_spec p n b x : inside p n b x = true <-> b = fst p /\ (snd p <= x < snd p + n)%N.
Proof. unfold inside. rewrite !andb_true_iff, Nat.eqb_eq, N.leb_le, N.ltb_lt. tauto. Qed.
Lemma same_addr_true p q : same_addr p q = true <-> p = q.
Proof. destruct p, q. unfold same_addr. cbn. rewrite andb_true_iff, Nat.eqb_eq, N.eqb_eq. split; [intros [-> ->]; auto|intros H; injection H; auto]. Qed.

Lemma bytes_len M p n : length (bytes M p n) = N.to_nat n.
Proof. unfold bytes. now rewrite map_length, seq_length. Qed.
Lemma bytes_nth M p n k : k < N.to_nat n -> nth k (bytes M p n) 0%N = M (fst p) (snd p + N.of_nat k)%N.
Proof.
  intros H. unfold bytes. set (f := fun k => M (fst p) (snd p + N.of_nat k)%N).
  rewrite (nth_indep _ 0%N (f 0)) by (rewrite map_length, seq_length; auto). rewrite map_nth, seq_nth by auto. reflexivity.
Qed.
Lemma bytes_eq M M' p n : (forall b x, inside p n b x = true -> M b x = M' b x) -> bytes M p n = bytes M' p n.
Proof.
  intros H. unfold bytes. apply map_ext_in. intros k Hk. apply in_seq in Hk. apply H. apply inside_spec. cbn. split; auto. lia.
Qed.
Lemma list_eq (l l' : list N) : length l = length l' -> (forall k, k < length l -> nth k l 0%N = nth k l' 0%N) -> l = l'.
Proof. intros H1 H2. apply (nth_ext l l' 0%N 0%N H1 H2). Qed.

Lemma write_same M p v n : length v = N.to_nat n -> bytes (write M p v) p n = v.
Proof.
  intros H. apply list_eq; [now rewrite bytes_len|]. rewrite bytes_len. intros k Hk. rewrite bytes_nth by auto. unfold write.
  assert (I : inside p (N.of_nat (length v)) (fst p) (snd p + N.of_nat k) = true) by (apply inside_spec; split; auto; lia).
  rewrite I. f_equal. lia.
Qed.
Definition disjoint (p : addr) (n : N) (q : addr) (k : N) : Prop := forall b x, inside p n b x = true -> inside q k b x = false.
Lemma write_other M p n q v : disjoint p n q (N.of_nat (length v)) -> bytes (write M q v) p n = bytes M p n.
Proof. intros D. apply bytes_eq. intros b x H. unfold write. now rewrite (D b x H). Qed.

(** All functions of the library are writes. *)
Lemma memset_write M p v n b x : memset M p v n b x = write M p (repeat v (N.to_nat n)) b x.
Proof.
  unfold memset, write. rewrite repeat_length, N2Nat.id. destruct (inside p n b x) eqn:I; auto.
  apply inside_spec in I. symmetry. rewrite (nth_indep _ 0%N v) by (rewrite repeat_length; lia). apply nth_repeat.
Qed.
Lemma overlap_disjoint p q n : disjoint p n q n -> overlap p q n = false.
Proof.
  intros D. unfold overlap. destruct (fst p =? fst q) eqn:B; auto. apply Nat.eqb_eq in B. cbn [andb].
  destruct ((snd p <? snd q + n)%N && (snd q <? snd p + n)%N) eqn:O; auto. apply andb_true_iff in O. destruct O as [O1 O2].
  apply N.ltb_lt in O1, O2. set (x := N.max (snd p) (snd q)).
  assert (I : inside p n (fst p) x = true) by (apply inside_spec; split; auto; unfold x; lia).
  specialize (D _ _ I). rewrite <- D. symmetry. apply inside_spec. split; auto. unfold x. lia.
Qed.
Lemma memcpy_write M p q n : disjoint p n q n -> exists M', memcpy M p q n = Some M' /\ forall b x, M' b x = write M p (bytes M q n) b x.
Proof.
  intros D. unfold memcpy. rewrite (overlap_disjoint _ _ _ D). eexists. split; [reflexivity|]. intros b x. unfold write.
  rewrite bytes_len, N2Nat.id. destruct (inside p n b x) eqn:I; auto. apply inside_spec in I. rewrite bytes_nth by lia. f_equal. lia.
Qed.

Section Proofs.
Variable E : env.
Variable codes : mptr -> fn -> code.
Notation size m := (m_size (e_mixin E m)).
Variable L : list ev.
Definition placed (m : mptr) (p : addr) : Prop := exists e, In e L /\ touches e m p.
Hypothesis AP : forall m p m' p', placed m p -> placed m' p' -> (m = m' /\ p = p') \/ disjoint p (size m) p' (size m').

Definition agrees (M : mem) (V : values) : Prop := forall m p, placed m p -> bytes M p (size m) = V m p.
Lemma agrees_ext M M' V : (forall b x, M' b x = M b x) -> agrees M V -> agrees M' V.
Proof. intros H A m p Hp. rewrite <- (A m p Hp). apply bytes_eq. auto. Qed.
Lemma agrees_write M V m p v : agrees M V -> placed m p -> length v = N.to_nat (size m) -> agrees (write M p v) (set_value V m p v).
Proof.
  intros A Hp Hl m' p' Hp'. unfold set_value. destruct ((m' =? m) && same_addr p' p) eqn:C.
  - apply andb_true_iff in C. destruct C as [C1 C2]. apply Nat.eqb_eq in C1. apply same_addr_true in C2. subst. now apply write_same.
  - rewrite write_other, (A m' p' Hp'); auto. rewrite Hl, N2Nat.id. destruct (AP m' p' m p Hp' Hp) as [[-> ->]|D]; auto.
    rewrite Nat.eqb_refl in C. cbn in C. assert (S : same_addr p p = true) by now apply same_addr_true. congruence.
Qed.
Lemma agrees_len M V m p : agrees M V -> placed m p -> length (V m p) = N.to_nat (size m).
Proof. intros A Hp. now rewrite <- (A m p Hp), bytes_len. Qed.
Lemma agrees_values M V V' : (forall m p, placed m p -> V' m p = V m p) -> agrees M V -> agrees M V'.
Proof. intros H A m p Hp. rewrite (H m p Hp). auto. Qed.
Lemma set_value_same V m p m' p' : set_value V m p (V m p) m' p' = V m' p'.
Proof.
  unfold set_value. destruct ((m' =? m) && same_addr p' p) eqn:C; auto. apply andb_true_iff in C. destruct C as [C1 C2].
  apply Nat.eqb_eq in C1. apply same_addr_true in C2. now subst.
Qed.
Lemma set_value_at V m p v : set_value V m p v m p = v.
Proof. unfold set_value. assert (S : same_addr p p = true) by now apply same_addr_true. now rewrite Nat.eqb_refl, S. Qed.
Lemma set_value_elsewhere V m p v m' p' : (m', p') <> (m, p) -> set_value V m p v m' p' = V m' p'.
Proof.
  intros H. unfold set_value. destruct ((m' =? m) && same_addr p' p) eqn:C; auto. apply andb_true_iff in C. destruct C as [C1 C2].
  apply Nat.eqb_eq in C1. apply same_addr_true in C2. now subst.
Qed.

Lemma copy_agrees M V m p q : agrees M V -> placed m p -> placed m q -> q <> p ->
  exists M', common_copy E M m p q = Some M' /\ agrees M' (set_value V m p (V m q)).
Proof.
  intros A Hp Hq N. destruct (AP m p m q Hp Hq) as [[_ X]|D]; [congruence|].
  destruct (memcpy_write M p q (size m) D) as (M' & H & W). exists M'. split; auto.
  apply (agrees_ext (write M p (bytes M q (size m)))); auto. rewrite (A m q Hq). apply agrees_write; auto. eapply agrees_len; eauto.
Qed.
Lemma set_agrees M V m p v : agrees M V -> placed m p -> agrees (memset M p v (size m)) (set_value V m p (repeat v (N.to_nat (size m)))).
Proof.
  intros A Hp. apply (agrees_ext (write M p (repeat v (N.to_nat (size m))))); [apply memset_write|]. apply agrees_write; auto. apply repeat_length.
Qed.

Lemma act_agrees M V a : agrees M V -> proper E codes L a -> (forall e own, a = BEv e own -> In e L) ->
  exists M', do_act E codes M a = Some M' /\ agrees M' (act_value E codes V a).
Proof.
  intros A P I. destruct a as [[al b sz an|al b sz an|f m p src err] own|m p v|b x v]; cbn [do_act act_value].
  - eexists. split; [reflexivity|auto].
  - eexists. split; [reflexivity|auto].
  - specialize (I _ _ eq_refl). destruct P as [[P1 P2] P3].
    assert (Hp : placed m p) by (eexists; split; [exact I|cbn; auto]).
    assert (Hs : forall q, src = Some q -> placed m q) by (intros q ->; eexists; split; [exact I|cbn; auto]).
    rewrite runs_code; destruct (runs codes m f) eqn:C; cbn [reads_source] in P3; cbn [call_code result fst snd].
    + eexists. split; [reflexivity|]. destruct src; now apply set_agrees.
    + destruct (P3 eq_refl) as (q & -> & N). now apply copy_agrees; auto.
    + destruct (P3 eq_refl) as (q & -> & N). destruct (copy_agrees M V m p q A Hp (Hs q eq_refl) N) as (M' & H & A').
      unfold common_move. unfold common_copy in H. rewrite H. eexists. split; [reflexivity|]. apply set_agrees; auto.
    + destruct (P3 eq_refl) as (q & -> & N). now apply copy_agrees; auto.
    + eexists. split; [reflexivity|]. destruct src; now apply set_agrees.
    + eexists. split; [reflexivity|]. eapply agrees_values; [|exact A]. intros m' p' _. destruct src; apply set_value_same.
    + destruct src as [q|]; (eexists; split; [reflexivity|]); repeat apply agrees_write; auto.
  - eexists. split; [reflexivity|]. destruct P as [P1 P2]. now apply agrees_write.
  - eexists. split; [reflexivity|]. intros m p Hp. rewrite write_other; auto. intros b' x' H.
    destruct Hp as (e & He & Ht). specialize (P e m p He Ht). destruct (inside (b, x) (N.of_nat (length [v])) b' x') eqn:J; auto.
    apply inside_spec in J. cbn [fst snd length] in J. assert (x' = x) by lia. destruct J as [-> _]. subst. congruence.
Qed.
Lemma acts_agree l : forall M V, agrees M V -> Forall (proper E codes L) l -> (forall e, In e (events l) -> In e L) ->
  exists M', do_acts E codes M l = Some M' /\ agrees M' (acts_value E codes V l).
Proof.
  induction l as [|a l IH]; intros M V A P I.
  - exists M. auto.
  - inversion P as [|? ? Pa Pl]; subst. destruct (act_agrees M V a A Pa) as (M1 & H1 & A1).
    + intros e own ->. apply I. cbn. auto.
    + destruct (IH M1 (act_value E codes V a) A1 Pl) as (M2 & H2 & A2).
      * intros e He. apply I. destruct a; cbn; auto.
      * exists M2. split; auto. cbn [do_acts]. now rewrite H1.
Qed.
End Proofs.

(** Values change only by calls on the mixin. *)
Section Values.
Variable E : env.
Variable codes : mptr -> fn -> code.
Notation size m := (m_size (e_mixin E m)).

Definition mine (m : mptr) (a : act) : bool := match a with BEv e _ => is_call m e | _ => false end.
Lemma act_other V a m : mine m a = false -> (match a with BWrite _ _ _ => False | _ => True end) -> forall p, act_value E codes V a m p = V m p.
Proof.
  intros H W p. destruct a as [[al b sz an|al b sz an|f m' p' src err] own|m' p' v|b x v]; cbn [act_value]; auto; [|now destruct W].
  cbn in H. apply Nat.eqb_neq in H.
  set (r := result _ _ _ _ _). destruct src as [q|]; [destruct (snd r)|]; rewrite ?set_value_elsewhere; auto; congruence.
Qed.
Lemma set_value_ext V V' m q v : (forall p, V m p = V' m p) -> forall p, set_value V m q v m p = set_value V' m q v m p.
Proof. intros H p. unfold set_value. destruct ((m =? m) && same_addr p q); auto. Qed.
Lemma act_same V V' a m : mine m a = true -> (forall p, V m p = V' m p) -> forall p, act_value E codes V a m p = act_value E codes V' a m p.
Proof.
  intros H W. destruct a as [[al b sz an|al b sz an|f m' p' src err] own|m' p' v|b x v]; try discriminate H.
  cbn in H. apply Nat.eqb_eq in H. subst m'. cbn [act_value]. rewrite (W p').
  assert (Q : match src with Some q => V m q | None => [] end = match src with Some q => V' m q | None => [] end) by (destruct src; auto).
  rewrite Q. set (r := result _ _ _ _ _). destruct src as [q|]; [destruct (snd r)|]; repeat apply set_value_ext; auto.
Qed.
Lemma acts_mine l m : hands_off l -> forall V V', (forall p, V m p = V' m p) ->
  forall p, acts_value E codes V l m p = acts_value E codes V' (filter (mine m) l) m p.
Proof.
  induction l as [|a l IH]; intros H V V' W p; [exact (W p)|].
  assert (Hl : hands_off l) by (intros x Hx; apply H; now right). assert (Ha := H a (or_introl eq_refl)).
  cbn [filter]. destruct (mine m a) eqn:C; unfold acts_value in *; cbn [fold_left]; apply IH; auto.
  - now apply act_same.
  - intros q. rewrite act_other; auto.
Qed.
Lemma mine_events l m : events (filter (mine m) l) = calls m (events l).
Proof. induction l as [|[e own|m' p v|b x v] l IH]; auto; cbn [filter mine events calls]; auto. unfold calls in *. cbn [filter]. destruct (is_call m e); cbn; now rewrite ?IH. Qed.
Lemma mine_one l m e r : events (filter (mine m) l) = e :: r -> exists own k, filter (mine m) l = BEv e own :: k /\ In (BEv e own) l /\ events k = r /\ incl k l.
Proof.
  intros H. assert (I : incl (filter (mine m) l) l) by (intros x Hx; now apply filter_In in Hx).
  assert (G : forall x, In x (filter (mine m) l) -> mine m x = true) by (intros x Hx; now apply filter_In in Hx).
  destruct (filter (mine m) l) as [|[e' own|m' p v|b x v] k]; cbn in H; [discriminate H| |now specialize (G _ (or_introl eq_refl))|now specialize (G _ (or_introl eq_refl))].
  injection H as -> H. exists own, k. split; auto. split; [apply I; now left|]. split; auto. intros x Hx. apply I. now right.
Qed.
(** No call: nothing changes *)
Lemma quiet_value l m V : hands_off l -> calls m (events l) = [] -> forall p, acts_value E codes V l m p = V m p.
Proof.
  intros H C p. rewrite (acts_mine l m H V V) by auto. rewrite <- mine_events in C.
  assert (G : forall x, In x (filter (mine m) l) -> mine m x = true) by (intros x Hx; now apply filter_In in Hx).
  destruct (filter (mine m) l) as [|[e' own|m' q v|b x v] k]; auto; [discriminate C| |]; now specialize (G _ (or_introl eq_refl)).
Qed.
End Values.
