(** The invariant of all objects *)
From Coq Require Import List Arith ZArith NArith Lia Bool.
From Verif Require Import Base Sv BaseLemmas Info TypeBuild TypeQuery Domain TypesProofs SpecDom HistProofs DomTheorems SpecLayout Heap HeapProofs Mutation Object SpecObj
  PartProofs RollProofs AllocProofs UpdProofs FinProofs PerfProofs WorldProofs.
Import ListNotations.

Section Obj.
Variable E : env.
Hypothesis AM : aligned_mixins E.

Definition obj_ok (s : st) (o : nat) (x : obj) : Prop :=
  match o_data x with
  | None => True
  | Some b => exists r t dd, o_type x = Some r /\ w_type (s_w s) r = Some t /\ t_mixins t <> [] /\
      part E (s_blk s) o (o_alloc x) t b dd (full t) (full t) (full t)
  end.
(** The blocks that belong to an object *)
Definition foot (s : st) (o c : nat) : Prop :=
  exists x b r t, s_obj s o = Some x /\ o_data x = Some b /\ o_type x = Some r /\ w_type (s_w s) r = Some t /\
    (c = b \/ exists i m d, slot_at t i m 0%N /\ bdat (s_blk s) b i = Some d /\ md_buf d = Some c).
(** The non-empty objects of a type *)
Definition of_type (s : st) (r : tref) (o : nat) : Prop := exists x b, s_obj s o = Some x /\ o_data x = Some b /\ o_type x = Some r.
Definition cnt_ok (s : st) (r : tref) (t : type_rec) : Prop :=
  exists l, NoDup l /\ length l = t_nobj t /\ forall o, In o l <-> of_type s r o.

Record Inv (s : st) : Prop := {
  iv_reach : reachable E (s_w s);
  iv_small : types_small E (s_w s);
  iv_obj : forall o x, s_obj s o = Some x -> obj_ok s o x;
  iv_sep : forall o o' c, foot s o c -> foot s o' c -> o = o';
  iv_own : forall c, s_blk s c <> None -> exists o, foot s o c;
  iv_next : forall c, s_next s <= c -> s_blk s c = None;
  iv_cnt : forall r t, w_type (s_w s) r = Some t -> cnt_ok s r t
}.

Lemma part_nobj B o a t tb dd dat own con k : part E B o a t tb dd dat own con -> part E B o a (set_nobj t k) tb dd dat own con.
Proof.
  intros P. constructor.
  - exact (pa_blk _ _ _ _ _ _ _ _ _ _ P).
  - exact (pa_range _ _ _ _ _ _ _ _ _ _ P).
  - exact (pa_data _ _ _ _ _ _ _ _ _ _ P).
  - exact (pa_int _ _ _ _ _ _ _ _ _ _ P).
  - exact (pa_ext _ _ _ _ _ _ _ _ _ _ P).
  - exact (pa_inj _ _ _ _ _ _ _ _ _ _ P).
  - exact (pa_con _ _ _ _ _ _ _ _ _ _ P).
  - exact (pa_live _ _ _ _ _ _ _ _ _ _ P).
Qed.

Lemma foot_fp s o x b r t dd c : s_obj s o = Some x -> o_data x = Some b -> o_type x = Some r -> w_type (s_w s) r = Some t ->
  part E (s_blk s) o (o_alloc x) t b dd (full t) (full t) (full t) -> (foot s o c <-> fp t b dd (full t) c).
Proof.
  intros H1 H2 H3 H4 P. split.
  - intros (x' & b' & r' & t' & A1 & A2 & A3 & A4 & A5). assert (x' = x) as -> by congruence. assert (b' = b) as -> by congruence. assert (r' = r) as -> by congruence. assert (t' = t) as -> by congruence.
    destruct A5 as [->|(i & m & d & Hs & Hd & Hb)]; [now left|]. right. exists i, m. rewrite (pa_data _ _ _ _ _ _ _ _ _ _ P) in Hd.
    destruct (full t i) eqn:Hf; [|discriminate]. injection Hd as <-. auto.
  - intros [->|(i & m & Hs & Hf & Hb)]; exists x, b, r, t; repeat (split; [assumption|]); [now left|]. right. exists i, m, (dd i). split; auto. split; auto.
    now rewrite (pa_data _ _ _ _ _ _ _ _ _ _ P), Hf.
Qed.

Lemma foot_alive s o c : Inv s -> foot s o c -> s_blk s c <> None.
Proof.
  intros I Hf. pose proof Hf as (x & b & r & t & A1 & A2 & A3 & A4 & _). pose proof (iv_obj _ I o x A1) as Ho. unfold obj_ok in Ho. rewrite A2 in Ho.
  destruct Ho as (r' & t' & dd & B1 & B2 & B3 & P). assert (r' = r) as -> by congruence. assert (t' = t) as -> by congruence.
  apply (foot_fp s o x b r t dd c A1 A2 A3 A4 P) in Hf. rewrite <- battr_none. destruct Hf as [->|(i & m & Hs & Hi & Hb)].
  - rewrite (pa_blk _ _ _ _ _ _ _ _ _ _ P). discriminate.
  - destruct (pa_ext _ _ _ _ _ _ _ _ _ _ P i m Hs Hi) as (_ & e & _ & He & Ha & _). rewrite He in Hb. simpl in Hb. injection Hb as <-. congruence.
Qed.
Lemma foot_lt s o c : Inv s -> foot s o c -> c < s_next s.
Proof. intros I Hf. destruct (Nat.lt_ge_cases c (s_next s)); auto. exfalso. apply (foot_alive s o c I Hf). now apply (iv_next _ I). Qed.

Lemma nobj_pos s o x b r t : Inv s -> s_obj s o = Some x -> o_data x = Some b -> o_type x = Some r -> w_type (s_w s) r = Some t -> t_nobj t <> 0.
Proof.
  intros I H1 H2 H3 H4. destruct (iv_cnt _ I r t H4) as (l & _ & Hl & Hin). assert (In o l) by (apply Hin; exists x, b; auto). destruct l; [destruct H|]. simpl in Hl. lia.
Qed.

(** ** Changing some objects *)
Section Change.
Variables (D : nat -> bool) (s s' : st).
Hypothesis I : Inv s.
Hypothesis HO : forall o, D o = false -> s_obj s' o = s_obj s o.
Hypothesis HT : forall q t, w_type (s_w s) q = Some t -> t_nobj t <> 0 -> exists k, w_type (s_w s') q = Some (set_nobj t k).
Hypothesis HM : forall o c, D o = false -> foot s o c -> agree (s_blk s) (s_blk s') c.

Lemma change_ok o x : D o = false -> s_obj s' o = Some x -> obj_ok s' o x.
Proof.
  intros Hd Ho. rewrite HO in Ho by auto. pose proof (iv_obj _ I o x Ho) as Hk. unfold obj_ok in *. destruct (o_data x) as [b|] eqn:Hb; auto.
  destruct Hk as (r & t & dd & A1 & A2 & A3 & P). destruct (HT r t A2) as (k & Hk); [eapply nobj_pos; eauto|].
  exists r, (set_nobj t k), dd. split; auto. split; auto. split; auto. apply part_nobj. eapply part_frame; [exact P|]. intros c Hc. apply (HM o); auto. eapply foot_fp; eauto.
Qed.
Lemma change_foot o c : D o = false -> (foot s' o c <-> foot s o c).
Proof.
  intros Hd. assert (Hx : forall x b r t, s_obj s o = Some x -> o_data x = Some b -> o_type x = Some r -> w_type (s_w s) r = Some t ->
    (exists k, w_type (s_w s') r = Some (set_nobj t k)) /\ forall i, bdat (s_blk s') b i = bdat (s_blk s) b i).
  { intros x b r t A1 A2 A3 A4. split; [apply HT; auto; eapply nobj_pos; eauto|]. intros i. apply (HM o b Hd). exists x, b, r, t. auto 6. }
  split; intros (x & b & r & t & A1 & A2 & A3 & A4 & A5).
  - rewrite HO in A1 by auto. pose proof (iv_obj _ I o x A1) as Hk. unfold obj_ok in Hk. rewrite A2 in Hk. destruct Hk as (r' & t' & dd & B1 & B2 & _).
    assert (r' = r) as -> by congruence. destruct (Hx x b r t' A1 A2 A3 B2) as ((k & Hk) & Hdat). exists x, b, r, t'. split; auto. split; auto. split; auto. split; auto.
    destruct A5 as [->|(i & m & d & C1 & C2 & C3)]; auto. right. rewrite Hdat in C2. exists i, m, d. split; auto. rewrite A4 in Hk. injection Hk as ->. exact C1.
  - destruct (Hx x b r t A1 A2 A3 A4) as ((k & Hk) & Hdat). exists x, b, r, (set_nobj t k). rewrite HO by auto. split; auto. split; auto. split; auto. split; auto.
    destruct A5 as [->|(i & m & d & C1 & C2 & C3)]; auto. right. exists i, m, d. rewrite Hdat. auto.
Qed.

Lemma inv_change :
  reachable E (s_w s') -> types_small E (s_w s') ->
  (forall o x, D o = true -> s_obj s' o = Some x -> obj_ok s' o x) ->
  (forall o c, D o = true -> foot s' o c -> s_next s <= c \/ exists o', D o' = true /\ foot s o' c) ->
  (forall o o' c, D o = true -> D o' = true -> foot s' o c -> foot s' o' c -> o = o') ->
  (forall c, s_blk s' c <> None -> (exists o, D o = false /\ foot s o c) \/ exists o, D o = true /\ foot s' o c) ->
  (forall c, s_next s' <= c -> s_blk s' c = None) ->
  (forall r t, w_type (s_w s') r = Some t -> cnt_ok s' r t) -> Inv s'.
Proof.
  intros H1 H2 H3 H4 H5 H6 H7 H8. constructor; auto.
  - intros o x Ho. destruct (D o) eqn:Hd; [auto|]. now apply change_ok.
  - assert (Hmix : forall o o' c, D o = false -> D o' = true -> foot s' o c -> foot s' o' c -> False).
    { intros o o' c Hd Hd' Hf Hf'. apply change_foot in Hf; auto. destruct (H4 o' c Hd' Hf') as [Hle|(o2 & Hd2 & Hf2)].
      - pose proof (foot_lt s o c I Hf). lia.
      - assert (o = o2) by (eapply iv_sep; eauto). congruence. }
    intros o o' c Hf Hf'. destruct (D o) eqn:Hd, (D o') eqn:Hd'; auto.
    + eapply H5; eauto.
    + exfalso. eapply Hmix; [exact Hd'|exact Hd|eauto|eauto].
    + exfalso. eapply Hmix; [exact Hd|exact Hd'|eauto|eauto].
    + apply change_foot in Hf, Hf'; auto. eapply iv_sep; eauto.
  - intros c Hc. destruct (H6 c Hc) as [(o & Hd & Hf)|(o & Hd & Hf)]; [|eauto]. exists o. now apply change_foot.
Qed.
End Change.

Definition is_of (s : st) (r : tref) (o : nat) : nat :=
  match s_obj s o with
  | Some x => match o_data x, o_type x with Some _, Some q => if tref_eqb q r then 1 else 0 | _, _ => 0 end
  | None => 0
  end.
Lemma is_of_spec s r o : (is_of s r o = 1 /\ of_type s r o) \/ (is_of s r o = 0 /\ ~ of_type s r o).
Proof.
  unfold is_of, of_type. destruct (s_obj s o) as [x|]; [|right; split; auto; now intros (x & b & A & _)].
  destruct (o_data x) as [b|] eqn:Hd; [|right; split; auto; intros (x' & b & [= <-] & A & _); congruence].
  destruct (o_type x) as [q|] eqn:Hq; [|right; split; auto; intros (x' & b' & [= <-] & _ & A); congruence].
  destruct (tref_eqb_spec q r) as [->|Hne]; [left; split; eauto|right; split; auto; intros (x' & b' & [= <-] & _ & A); congruence].
Qed.

Lemma cnt_same s s' r t t' : cnt_ok s r t -> (forall o, of_type s' r o <-> of_type s r o) -> t_nobj t' = t_nobj t -> cnt_ok s' r t'.
Proof. intros (l & H1 & H2 & H3) Ho Ht. exists l. split; auto. split; [congruence|]. intros o. now rewrite H3, Ho. Qed.
Lemma cnt_one s s' o r t t' : cnt_ok s r t -> (forall o', o' <> o -> s_obj s' o' = s_obj s o') -> t_nobj t' + is_of s r o = t_nobj t + is_of s' r o -> cnt_ok s' r t'.
Proof.
  intros (l & H1 & H2 & H3) Ho Ht.
  assert (Hoth : forall o', o' <> o -> (of_type s' r o' <-> of_type s r o')) by (intros o' Hne; unfold of_type; now rewrite Ho).
  assert (Hrem : forall o', In o' (remove Nat.eq_dec o l) <-> of_type s r o' /\ o' <> o).
  { intros o'. split; [intros Hr; apply in_remove in Hr; rewrite H3 in Hr; auto|intros [A B]; apply in_in_remove; auto; now apply H3]. }
  assert (Hnd : NoDup (remove Nat.eq_dec o l)).
  { clear - H1. induction H1 as [|a l Hn Hd IH]; simpl; [constructor|]. destruct (Nat.eq_dec o a); auto. constructor; auto. intros Hr. apply in_remove in Hr. tauto. }
  assert (Hlen : length (remove Nat.eq_dec o l) + is_of s r o = length l).
  { destruct (is_of_spec s r o) as [[-> Hs]|[-> Hs]].
    - apply H3 in Hs. clear - H1 Hs. induction H1 as [|a l Hn Hd IH]; [destruct Hs|]. simpl. destruct (Nat.eq_dec o a) as [->|Hne].
      + rewrite notin_remove by auto. lia.
      + destruct Hs as [->|Hs]; [congruence|]. simpl. specialize (IH Hs). lia.
    - rewrite notin_remove; [lia|]. now rewrite H3. }
  destruct (is_of_spec s' r o) as [[He Hs]|[He Hs]]; rewrite He in Ht.
  - exists (o :: remove Nat.eq_dec o l). split; [constructor; auto; intros Hr; apply Hrem in Hr; tauto|]. split; [simpl; lia|].
    intros o'. simpl. rewrite Hrem. destruct (Nat.eq_dec o' o) as [->|Hne]; [tauto|]. rewrite (Hoth o' Hne). intuition congruence.
  - exists (remove Nat.eq_dec o l). split; auto. split; [lia|]. intros o'. rewrite Hrem. destruct (Nat.eq_dec o' o) as [->|Hne]; [tauto|]. rewrite (Hoth o' Hne). tauto.
Qed.

Definition only (o : nat) : nat -> bool := fun o' => o' =? o.
Lemma only_true o o' : only o o' = true <-> o' = o.
Proof. apply Nat.eqb_eq. Qed.
Lemma only_false o o' : only o o' = false <-> o' <> o.
Proof. apply Nat.eqb_neq. Qed.

(** One object changes *)
Lemma inv_one s s' o : Inv s -> reachable E (s_w s') -> types_small E (s_w s') ->
  (forall o', o' <> o -> s_obj s' o' = s_obj s o') ->
  (forall q t, w_type (s_w s) q = Some t -> t_nobj t <> 0 -> exists k, w_type (s_w s') q = Some (set_nobj t k)) ->
  (forall o' c, o' <> o -> foot s o' c -> agree (s_blk s) (s_blk s') c) ->
  (forall x, s_obj s' o = Some x -> obj_ok s' o x) ->
  (forall c, foot s' o c -> s_next s <= c \/ foot s o c) ->
  (forall c, s_blk s' c <> None -> (s_blk s c <> None /\ ~ foot s o c) \/ foot s' o c) ->
  (forall c, s_next s' <= c -> s_blk s' c = None) ->
  (forall r t', w_type (s_w s') r = Some t' -> exists t, w_type (s_w s) r = Some t /\ t_nobj t' + is_of s r o = t_nobj t + is_of s' r o) -> Inv s'.
Proof.
  intros I H1 H2 H3 H4 H5 H6 H7 H8 H9 H10. apply (inv_change (only o) s s' I); auto.
  - intros o' Ho'. apply H3. now apply only_false.
  - intros o' c Ho'. apply H5. now apply only_false.
  - intros o' x Ho'. apply only_true in Ho'. subst o'. auto.
  - intros o' c Ho' Hf. apply only_true in Ho'. subst o'. destruct (H7 c Hf); auto. right. exists o. split; auto. now apply only_true.
  - intros o1 o2 c A1 A2 _ _. apply only_true in A1, A2. congruence.
  - intros c Hc. destruct (H8 c Hc) as [[A B]|A].
    + left. destruct (iv_own _ I c A) as (o' & Ho'). exists o'. split; auto. apply only_false. intros ->. auto.
    + right. exists o. split; auto. now apply only_true.
  - intros r t' Ht'. destruct (H10 r t' Ht') as (t & Ht & Hn). eapply cnt_one; eauto. now apply (iv_cnt _ I).
Qed.

(** Only the domains change *)
Lemma inv_world s w' : Inv s -> reachable E w' -> types_small E w' -> busy_same (s_w s) w' -> Inv (set_w s w').
Proof.
  intros I H1 H2 [H3 H4]. apply (inv_change (fun _ => false) s (set_w s w') I); auto; try discriminate.
  - intros q t Ht Hn. exists (t_nobj t). cbn [set_w s_w]. rewrite (H3 q t Ht) by auto. now destruct t.
  - intros o c _ _. apply agree_refl.
  - intros c Hc. left. destruct (iv_own _ I c Hc) as (o & Ho). eauto.
  - exact (iv_next _ I).
  - intros r t Ht. destruct (H4 r t Ht) as [Ho|Hz].
    + eapply cnt_same; [apply (iv_cnt _ I r t Ho)| |]; auto. intros o. reflexivity.
    + exists []. split; [constructor|]. split; auto. intros o. split; [intros []|]. intros (x & b & A1 & A2 & A3).
      pose proof (iv_obj _ I o x A1) as Hk. unfold obj_ok in Hk. rewrite A2 in Hk. destruct Hk as (r' & t' & dd & B1 & B2 & _). assert (r' = r) as -> by congruence.
      pose proof (nobj_pos s o x b r t' I A1 A2 A3 B2) as Hn. cbn [set_w s_w] in Ht. rewrite (H3 r t' B2) in Ht by auto. congruence.
Qed.

(** ** Mutations *)
Definition fits (s : st) (x : obj) (t : type_rec) : Prop :=
  forall b q t0, o_data x = Some b -> o_type x = Some q -> w_type (s_w s) q = Some t0 -> t_dom t0 = t_dom t.

Definition no_dd : nat -> mdata := fun _ => {| md_buf := None; md_mixin := (0, 0%N) |}.
Lemma inv_good s r t : Inv s -> w_type (s_w s) r = Some t -> tgood E (w_mid (s_w s)) t.
Proof. intros I Ht. eapply type_good; eauto; [apply (iv_reach _ I)|]. now apply (iv_small _ I r). Qed.

Lemma setup_of s o x r t : Inv s -> s_obj s o = Some x -> w_type (s_w s) r = Some t -> fits s x t ->
  exists old r0 t0 ddo, setup E s o x old r t (o_data x) r0 t0 ddo /\
    match o_data x with Some b => o_type x = Some r0 /\ t_mixins t0 <> [] | None => t_mixins t0 = [] end.
Proof.
  intros I Ho Ht Hf. pose proof (iv_obj _ I o x Ho) as Hk. unfold obj_ok in Hk.
  exists (match o_type x with Some q => match w_type (s_w s) q with Some k => Some (q, k) | None => None end | None => None end).
  destruct (o_data x) as [b|] eqn:Hb.
  - destruct Hk as (r0 & t0 & dd & A1 & A2 & A3 & P). exists r0, t0, dd. split; auto. pose proof (Hf b r0 t0 Hb A1 A2) as Hd. constructor; auto.
    + now apply (inv_good s r).
    + apply (iv_next _ I).
    + intros b' [= <-]. rewrite A1, A2. split; auto. split; auto. split; [now apply (inv_good s r0)|]. split; [eapply nobj_pos; eauto|]. exact P.
    + intros b' m i _ Hm Hi. eapply (type_idx E (s_w s) r t r0 t0); eauto. apply (iv_reach _ I).
    + intros b' m i _ Hm Hi. eapply (type_idx E (s_w s) r0 t0 r t); eauto. apply (iv_reach _ I).
  - exists r, (empty_type 0), no_dd. split; auto. constructor; auto; try discriminate.
    + now apply (inv_good s r).
    + apply (iv_next _ I).
Qed.

Section Perform.
Variables (s : st) (o : nat) (x : obj) (old : option (tref * type_rec)) (r : tref) (t : type_rec) (r0 : tref) (t0 : type_rec) (ddo : nat -> mdata).
Hypothesis I : Inv s.
Hypothesis SU : setup E s o x old r t (o_data x) r0 t0 ddo.
Hypothesis H0 : match o_data x with Some b => o_type x = Some r0 /\ t_mixins t0 <> [] | None => t_mixins t0 = [] end.
Notation ob := (o_data x).
Notation fp0 := (fp0 ob t0 ddo).

Lemma su_foot c : foot s o c <-> fp0 c.
Proof.
  pose proof (su_obj _ _ _ _ _ _ _ _ _ _ _ SU) as Ho. pose proof (su_old _ _ _ _ _ _ _ _ _ _ _ SU) as Hold. destruct ob as [b|] eqn:Hb.
  - destruct (Hold b eq_refl) as (_ & Ht0 & _ & _ & P0). rewrite (foot_fp s o x b r0 t0 ddo c Ho Hb (proj1 H0) Ht0 P0). unfold FinProofs.fp0. split; [eauto|]. intros (b' & [= <-] & Hf). exact Hf.
  - split; [intros (x' & b & q & k & A1 & A2 & _); congruence|]. intros (b & Hb' & _). discriminate.
Qed.
Lemma own_foot p : own_addr ob t0 ddo p -> foot s o (fst p).
Proof. intros Ho. apply su_foot. eapply own_fp0; eauto. Qed.

Lemma kept_agree cp oldv s' : kept s r t ob t0 ddo cp oldv s' -> forall c, c < s_next s -> ~ foot s o c -> agree (s_blk s) (s_blk s') c.
Proof.
  intros K c Hc Hn. pose proof (kp_old _ _ _ _ _ _ _ _ _ K) as O. split; [now apply (om_attr _ _ _ _ _ _ O)|]. split; [intros i; now apply (om_dat _ _ _ _ _ _ O)|].
  split; intros q; [|now apply (om_back _ _ _ _ _ _ O)]. apply (om_other _ _ _ _ _ _ O); auto. intros Ho. apply own_foot in Ho. auto.
Qed.

Lemma incr_eq : incr_nobj (s_w s) r = (w1 s r t, Ok tt).
Proof. unfold incr_nobj, w1. now rewrite (su_ty _ _ _ _ _ _ _ _ _ _ _ SU). Qed.
Lemma reach_w1 : reachable E (w1 s r t).
Proof. eapply reach_incr; [apply (iv_reach _ I)|apply incr_eq|auto]. Qed.
Lemma w1_type : w_type (w1 s r t) r = Some (set_nobj t (S (t_nobj t))).
Proof. unfold w1, with_type, tupd. cbn [w_type]. destruct (tref_eqb_spec r r); congruence. Qed.
Lemma reach_undo : reachable E (with_type (w1 s r t) r (set_nobj (set_nobj t (S (t_nobj t))) (t_nobj t))).
Proof. eapply reach_decr; [apply reach_w1| |]. - unfold decr_nobj. rewrite w1_type. cbn [set_nobj t_nobj]. reflexivity. - auto. Qed.

Lemma kept_part cp oldv s' b : kept s r t ob t0 ddo cp oldv s' -> ob = Some b -> part E (s_blk s') o (o_alloc x) t0 b ddo (full t0) (full t0) (full t0).
Proof.
  intros K Hb.
  set (dd := fun i => match oidx s ob t0 (mixin_at t i) with Some oi => ddo oi | None => {| md_buf := Some (s_next s); md_mixin := (s_next s, 0%N) |} end).
  apply (oldmem_part E s o x old r t ob r0 t0 ddo SU (s_next s) dd) with (oldv := oldv); auto; [| |apply (kp_old _ _ _ _ _ _ _ _ _ K)].
  - intros c [->|(i & m & Hs & Ha & Hm)]; auto. unfold anew in Ha. apply andb_true_iff in Ha. destruct Ha as [_ Ha]. rewrite (nw_slot _ _ _ _ _ _ _ Hs) in Ha.
    unfold dd in Hm. rewrite (mixin_at_slot _ _ _ _ Hs) in Hm. destruct (oidx s ob t0 m); [discriminate|]. simpl in Hm. injection Hm as <-. auto.
  - intros i m oi Hs Hoi. unfold dd. now rewrite (mixin_at_slot _ _ _ _ Hs), Hoi.
Qed.

Lemma kept_foot cp oldv s' c : kept s r t ob t0 ddo cp oldv s' -> (foot s' o c <-> foot s o c).
Proof.
  intros K. rewrite su_foot. pose proof (su_obj _ _ _ _ _ _ _ _ _ _ _ SU) as Ho. pose proof (su_old _ _ _ _ _ _ _ _ _ _ _ SU) as Hold.
  assert (Ho' : s_obj s' o = Some x) by (rewrite (kp_obj _ _ _ _ _ _ _ _ _ K); auto).
  pose proof (fun b => kept_part cp oldv s' b K) as P. destruct ob as [b|] eqn:Hb.
  - destruct (Hold b eq_refl) as (_ & Ht0 & _). rewrite (foot_fp s' o x b r0 t0 ddo c); auto; [|apply H0|now rewrite (wl_type _ _ (kp_w _ _ _ _ _ _ _ _ _ K))].
    unfold FinProofs.fp0. split; [eauto|]. intros (b' & [= <-] & Hf). exact Hf.
  - split; [intros (x' & b & q & k & A1 & A2 & _); congruence|]. intros (b & Hb' & _). discriminate.
Qed.

Lemma kept_blk cp oldv s' c : kept s r t ob t0 ddo cp oldv s' -> (s_blk s' c <> None <-> s_blk s c <> None).
Proof.
  intros K. destruct (Nat.lt_ge_cases c (s_next s)) as [Hc|Hc].
  - rewrite <- !battr_none. now rewrite (om_attr _ _ _ _ _ _ (kp_old _ _ _ _ _ _ _ _ _ K) c Hc).
  - rewrite (kp_lim _ _ _ _ _ _ _ _ _ K) by auto. rewrite (iv_next _ I) by auto. tauto.
Qed.

Theorem inv_kept cp oldv s' : kept s r t ob t0 ddo cp oldv s' -> Inv s'.
Proof.
  intros K. pose proof (kp_w _ _ _ _ _ _ _ _ _ K) as W. pose proof (su_obj _ _ _ _ _ _ _ _ _ _ _ SU) as Ho. pose proof (fun b => kept_part cp oldv s' b K) as P.
  assert (Hobj : s_obj s' = s_obj s) by apply (kp_obj _ _ _ _ _ _ _ _ _ K).
  apply (inv_one s s' o I).
  - destruct (kp_ws _ _ _ _ _ _ _ _ _ K) as [->| ->]; [apply (iv_reach _ I)|apply reach_undo].
  - intros q k Hq. rewrite (wl_type _ _ W) in Hq. now apply (iv_small _ I q).
  - intros o' _. now rewrite Hobj.
  - intros q k Hq _. exists (t_nobj k). rewrite (wl_type _ _ W), Hq. now destruct k.
  - intros o' c Hne Hf. eapply kept_agree; eauto; [eapply foot_lt; eauto|]. intros Hf2. apply Hne. eapply iv_sep; eauto.
  - intros y Hy. rewrite Hobj, Ho in Hy. injection Hy as <-. pose proof (iv_obj _ I o x Ho) as Hk. unfold obj_ok in *. pose proof (su_old _ _ _ _ _ _ _ _ _ _ _ SU) as Hold. destruct ob as [b|] eqn:Hb; auto.
    destruct (Hold b eq_refl) as (_ & Ht0 & _). exists r0, t0, ddo. rewrite (wl_type _ _ W). split; [apply H0|]. split; auto. split; [apply H0|]. now apply P.
  - intros c Hf. right. now apply (kept_foot cp oldv s').
  - intros c Hc. apply (kept_blk cp oldv s' c K) in Hc. destruct (iv_own _ I c Hc) as (o' & Ho'). destruct (Nat.eq_dec o' o) as [->|Hne].
    + right. now apply (kept_foot cp oldv s').
    + left. split; auto. intros Hf. apply Hne. eapply iv_sep; eauto.
  - intros c Hc. apply (kp_lim _ _ _ _ _ _ _ _ _ K). pose proof (kp_next _ _ _ _ _ _ _ _ _ K). lia.
  - intros q k Hq. exists k. rewrite (wl_type _ _ W) in Hq. split; auto. unfold is_of. now rewrite Hobj.
Qed.

(** ** A mutation that was done *)
Lemma rr0 : same_type (new_mut o x old r t) = false -> forall b, ob = Some b -> r <> r0.
Proof.
  intros Hsm b Hb Hr. destruct (su_old _ _ _ _ _ _ _ _ _ _ _ SU b Hb) as (Hold & _). unfold same_type in Hsm. cbn [new_mut mu_old mu_ref] in Hsm. rewrite Hold in Hsm. subst r.
  destruct (tref_eqb_spec r0 r0); congruence.
Qed.

Lemma w2_type q k : same_type (new_mut o x old r t) = false -> w_type (w2 s r t ob r0 t0) q = Some k ->
  exists k0, w_type (s_w s) q = Some k0 /\ k = set_nobj k0 (t_nobj k) /\
    t_nobj k + (if match ob with Some _ => tref_eqb r0 q | None => false end then 1 else 0) = t_nobj k0 + (if tref_eqb r q then 1 else 0).
Proof.
  intros Hsm. pose proof (rr0 Hsm) as Hrr. pose proof (su_old _ _ _ _ _ _ _ _ _ _ _ SU) as Hold. pose proof (su_ty _ _ _ _ _ _ _ _ _ _ _ SU) as Ht.
  assert (H1 : w_type (w1 s r t) q = if tref_eqb q r then Some (set_nobj t (S (t_nobj t))) else w_type (s_w s) q) by reflexivity.
  unfold w2. destruct ob as [b|] eqn:Hb.
  - unfold with_type at 1, tupd at 1. cbn [w_type]. destruct (Hold b eq_refl) as (_ & Ht0 & _ & Hnz & _). specialize (Hrr b eq_refl).
    destruct (tref_eqb_spec q r0) as [->|Hq].
    + intros [= <-]. exists t0. split; auto. split; [reflexivity|]. cbn [set_nobj t_nobj]. destruct (tref_eqb_spec r0 r0); [|congruence]. destruct (tref_eqb_spec r r0); [congruence|]. lia.
    + rewrite H1. destruct (tref_eqb_spec r0 q); [congruence|]. destruct (tref_eqb_spec q r) as [->|Hq2].
      * intros [= <-]. exists t. split; auto. split; [reflexivity|]. cbn [set_nobj t_nobj]. destruct (tref_eqb_spec r r); [lia|congruence].
      * intros Hk. exists k. split; auto. split; [now destruct k|]. destruct (tref_eqb_spec r q); [congruence|lia].
  - rewrite H1. destruct (tref_eqb_spec q r) as [->|Hq2].
    + intros [= <-]. exists t. split; auto. split; [reflexivity|]. cbn [set_nobj t_nobj]. destruct (tref_eqb_spec r r); [lia|congruence].
    + intros Hk. exists k. split; auto. split; [now destruct k|]. destruct (tref_eqb_spec r q); [congruence|lia].
Qed.
Lemma w2_some q k : w_type (s_w s) q = Some k -> exists n, w_type (w2 s r t ob r0 t0) q = Some (set_nobj k n).
Proof.
  intros Hk. pose proof (su_old _ _ _ _ _ _ _ _ _ _ _ SU) as Hold. pose proof (su_ty _ _ _ _ _ _ _ _ _ _ _ SU) as Ht.
  assert (H1 : exists n, w_type (w1 s r t) q = Some (set_nobj k n)).
  { unfold w1, with_type, tupd. cbn [w_type]. destruct (tref_eqb_spec q r) as [->|]; [|exists (t_nobj k); rewrite Hk; now destruct k]. assert (k = t) as -> by congruence. eauto. }
  unfold w2. destruct ob as [b|]; auto. unfold with_type, tupd. cbn [w_type]. destruct (tref_eqb_spec q r0) as [->|]; auto.
  destruct (Hold b eq_refl) as (_ & Ht0 & _). assert (k = t0) as -> by congruence. eauto.
Qed.
Lemma reach_w2 : same_type (new_mut o x old r t) = false -> reachable E (w2 s r t ob r0 t0).
Proof.
  intros Hsm. pose proof (rr0 Hsm) as Hrr. pose proof (su_old _ _ _ _ _ _ _ _ _ _ _ SU) as Hold. pose proof reach_w1 as R. unfold w2. destruct ob as [b|]; auto.
  destruct (Hold b eq_refl) as (_ & Ht0 & _ & Hnz & _). eapply reach_decr; [exact R| |].
  - unfold decr_nobj. assert (w_type (w1 s r t) r0 = Some t0) as ->.
    { unfold w1, with_type, tupd. cbn [w_type]. destruct (tref_eqb_spec r0 r) as [->|]; auto. exfalso. now apply (Hrr b). }
    destruct (t_nobj t0); [congruence|]. cbn [pred]. reflexivity.
  - auto.
Qed.

Lemma done_foot tb dd oldv newv s1 s' c : same_type (new_mut o x old r t) = false -> done_mem E s o x r t ob r0 t0 ddo tb dd oldv newv s1 s' ->
  (foot s' o c <-> fp t tb dd (full t) c).
Proof.
  intros Hsm DM. destruct (w2_some r t (su_ty _ _ _ _ _ _ _ _ _ _ _ SU)) as (k & Hk). pose proof (dm_part _ _ _ _ _ _ _ _ _ _ _ _ _ _ _ _ DM) as P.
  erewrite (foot_fp s' o _ tb r (set_nobj t k) dd c); [| | | | |].
  - reflexivity.
  - rewrite (dm_obj _ _ _ _ _ _ _ _ _ _ _ _ _ _ _ _ DM), upd_same. reflexivity.
  - reflexivity.
  - reflexivity.
  - rewrite (dm_w _ _ _ _ _ _ _ _ _ _ _ _ _ _ _ _ DM). exact Hk.
  - apply part_nobj. exact P.
Qed.

Theorem inv_done np cp s' : same_type (new_mut o x old r t) = false -> t_mixins t <> [] -> done_to E s o x r t ob r0 t0 ddo np cp s' -> Inv s'.
Proof.
  intros Hsm Hne (tb & dd & oldv & newv & s1 & DM & Hlog & Hfp & Hdd & Hnx & Hlim & _).
  pose proof (dm_obj _ _ _ _ _ _ _ _ _ _ _ _ _ _ _ _ DM) as Hobj. pose proof (dm_w _ _ _ _ _ _ _ _ _ _ _ _ _ _ _ _ DM) as Hw.
  pose proof (fun c => done_foot tb dd oldv newv s1 s' c Hsm DM) as Hfoot. pose proof (su_obj _ _ _ _ _ _ _ _ _ _ _ SU) as Ho.
  apply (inv_one s s' o I).
  - rewrite Hw. now apply reach_w2.
  - intros q k Hk. rewrite Hw in Hk. destruct (w2_type q k Hsm Hk) as (k0 & A1 & A2 & _). rewrite A2. exact (iv_small _ I q k0 A1).
  - intros o' Hne'. now rewrite Hobj, upd_other.
  - intros q k Hk _. rewrite Hw. now apply w2_some.
  - intros o' c Hne' Hf. apply (dm_oth _ _ _ _ _ _ _ _ _ _ _ _ _ _ _ _ DM); [eapply foot_lt; eauto|]. rewrite <- su_foot. intros Hf2. apply Hne'. eapply iv_sep; eauto.
  - intros y Hy. rewrite Hobj, upd_same in Hy. injection Hy as <-. unfold obj_ok. cbn [o_data o_type o_alloc].
    destruct (w2_some r t (su_ty _ _ _ _ _ _ _ _ _ _ _ SU)) as (k & Hk). exists r, (set_nobj t k), dd. rewrite Hw. split; auto. split; auto. split; auto. apply part_nobj. apply (dm_part _ _ _ _ _ _ _ _ _ _ _ _ _ _ _ _ DM).
  - intros c Hf. apply Hfoot in Hf. rewrite su_foot. now apply (dm_fp _ _ _ _ _ _ _ _ _ _ _ _ _ _ _ _ DM).
  - intros c Hc. rewrite Hfoot, su_foot. destruct (dm_own _ _ _ _ _ _ _ _ _ _ _ _ _ _ _ _ DM c Hc) as [[A B]|A]; auto. left. split; auto.
    destruct (dm_oth _ _ _ _ _ _ _ _ _ _ _ _ _ _ _ _ DM c A B) as (Ha & _). rewrite <- battr_none in *. congruence.
  - exact Hlim.
  - intros q k Hk. rewrite Hw in Hk. destruct (w2_type q k Hsm Hk) as (k0 & A1 & A2 & A3). exists k0. split; auto.
    unfold is_of. rewrite Hobj, upd_same, Ho. cbn [o_data o_type]. destruct ob as [b|] eqn:Hb; [rewrite (proj1 H0)|]; exact A3.
Qed.
End Perform.

End Obj.
