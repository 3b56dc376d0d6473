(** Objects as lists of mixins with values *)
From Coq Require Import List Arith ZArith NArith Lia Bool.
From Verif Require Import Base Sv SvProofs BaseLemmas Info TypeBuild TypeQuery Domain ElemProofs TypesProofs SpecReg SpecDom HistProofs DomTheorems SpecLayout Heap HeapProofs Mutation Object SpecObj SpecMut SpecAct SpecAbs
  PartProofs RollProofs AllocProofs UpdProofs FinProofs PerfProofs WorldProofs ObjProofs OpProofs PlanProofs ActProofs ActProofs2 MatchProofs ActProofs3 MutProofs MutProofs2 MutTheorems HonestProofs StableProofs SpecSeal SealProofs
  ObjTheorems ObjTheorems2 ObjTheorems3 ObjTheorems4 ObjTheorems5 ObjTheorems6 ObjTheorems7 ObjTheorems8 ObjTheorems9.
Import ListNotations.

Lemma nth_ext_opt {A} (l l' : list A) : (forall i, nth_error l i = nth_error l' i) -> l = l'.
Proof.
  revert l'. induction l as [|a l IH]; intros [|b l'] H; auto; [specialize (H 0); discriminate|specialize (H 0); discriminate|]. f_equal; [specialize (H 0); cbn in H; congruence|]. apply IH. intros i. exact (H (S i)).
Qed.
Lemma val_nth m v l : val_of m l = Some v -> exists i, nth_error l i = Some (m, v).
Proof. induction l as [|[x w] l IH]; cbn; [discriminate|]. destruct (Nat.eqb_spec x m) as [->|Hne]; [intros [= ->]; exists 0; reflexivity|]. intros H. destruct (IH H) as (i & Hi). exists (S i). auto. Qed.
Lemma val_some m v l : In (m, v) l -> exists w, val_of m l = Some w.
Proof. induction l as [|[x w] l IH]; cbn; [tauto|]. destruct (Nat.eqb_spec x m); [eauto|]. intros [[= -> ->]|H]; [congruence|auto]. Qed.
Lemma val_mixin m l : In m (mixins l) <-> exists w, val_of m l = Some w.
Proof.
  split.
  - intros H. apply in_map_iff in H. destruct H as ([x w] & <- & H). eapply val_some; eauto.
  - intros (w & H). destruct (val_nth _ _ _ H) as (i & Hi). apply in_map_iff. exists (m, w). split; auto. eapply nth_error_In; eauto.
Qed.
Lemma values_map s o f : forall n i, (forall j, i <= j < i + n -> value_at s o j = Some (f j)) -> values s o i n = map f (seq i n).
Proof. induction n as [|n IH]; intros i H; auto. cbn. rewrite (H i) by lia. f_equal. apply IH. intros j Hj. apply H. lia. Qed.

Section Abs.
Variable E : env.
Variable U : user.
Hypothesis AM : aligned_mixins E.
Notation Inv := (Inv E).

(** The list shows the mixins of the object. *)
Definition shown (s : st) (o : nat) (l : list (mptr * Z)) : Prop := forall i m v, nth_error l i = Some (m, v) <-> exists p, holds s o i m p v.
Lemma shown_fun s o l l' : shown s o l -> shown s o l' -> l' = l.
Proof.
  intros H H'. apply nth_ext_opt. intros i. destruct (nth_error l' i) as [[m v]|] eqn:Hi'.
  - symmetry. apply H, H', Hi'.
  - destruct (nth_error l i) as [[m v]|] eqn:Hi; auto. apply H, H' in Hi. congruence.
Qed.
Lemma val_shown s o l m v : Inv s -> typed s -> shown s o l -> (val_of m l = Some v <-> exists i p, holds s o i m p v).
Proof.
  intros I Ty H. split.
  - intros Hv. destruct (val_nth _ _ _ Hv) as (i & Hi). apply H in Hi. destruct Hi as (p & Hp). eauto.
  - intros (i & p & Hp). destruct (val_some m v l) as (w & Hw). { apply (nth_error_In l i). apply H. eauto. }
    destruct (val_nth _ _ _ Hw) as (j & Hj). apply H in Hj. destruct Hj as (q & Hq). destruct (holds_index E AM s o _ _ _ _ _ _ _ I Ty Hp Hq) as (_ & _ & ->). exact Hw.
Qed.
Lemma mixin_shown s o l m : Inv s -> typed s -> shown s o l -> (In m (mixins l) <-> has_some s o m).
Proof.
  intros I Ty H. rewrite val_mixin. split.
  - intros (w & Hw). apply (val_shown s o l m w I Ty H) in Hw. destruct Hw as (i & p & Hh & _). exists i. auto.
  - intros (i & Hi). destruct (mixin_holds E s o i m I Ty Hi) as (p & v & Hp). exists v. apply (val_shown s o l m v I Ty H). eauto.
Qed.
Lemma look_shown s o x r t : Inv s -> typed s -> s_obj s o = Some x -> o_type x = Some r -> w_type (s_w s) r = Some t ->
  exists l, is_view (look s) o (o_sealed x) l /\ mixins l = t_mixins t /\ shown s o l.
Proof.
  intros I Ty Hx Hr Ht. unfold is_view, look. rewrite Hx, Hr, Ht.
  assert (Hto : type_of s o r t) by (exists x; auto).
  assert (Hm : forall i m, has_mixin s o i m <-> nth_error (t_mixins t) i = Some m).
  { intros i m. split; [intros (r' & t' & A & B); destruct (type_of_fun s o r t r' t' Hto A) as [-> ->]; auto|intros B; exists r, t; auto]. }
  assert (Hv : forall i m v, value_at s o i = Some (m, v) <-> exists p, holds s o i m p v).
  { intros i m v. unfold value_at. split.
    - destruct (get_at s o i) as [[p|]|e|u] eqn:Hg; try discriminate. destruct (instance s p) as [[m' v']|] eqn:Hi; [|discriminate]. cbn. intros [= -> ->]. exists p.
      destruct (at_spec E s o i p I Ty) as (A & _); [exists x; split; auto; congruence|]. apply A in Hg. destruct Hg as (m2 & v2 & Hh). pose proof Hh as (_ & _ & H3). assert (m2 = m /\ v2 = v) as [-> ->] by (split; congruence). exact Hh.
    - intros (p & _ & Hg & Hi). rewrite Hg, Hi. reflexivity. }
  assert (Hall : forall i, i < length (t_mixins t) -> exists y, value_at s o i = Some y).
  { intros i Hi. destruct (nth_error (t_mixins t) i) as [m|] eqn:Hn; [|apply nth_error_None in Hn; lia]. destruct (mixin_holds E s o i m I Ty (proj2 (Hm i m) Hn)) as (p & v & Hp). exists (m, v). apply Hv. eauto. }
  pose (f := fun i => match value_at s o i with Some y => y | None => (0, 0%Z) end).
  assert (Hl : values s o 0 (length (t_mixins t)) = map f (seq 0 (length (t_mixins t)))).
  { apply values_map. intros j Hj. destruct (Hall j ltac:(lia)) as (y & Hy). unfold f. now rewrite Hy. }
  assert (Hnth : forall i, nth_error (map f (seq 0 (length (t_mixins t)))) i = value_at s o i).
  { intros i. destruct (Nat.lt_ge_cases i (length (t_mixins t))) as [Hi|Hi].
    - rewrite nth_error_map, nth_error_nth' with (d := 0) by (rewrite seq_length; auto). cbn. rewrite seq_nth by auto. cbn. destruct (Hall i Hi) as (y & Hy). unfold f. now rewrite Hy.
    - rewrite (proj2 (nth_error_None _ _)) by (rewrite map_length, seq_length; auto). destruct (value_at s o i) as [[m v]|] eqn:Hy; auto. apply Hv in Hy. destruct Hy as (p & Hh & _). apply Hm in Hh. apply nth_error_None in Hi. congruence. }
  eexists. split; [reflexivity|]. rewrite Hl. split.
  - apply nth_ext_opt. intros i. unfold mixins. rewrite nth_error_map, Hnth. destruct (value_at s o i) as [[m v]|] eqn:Hy; cbn.
    + apply Hv in Hy. destruct Hy as (p & Hh & _). apply Hm in Hh. auto.
    + destruct (nth_error (t_mixins t) i) as [m|] eqn:Hn; auto. destruct (Hall i) as (y & Hy'); [eapply nth_error_lt; eauto|congruence].
  - intros i m v. rewrite Hnth. apply Hv.
Qed.
Lemma view_of s o : Inv s -> typed s -> with_type_set s o -> exists x r t l, s_obj s o = Some x /\ o_type x = Some r /\ w_type (s_w s) r = Some t /\ is_view (look s) o (o_sealed x) l /\ mixins l = t_mixins t /\ shown s o l.
Proof.
  intros I Ty (x & Hx & Hxt). destruct (o_type x) as [r|] eqn:Hr; [|congruence]. pose proof (type_alive E s o x r I Ty Hx Hr) as Ha. destruct (w_type (s_w s) r) as [t|] eqn:Ht; [|congruence].
  destruct (look_shown s o x r t I Ty Hx Hr Ht) as (l & A & B & C). exists x, r, t, l. auto 10.
Qed.
Lemma view_shown s o sl l : Inv s -> typed s -> is_view (look s) o sl l -> shown s o l /\ exists x r t, s_obj s o = Some x /\ o_sealed x = sl /\ o_type x = Some r /\ w_type (s_w s) r = Some t /\ mixins l = t_mixins t.
Proof.
  intros I Ty H. pose proof H as H0. unfold is_view, look in H0. destruct (s_obj s o) as [x|] eqn:Hx; [|discriminate]. destruct (o_type x) as [r|] eqn:Hr; [|discriminate]. destruct (w_type (s_w s) r) as [t|] eqn:Ht; [|discriminate].
  destruct (look_shown s o x r t I Ty Hx Hr Ht) as (l' & A & B & C). unfold is_view in H, A. rewrite H in A. injection A as A1 A2. subst l' sl. split; auto. exists x, r, t. auto 10.
Qed.
Lemma view_here s o x r t l : Inv s -> typed s -> s_obj s o = Some x -> type_of s o r t -> shown s o l -> is_view (look s) o (o_sealed x) l.
Proof. intros I Ty Hx (x' & A & B & C) H. assert (x' = x) as -> by congruence. destruct (look_shown s o x r t I Ty Hx B C) as (l' & D & _ & F). now rewrite (shown_fun s o l' l F H). Qed.
Lemma sees_iff s o m : Inv s -> typed s -> (sees (look s) o m <-> has_some s o m).
Proof.
  intros I Ty. split.
  - intros (sl & l & V & Hm). destruct (view_shown s o sl l I Ty V) as (H & _). now apply (mixin_shown s o l m I Ty H).
  - intros Hs. pose proof Hs as (i & r & t & (x & A & B & C) & Hn). destruct (look_shown s o x r t I Ty A B C) as (l & D & _ & F). exists (o_sealed x), l. split; auto. now apply (mixin_shown s o l m I Ty F).
Qed.
Lemma look_same s s' o : Inv s -> typed s -> Inv s' -> typed s' -> kept s s' o -> look s' o = look s o.
Proof.
  intros I Ty I' Ty' [K1 K2]. destruct (s_obj s o) as [x|] eqn:Hx; [|unfold look; now rewrite K1, Hx]. destruct (o_type x) as [r|] eqn:Hr; [|unfold look; now rewrite K1, Hx, Hr].
  destruct (view_of s o I Ty) as (x1 & r1 & t1 & l & A1 & A2 & A3 & A4 & A5 & A6); [exists x; split; auto; congruence|]. assert (x1 = x) as -> by congruence.
  destruct (view_of s' o I' Ty') as (x2 & r2 & t2 & l' & B1 & B2 & B3 & B4 & B5 & B6); [exists x; split; auto; congruence|]. assert (x2 = x) as -> by congruence.
  unfold is_view in A4, B4. rewrite A4, B4. do 3 f_equal. apply (shown_fun s o l l' A6). intros i m v. split; [intros H; apply B6 in H|intros H; apply B6]; destruct H as (p & Hp); exists p; now apply K2.
Qed.
Lemma look_unchanged s s' : Inv s -> typed s -> Inv s' -> typed s' -> unchanged s s' -> types_kept s s' -> forall o, look s' o = look s o.
Proof. intros I Ty I' Ty' A B o. apply look_same; auto. apply (kept_unchanged E); auto. Qed.
Lemma look_empty s o x r t : s_obj s o = Some x -> o_type x = Some r -> w_type (s_w s) r = Some t -> t_mixins t = [] -> is_view (look s) o (o_sealed x) [].
Proof. intros Hx Hr Ht Hm. unfold is_view, look. now rewrite Hx, Hr, Ht, Hm. Qed.
Lemma look_untyped s o x : s_obj s o = Some x -> o_type x = None -> look s o = Some {| v_sealed := o_sealed x; v_mixins := None |}.
Proof. intros Hx Hr. unfold look. now rewrite Hx, Hr. Qed.

(** ** Mutations *)
Lemma view_failed s s' o ms mk up l (P : mptr -> Prop) : Inv s -> typed s -> Inv s' -> typed s' -> with_type_set s o -> failed E s s' o ms mk up l -> (forall i m f src, has_some s o m -> up i m (Some (f, src)) -> P m) ->
  only_values P (look s) (look s') o.
Proof.
  intros I Ty I' Ty' Ts F HP. destruct (view_of s o I Ty Ts) as (x & r & t & l0 & A1 & A2 & A3 & A4 & A5 & A6).
  assert (Hx' : s_obj s' o = Some x) by now rewrite (fd_objects _ _ _ _ _ _ _ _ F).
  assert (Ht' : type_of s' o r t) by (apply (fd_types _ _ _ _ _ _ _ _ F); exists x; auto).
  pose proof Ht' as (x' & B1 & B2 & B3). destruct (look_shown s' o x r t I' Ty' Hx' A2 B3) as (l1 & C1 & C2 & C3).
  exists (o_sealed x), l0, l1. split; auto. split; auto. split; [congruence|]. intros m Hm.
  destruct (val_of m l0) as [v|] eqn:Hv.
  - apply (val_shown s o l0 m v I Ty A6) in Hv. destruct Hv as (i & p & Hh). destruct (fd_mixins _ _ _ _ _ _ _ _ F i m p v Hh) as (v' & Hh' & Hq).
    assert (calls m l = []) as Hc.
    { destruct (in_dec Nat.eq_dec m ms) as [Hin|Hin]; [|now apply (fd_quiet _ _ _ _ _ _ _ _ F)]. destruct (In_nth_error _ _ Hin) as (k & Hk).
      destruct (fd_common _ _ _ _ _ _ _ _ F k i m p v Hk Hh) as [Hz|(f & src & err & Hu & _)]; auto. exfalso. apply Hm. apply (HP k m f src); auto. exists i. apply Hh. }
    rewrite <- (Hq Hc). apply (val_shown s' o l1 m v' I' Ty' C3). eauto.
  - destruct (val_of m l1) as [v|] eqn:Hv1; auto. exfalso. assert (In m (mixins l0)) as Hin. { rewrite A5, <- C2. apply val_mixin. eauto. } apply val_mixin in Hin. destruct Hin as (w & Hw). congruence.
Qed.
(** A mutation that worked, seen from the values *)
Lemma mutated_value s s' o r mk (up : updates) l i m p' v' j p v : Inv s -> typed s -> Inv s' -> typed s' -> mutated E s s' o r mk up l -> holds s' o i m p' v' -> holds s o j m p v ->
  exists c, up i m c /\ value_after s m v c v'.
Proof.
  intros I Ty I' Ty' M H' H.
  assert (D : (external (e_mixin E m) = true \/ (exists t, type_of s o r t)) \/ (external (e_mixin E m) = false /\ ~ exists t, type_of s o r t)).
  { destruct (external (e_mixin E m)); auto. destruct (s_obj s o) as [x|] eqn:Hx.
    - destruct (o_type x) as [q|] eqn:Hq; [|right; split; auto; intros (t & x1 & X1 & X2 & _); congruence]. destruct (w_type (s_w s) q) as [t|] eqn:Ht; [|exfalso; apply (type_alive E s o x q I Ty Hx Hq Ht)].
      destruct (tref_eqb_spec q r) as [->|Hne]; [left; right; exists t, x; auto|right; split; auto; intros (t1 & x1 & X1 & X2 & _); congruence].
    - right. split; auto. intros (t & x1 & X1 & _). congruence. }
  destruct D as [D|[D1 D2]].
  - destruct (mt_stay _ _ _ _ _ _ _ _ M i j m p v (proj1 H') H D) as (v2 & c & A & B & C & _). destruct (holds_index E AM s' o _ _ _ _ _ _ _ I' Ty' H' A) as (_ & _ & ->). eauto.
  - destruct (mt_moved _ _ _ _ _ _ _ _ M i j m p v (proj1 H') H D1 D2) as (p2 & v2 & c & A & _ & _ & B & C & _). destruct (holds_index E AM s' o _ _ _ _ _ _ _ I' Ty' H' A) as (_ & _ & ->). eauto.
Qed.
Lemma view_mutated s s' o r t n mk (up : updates) l (P : mptr -> Prop) : Inv s -> typed s -> Inv s' -> typed s' -> with_type_set s o -> mutated E s s' o r mk up l -> type_of s' o r (set_nobj t n) ->
  (forall x x', s_obj s o = Some x -> s_obj s' o = Some x' -> o_sealed x' = o_sealed x) -> (forall i m c, up i m c -> c = None \/ P m) ->
  exists sl l0 l1, is_view (look s) o sl l0 /\ is_view (look s') o sl l1 /\ changed_mixins P (t_mixins t) l0 l1.
Proof.
  intros I Ty I' Ty' Ts M Ht' Hs HP. destruct (view_of s o I Ty Ts) as (x & q & t0 & l0 & A1 & A2 & A3 & A4 & A5 & A6).
  destruct Ht' as (x' & B1 & B2 & B3). destruct (look_shown s' o x' r _ I' Ty' B1 B2 B3) as (l1 & C1 & C2 & C3).
  exists (o_sealed x), l0, l1. split; auto. rewrite <- (Hs x x' A1 B1). split; auto. split; [exact C2|]. intros m v Hin Hm Hv.
  apply (val_shown s o l0 m v I Ty A6) in Hv. destruct Hv as (j & p & Hh). assert (In m (mixins l1)) as Hin1. { rewrite C2. exact Hin. } apply val_mixin in Hin1. destruct Hin1 as (w & Hw).
  pose proof Hw as Hw0. apply (val_shown s' o l1 m w I' Ty' C3) in Hw. destruct Hw as (i & p' & Hh'). destruct (mutated_value s s' o r mk up l i m p' w j p v I Ty I' Ty' M Hh' Hh) as (c & Hc & Hva).
  destruct (HP i m c Hc) as [->|HPm]; [|contradiction]. cbn in Hva. congruence.
Qed.
End Abs.
