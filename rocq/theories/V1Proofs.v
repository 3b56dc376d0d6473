(** Proofs for the rule ids of dynamix 1 *)
From Coq Require Import List Arith ZArith NArith Bool Lia.
From Verif Require Import Base BaseLemmas Sv Info Registry Rules Domain SpecReg SpecOrd HistProofs DomTheorems RuleTheorems V1Rules SpecV1.
Import ListNotations.

Section V1Proofs.
Variable E : env.
Variable dv : dptr.

Definition slot (l : list (option rptr)) (i : nat) : option rptr := match nth_error l i with Some x => x | None => None end.

Lemma find_null_spec : forall l l' i, find_null l = (l', i) -> (forall j, slot l' j = slot l j) /\ i < length l' /\ slot l' i = None.
Proof.
  induction l as [|[r|] l IH]; cbn; intros l' i H.
  - injection H as <- <-. split; [|split; [cbn; lia|reflexivity]]. intros [|[|j]]; reflexivity.
  - destruct (find_null l) as [t' k] eqn:Hf. injection H as <- <-. destruct (IH _ _ eq_refl) as (A & B & C).
    split; [|split; [cbn; lia|exact C]]. intros [|j]; [reflexivity|exact (A j)].
  - injection H as <- <-. split; [reflexivity|]. split; [cbn; lia|reflexivity].
Qed.
Lemma slot_set i x l j : i < length l -> slot (set_nth i x l) j = if j =? i then x else slot l j.
Proof.
  intros Hi. unfold slot. destruct (Nat.eqb_spec j i) as [->|Hne].
  - now rewrite nth_error_set_nth_same.
  - now rewrite nth_error_set_nth_other by congruence.
Qed.
Lemma slot_lt l i r : slot l i = Some r -> i < length l.
Proof. unfold slot. intros H. apply nth_error_Some. intros Hn. now rewrite Hn in H. Qed.

(** the positions that hold a rule *)
Fixpoint holders (r : rptr) (l : list (option rptr)) (i : nat) : list nat :=
  match l with
  | [] => []
  | x :: t => (if opt_eqb x (Some r) then [i] else []) ++ holders r t (S i)
  end.
Lemma holders_in r : forall l i j, In j (holders r l i) <-> i <= j /\ slot l (j - i) = Some r.
Proof.
  unfold slot. induction l as [|x l IH]; intros i j; cbn [holders].
  - split; [intros []|]. intros [_ H]. destruct (j - i); discriminate H.
  - rewrite in_app_iff, IH. split.
    + intros [H|[H1 H2]].
      * destruct (opt_eqb x (Some r)) eqn:He; [|destruct H]. destruct H as [<-|[]]. rewrite Nat.sub_diag. cbn. split; [lia|].
        destruct x as [y|]; [|discriminate]. apply Nat.eqb_eq in He. now subst.
      * replace (j - i) with (S (j - S i)) by lia. split; [lia|exact H2].
    + intros [H1 H2]. destruct (j - i) as [|k] eqn:Hk; cbn in H2.
      * subst x. left. cbn. rewrite Nat.eqb_refl. left. lia.
      * right. replace (j - S i) with k by lia. split; [lia|exact H2].
Qed.
Lemma holders_nodup r : forall l i, NoDup (holders r l i).
Proof.
  induction l as [|x l IH]; intros i; cbn [holders]; [constructor|]. destruct (opt_eqb x (Some r)); [|exact (IH _)].
  cbn. constructor; [|exact (IH _)]. rewrite holders_in. lia.
Qed.
Definition occ (r : rptr) (l : list (option rptr)) : nat := length (holders r l 0).
Lemma holders_len r : forall l i j, length (holders r l i) = length (holders r l j).
Proof. induction l as [|x l IH]; intros i j; cbn [holders]; [reflexivity|]. rewrite !app_length, (IH (S i) (S j)). now destruct (opt_eqb x (Some r)). Qed.
Lemma occ_cons r x l : occ r (x :: l) = (if opt_eqb x (Some r) then 1 else 0) + occ r l.
Proof. unfold occ. cbn [holders]. rewrite app_length, (holders_len r l 1 0). now destruct (opt_eqb x (Some r)). Qed.
Lemma occ_find r : forall l l' i, find_null l = (l', i) -> occ r l' = occ r l.
Proof.
  induction l as [|[x|] l IH]; cbn [find_null]; intros l' i H.
  - injection H as <- <-. reflexivity.
  - destruct (find_null l) as [t' k] eqn:Hf. injection H as <- <-. rewrite !occ_cons. now rewrite (IH _ _ eq_refl).
  - injection H as <- <-. reflexivity.
Qed.
Lemma occ_fill r x : forall l i, i < length l -> slot l i = None -> occ r (set_nth i (Some x) l) = occ r l + (if r =? x then 1 else 0).
Proof.
  unfold slot. induction l as [|y l IH]; intros i Hi Hs; cbn in Hi; [lia|]. destruct i as [|i]; cbn [nth_error] in Hs; cbn [set_nth]; rewrite !occ_cons.
  - subst y. cbn. rewrite (Nat.eqb_sym x r). lia.
  - rewrite IH; [lia|lia|exact Hs].
Qed.
Lemma occ_drop r x : forall l i, slot l i = Some x -> occ r l = occ r (set_nth i None l) + (if r =? x then 1 else 0).
Proof.
  unfold slot. induction l as [|y l IH]; intros i Hs; [destruct i; discriminate Hs|]. destruct i as [|i]; cbn [nth_error] in Hs; cbn [set_nth]; rewrite !occ_cons.
  - subst y. cbn. rewrite (Nat.eqb_sym x r). lia.
  - rewrite (IH i Hs). lia.
Qed.

Lemma rules_decr_total r : forall l, (forall k c, In (k, c) l -> c <> 0) -> exists x, rules_decr E r l = Ok x.
Proof.
  induction l as [|[k c] l IH]; intros H; cbn [rules_decr]; [eauto|]. destruct (rule_less E k r).
  - destruct IH as [x Hx]. { intros k' c' Hin. exact (H k' c' (or_intror Hin)). } rewrite Hx. cbn. eauto.
  - destruct (rule_less E r k); [eauto|]. destruct c as [|[|c]]; [|eauto|eauto]. exfalso. exact (H k 0 (or_introl eq_refl) eq_refl).
Qed.
Lemma remove_rule_total w r : KInv w -> exists w', remove_rule E w dv r = (w', Ok tt).
Proof.
  intros K. unfold remove_rule. destruct (rules_decr_total r (d_rules (w_dom w dv))) as [[l b] Hx]. { exact (K dv). }
  rewrite Hx. eauto.
Qed.

Definition base (r : rptr) : nat := if s_canonicalize (e_settings E dv) && (r =? e_canon E dv) then 1 else 0.

Definition VInv (tr : list (vop * res vret)) (s : vst) : Prop :=
  (forall id, under tr id = slot (v_slots s) id) /\
  exists dtr, run E (init_world E) dtr (v_w s) /\
    ((forall o r, In (o, r) tr -> v1_only dv o) -> forall r, rule_count E dtr dv r = occ r (v_slots s) + base r).

Lemma under_snoc tr c : under (tr ++ [c]) = under_step (under tr) c.
Proof. unfold under. now rewrite fold_left_app. Qed.
Lemma count_snoc dtr c d : rule_count E (dtr ++ [c]) d = rule_step d (rule_count E dtr d) c.
Proof. unfold rule_count. now rewrite fold_left_app. Qed.

Lemma v_inv ok tr s : vrun E dv ok tr s -> VInv tr s.
Proof.
  induction 1 as [|tr s o r s' Hrun (I1 & dtr & Hd & I2) Hok Hstep Hub].
  - split. { intros id. unfold slot. now destruct id. }
    exists []. split; [constructor|]. intros _ r. reflexivity.
  - destruct o as [rule|id|o]; cbn [vstep] in Hstep.
    + unfold v1_add, vmap in Hstep. destruct (find_null (v_slots s)) as [sl i] eqn:Hf.
      destruct (find_null_spec _ _ _ Hf) as (F1 & F2 & F3).
      destruct rule as [x|]; cbn [fst snd] in Hstep; [|injection Hstep as <- <-; exfalso; exact (Hub I)].
      destruct (add_rule E (v_w s) dv x) as [w' [u|e|u]] eqn:Ha; cbn [fst snd] in Hstep; injection Hstep as <- <-.
      * split.
        { intros j. rewrite under_snoc. cbn [under_step v_slots]. rewrite (slot_set _ _ _ _ F2), F1. destruct (j =? i); [reflexivity|apply I1]. }
        exists (dtr ++ [(DAddRule dv x, Ok None)]). split.
        { apply run_snoc with (w1 := v_w s); [exact Hd| |intros []]. cbn [dstep v_w]. rewrite Ha. reflexivity. }
        intros Hall y. rewrite count_snoc. cbn [rule_step v_slots]. rewrite Nat.eqb_refl.
        rewrite (occ_fill y x _ _ F2 F3), (occ_find y _ _ _ Hf), I2 by (intros o r Hin; exact (Hall o r (in_or_app _ _ _ (or_introl Hin)))).
        destruct (y =? x); lia.
      * split.
        { intros j. rewrite under_snoc. cbn [under_step v_slots]. rewrite F1. apply I1. }
        exists (dtr ++ [(DAddRule dv x, Throw e)]). split.
        { apply run_snoc with (w1 := v_w s); [exact Hd| |intros []]. cbn [dstep v_w]. rewrite Ha. reflexivity. }
        intros Hall y. rewrite count_snoc. cbn [rule_step v_slots].
        rewrite (occ_find y _ _ _ Hf). apply I2. intros o r Hin. exact (Hall o r (in_or_app _ _ _ (or_introl Hin))).
      * exfalso. exact (Hub I).
    + unfold v1_remove, vmap in Hstep. pose proof (I1 id) as Hid. unfold slot in Hid.
      destruct (nth_error (v_slots s) id) as [[x|]|] eqn:Hn.
      * destruct (remove_rule_total (v_w s) x (kinv_run E _ _ Hd)) as [w' Hr]. rewrite Hr in Hstep. cbn [fst snd] in Hstep.
        injection Hstep as <- <-.
        assert (Hsl : slot (v_slots s) id = Some x) by (unfold slot; now rewrite Hn).
        split.
        { intros j. rewrite under_snoc. cbn [under_step v_slots]. rewrite (slot_set _ _ _ _ (slot_lt _ _ _ Hsl)). destruct (j =? id); [reflexivity|apply I1]. }
        exists (dtr ++ [(DRemRule dv x, Ok None)]). split.
        { apply run_snoc with (w1 := v_w s); [exact Hd| |intros []]. cbn [dstep v_w]. rewrite Hr. reflexivity. }
        intros Hall y. rewrite count_snoc. cbn [rule_step v_slots]. rewrite Nat.eqb_refl.
        pose proof (occ_drop y x _ _ Hsl) as Ho.
        rewrite I2 by (intros o r Hin; exact (Hall o r (in_or_app _ _ _ (or_introl Hin)))). rewrite Ho.
        destruct (y =? x); lia.
      * cbn [fst snd] in Hstep. injection Hstep as <- <-. split.
        { intros j. rewrite under_snoc. cbn [under_step]. destruct (Nat.eqb_spec j id) as [->|]; [|apply I1]. unfold slot. now rewrite Hn. }
        exists dtr. split; [exact Hd|]. intros Hall. apply I2. intros o r Hin. exact (Hall o r (in_or_app _ _ _ (or_introl Hin))).
      * cbn [fst snd] in Hstep. injection Hstep as <- <-. split.
        { intros j. rewrite under_snoc. cbn [under_step]. destruct (Nat.eqb_spec j id) as [->|]; [|apply I1]. unfold slot. now rewrite Hn. }
        exists dtr. split; [exact Hd|]. intros Hall. apply I2. intros o r Hin. exact (Hall o r (in_or_app _ _ _ (or_introl Hin))).
    + destruct (dstep E (v_w s) o) as [w' x] eqn:Hs. unfold vmap in Hstep. cbn [fst snd] in Hstep. injection Hstep as <- <-.
      split. { intros j. rewrite under_snoc. exact (I1 j). }
      exists (dtr ++ [(o, x)]). split.
      { apply run_snoc with (w1 := v_w s); [exact Hd|exact Hs|]. destruct x; auto. }
      intros Hall y. rewrite count_snoc. cbn [v_slots].
      assert (Hv : v1_only dv (VDom o)) by (eapply Hall; apply in_or_app; right; left; reflexivity).
      rewrite <- I2 by (intros o' r Hin; exact (Hall o' r (in_or_app _ _ _ (or_introl Hin)))).
      destruct o, x; try reflexivity; cbn [rule_step v1_only] in *; rewrite (proj2 (Nat.eqb_neq d dv) Hv); reflexivity.
Qed.

Lemma c54_ids ok tr s : vrun E dv ok tr s ->
  (forall r s' id, vstep E dv s (VAdd (Some r)) = (s', Ok (RId id)) -> under tr id = None) /\
  (forall r, r_apply (e_rule E r) <> None -> exists s' id, vstep E dv s (VAdd (Some r)) = (s', Ok (RId id))) /\
  (forall id, under tr id = None -> vstep E dv s (VRemove id) = (s, Ok (RRule None))) /\
  (forall id r, under tr id = Some r -> exists s', vstep E dv s (VRemove id) = (s', Ok (RRule (Some r)))).
Proof.
  intros Hrun. destruct (v_inv _ _ _ Hrun) as (I1 & dtr & Hd & _). repeat split.
  - intros r s' id H. cbn [vstep] in H. unfold v1_add, vmap in H. destruct (find_null (v_slots s)) as [sl i] eqn:Hf.
    destruct (find_null_spec _ _ _ Hf) as (F1 & F2 & F3).
    destruct (add_rule E (v_w s) dv r) as [w' [u|e|u]]; cbn [fst snd] in H; [|discriminate H|discriminate H].
    injection H as _ <-. rewrite I1, <- F1. exact F3.
  - intros r Hr. cbn [vstep]. unfold v1_add, vmap. destruct (find_null (v_slots s)) as [sl i]. unfold add_rule.
    destruct (r_apply (e_rule E r)); [|congruence]. destruct (rules_incr E r (d_rules (w_dom (v_w s) dv))) as [l b]. cbn [fst snd]. eauto.
  - intros id Hu. rewrite I1 in Hu. unfold slot in Hu. cbn [vstep]. unfold v1_remove, vmap. destruct (nth_error (v_slots s) id) as [[x|]|]; [discriminate Hu|reflexivity|reflexivity].
  - intros id r Hu. rewrite I1 in Hu. unfold slot in Hu. cbn [vstep]. unfold v1_remove, vmap. destruct (nth_error (v_slots s) id) as [[x|]|]; [|discriminate Hu|discriminate Hu].
    injection Hu as ->. destruct (remove_rule_total (v_w s) r (kinv_run E _ _ Hd)) as [w' Hr]. rewrite Hr. cbn [fst snd]. eauto.
Qed.

Lemma run_ops_ok ok tr s : vrun E dv ok tr s -> forall o r, In (o, r) tr -> ok o.
Proof.
  induction 1 as [|tr s o r s' Hrun IH Hok Hstep Hub]; intros o' r' Hin; [destruct Hin|].
  apply in_app_or in Hin. destruct Hin as [Hin|[Hin|[]]]; [exact (IH _ _ Hin)|]. injection Hin as <- _. exact Hok.
Qed.

Lemma c54_active tr s r : regular_rules E -> vrun E dv (v1_only dv) tr s ->
  (s_canonicalize (e_settings E dv) = false \/ r <> e_canon E dv) ->
  exists ids, NoDup ids /\ (forall id, In id ids <-> under tr id = Some r) /\
    (forall c, In (r, c) (d_rules (w_dom (v_w s) dv)) <-> c = length ids /\ 0 < c).
Proof.
  intros Hreg Hrun Hc. destruct (v_inv _ _ _ Hrun) as (I1 & dtr & Hd & I2). specialize (I2 (run_ops_ok _ _ _ Hrun)).
  exists (holders r (v_slots s) 0). split; [apply holders_nodup|]. split.
  - intros id. rewrite holders_in, I1, Nat.sub_0_r. split; [intros [_ H]; exact H|intros H; split; [lia|exact H]].
  - intros c. rewrite (proj1 (c09 E Hreg dtr (v_w s) dv Hd) r c), I2. unfold base, occ.
    assert (Hb : s_canonicalize (e_settings E dv) && (r =? e_canon E dv) = false).
    { destruct Hc as [->|Hne]; [reflexivity|]. rewrite (proj2 (Nat.eqb_neq _ _) Hne). apply andb_false_r. }
    rewrite Hb, Nat.add_0_r. reflexivity.
Qed.

End V1Proofs.
