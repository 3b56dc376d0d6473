(** Proofs of exactly when some claims hold. *)
From Coq Require Import List Arith ZArith NArith Lia Bool.
From Verif Require Import Base Sv SvProofs BaseLemmas Info TypeBuild TypeQuery Domain SpecReg SpecDom SpecOrd SpecLayout LayoutProofs TypeTheorems Resource ResourceProofs
  Heap Mutation Object SpecObj SpecMut SpecLog SpecAct PlanProofs ObjTheorems8 Define SpecDefine DefineProofs SpecExact.
Import ListNotations.

Lemma cmp_exact a b : view_wf a -> view_wf b -> (compares a b (sv_cmp a b) <-> (sv_begin a = sv_begin b -> sv_bytes a = sv_bytes b)).
Proof.
  intros A B. split.
  - intros (_ & H & _) He. apply H. unfold sv_cmp. rewrite He, N.eqb_refl. reflexivity.
  - intros H. exact (c60 a b A B H).
Qed.

Lemma order_exact name l : auto_named l -> (in_call_order (rules_told name 0 l) <-> length (rules_told name 0 l) <= 10).
Proof.
  intros G. split.
  - intros H. destruct (Nat.le_gt_cases (length (rules_told name 0 l)) 10) as [|Hlt]; [assumption|exfalso].
    destruct (nth_error (rules_told name 0 l) 2) as [r1|] eqn:H1; [|apply nth_error_None in H1; lia]. destruct (nth_error (rules_told name 0 l) 10) as [r2|] eqn:H2; [|apply nth_error_None in H2; lia].
    assert (Hx := H 2 10 r1 r2 _ _ H1 H2 ltac:(lia) (told_auto l G _ _ _ _ H1) (told_auto l G _ _ _ _ H2)). cbn [Nat.add] in Hx.
    assert (Hcut : forall p a b, lex_lt (p ++ a) (p ++ b) -> lex_lt a b) by (induction p as [|x p IH]; cbn; intros a b Hl; [exact Hl|inversion Hl; subst; [lia|auto]]).
    apply Hcut, Hcut in Hx. change (to_string 2) with [50%N] in Hx. change (to_string 10) with [49%N; 48%N] in Hx. inversion Hx; subst. lia.
  - intros Hle i j r1 r2 n1 n2 H1 H2 Hij N1 N2. assert (Hj := nth_error_lt _ _ _ H2). exact (c67_order name l i j r1 r2 n1 n2 G H1 H2 Hij ltac:(lia) N1 N2).
Qed.

Local Open Scope N_scope.
Lemma next_multiple_wrap s n : 0 < n -> n < 4294967296 -> s < 4294967296 -> 4294967296 < s + n -> next_multiple s n = 0.
Proof.
  intros Hn Hn2 Hs H. unfold next_multiple. assert (Hu : u32 (s + n) = s + n - 4294967296).
  { unfold u32. replace (s + n) with ((s + n - 4294967296) + 1 * 4294967296) at 1 by lia. rewrite N.mod_add by lia. apply N.mod_small. lia. }
  rewrite Hu. assert (Hv : u32 (s + n - 4294967296 + (4294967296 - 1)) = s + n - 4294967296 - 1).
  { unfold u32. replace (s + n - 4294967296 + (4294967296 - 1)) with ((s + n - 4294967296 - 1) + 1 * 4294967296) by lia. rewrite N.mod_add by lia. apply N.mod_small. lia. }
  rewrite Hv, N.div_small by lia. reflexivity.
Qed.
Lemma next_multiple_top s n : 0 < n -> s + n = 4294967296 -> next_multiple s n = 4294967295 / n * n /\ s <= 4294967295 / n * n.
Proof.
  intros Hn H. unfold next_multiple. rewrite H. change (u32 4294967296) with 0. change (u32 (0 + (4294967296 - 1))) with 4294967295.
  assert (Hd := N.div_mod 4294967295 n ltac:(lia)). assert (Hm := N.mod_lt 4294967295 n ltac:(lia)). rewrite (N.mul_comm (4294967295 / n) n). generalize dependent (n * (4294967295 / n)). generalize dependent (4294967295 mod n). intros m Hm q Hd. split; [|lia]. unfold u32. apply N.mod_small. lia.
Qed.
Lemma resource_exact bytes a : 0 < a -> a < 4294967296 ->
  exists s, resource_size bytes a = Ok s /\ (bytes <= s <-> bytes + a <= 4294967296) /\ (a | s) /\ (4294967296 < bytes + a -> bytes < 4294967296 -> s = 0).
Proof.
  intros A B. unfold resource_size. replace (u32 a) with a by (symmetry; apply N.mod_small; lia). destruct (N.eqb_spec a 0); [lia|]. eexists. split; [reflexivity|].
  assert (Hlt : next_multiple (u32 bytes) a < 4294967296) by (apply N.mod_lt; lia).
  assert (Hu : u32 bytes < 4294967296) by (apply N.mod_lt; lia).
  assert (Hdiv : (a | next_multiple (u32 bytes) a)).
  { destruct (N.lt_trichotomy (u32 bytes + a) 4294967296) as [H|[H|H]].
    - destruct (next_multiple_spec (u32 bytes) a A H) as (q & -> & _). now exists q.
    - rewrite (proj1 (next_multiple_top _ _ A H)). now exists (4294967295 / a).
    - rewrite next_multiple_wrap by lia. now exists 0. }
  destruct (N.lt_ge_cases bytes 4294967296) as [Hb|Hb].
  2:{ split; [lia|]. split; [exact Hdiv|lia]. }
  assert (Hub : u32 bytes = bytes) by (apply N.mod_small; lia). rewrite Hub in *.
  destruct (N.lt_trichotomy (bytes + a) 4294967296) as [H|[H|H]].
  - destruct (next_multiple_spec bytes a A H) as (q & Hq & H1 & H2). rewrite Hq in *. split; [lia|]. split; [exact Hdiv|lia].
  - destruct (next_multiple_top _ _ A H) as [Hq H1]. rewrite Hq in *. split; [lia|]. split; [exact Hdiv|lia].
  - rewrite (next_multiple_wrap bytes a) in * by lia. split; [lia|]. split; [exact Hdiv|reflexivity].
Qed.
Local Close Scope N_scope.

Lemma order_accepted t l : in_order t (at_calls l) 0 <-> accepted (length (t_mixins t)) l.
Proof.
  assert (H : forall u, u <= length (t_mixins t) -> (in_order t (at_calls l) u <-> exists l1 l2, l = l1 ++ l2 /\ increasing u (length (t_mixins t)) l1 /\ forall i k, In (i, k) l2 -> i = length (t_mixins t))).
  { induction l as [|[j k] l IH]; intros u Hu.
    - split; [|intros _; exact Logic.I]. intros _. exists [], []. split; [reflexivity|]. split; [exact Logic.I|]. intros i k' [].
    - cbn [at_calls map fst snd in_order]. destruct (Nat.lt_trichotomy j (length (t_mixins t))) as [Hj|[Hj|Hj]].
      + rewrite Nat.min_l by lia. fold (at_calls l). rewrite (IH (S j)) by lia. split.
        * intros [H1 (l1 & l2 & -> & H2 & H3)]. exists ((j, k) :: l1), l2. split; [reflexivity|]. split; [split; [lia|exact H2]|exact H3].
        * intros (l1 & l2 & He & H2 & H3). destruct l1 as [|[j' k'] l1]; cbn in He.
          -- exfalso. subst l2. specialize (H3 j k (or_introl eq_refl)). lia.
          -- injection He as <- <- ->. destruct H2 as [H2 H4]. split; [lia|]. exists l1, l2. auto.
      + rewrite Nat.min_r by lia. fold (at_calls l). rewrite (IH (length (t_mixins t))) by lia. split.
        * intros [_ (l1 & l2 & -> & H2 & H3)]. destruct l1 as [|[j' k'] l1]; [|destruct H2; lia]. exists [], ((j, k) :: l2). split; [reflexivity|]. split; [exact Logic.I|]. intros i k' [Hi|Hi]; [injection Hi as <- _; exact Hj|eauto].
        * intros (l1 & l2 & He & H2 & H3). destruct l1 as [|[j' k'] l1]; cbn in He.
          -- split; [lia|]. subst l2. exists [], l. split; [reflexivity|]. split; [exact Logic.I|]. intros i k' Hi. exact (H3 i k' (or_intror Hi)).
          -- injection He as <- <- ->. destruct H2 as [H2 _]. lia.
      + split; [intros [H1 _]; lia|]. intros (l1 & l2 & He & H2 & H3). destruct l1 as [|[j' k'] l1]; cbn in He.
        * subst l2. specialize (H3 j k (or_introl eq_refl)). lia.
        * injection He as <- <- ->. destruct H2 as [H2 _]. lia. }
  exact (H 0 (Nat.le_0_l _)).
Qed.
