(** Comparing bytes, and calls on a mixin as its own source *)
From Coq Require Import List Arith ZArith NArith Lia Bool.
From Verif Require Import Base Info Heap SpecLog SpecPlace Common SpecCommon CommonProofs.
Import ListNotations.

Lemma bytes_cons M p n : bytes M p (N.succ n) = M (fst p) (snd p) :: bytes M (fst p, snd p + 1)%N n.
Proof.
  unfold bytes. rewrite N2Nat.inj_succ. cbn [seq map fst snd]. f_equal; [f_equal; lia|]. rewrite <- seq_shift, map_map. apply map_ext. intros k. f_equal. lia.
Qed.
Lemma memcmp_lex M n : forall p q, lex (bytes M p (N.of_nat n)) (bytes M q (N.of_nat n)) (memcmp_loop M p q n).
Proof.
  induction n as [|n IH]; intros p q; [constructor|]. rewrite Nat2N.inj_succ, !bytes_cons. cbn [memcmp_loop].
  set (x := M (fst p) (snd p)). set (y := M (fst q) (snd q)). destruct (Z.of_N x - Z.of_N y =? 0)%Z eqn:C.
  - apply Z.eqb_eq in C. assert (x = y) as -> by lia. apply lex_same. apply IH.
  - apply Z.eqb_neq in C. destruct (N.lt_total x y) as [L|[L|L]]; [apply lex_less; lia|lia|apply lex_more; lia].
Qed.
Lemma lex_eq l l' c : lex l l' c -> (c = 0%Z <-> l = l').
Proof. induction 1; split; intros X; try lia; auto; [f_equal; tauto|injection X as X; tauto|injection X; lia|injection X; lia]. Qed.
Lemma lex_swap l l' c : lex l l' c -> forall c', lex l' l c' -> (Z.sgn c' = - Z.sgn c)%Z.
Proof. induction 1; intros c' H'; inversion H'; subst; try lia; auto. Qed.
Lemma lex_trans a b c : lex a b c -> (c <= 0)%Z -> forall d x y, lex b d x -> (x <= 0)%Z -> lex a d y -> (y <= 0)%Z.
Proof.
  induction 1; intros Hc d z w Hx Hz Hy; inversion Hx; subst; inversion Hy; subst; try lia.
  eapply IHlex; eauto.
Qed.
Lemma cmp_spec E M m p q : lex (bytes M p (size_of E m)) (bytes M q (size_of E m)) (common_cmp E M m p q).
Proof. unfold common_cmp, memcmp. rewrite <- (N2Nat.id (size_of E m)) at 1 2. apply memcmp_lex. Qed.
Lemma eq_spec E M m p q : common_eq E M m p q = true <-> bytes M p (size_of E m) = bytes M q (size_of E m).
Proof. unfold common_eq. rewrite Z.eqb_eq. change (memcmp M p q (size_of E m)) with (common_cmp E M m p q). apply lex_eq. apply cmp_spec. Qed.

Lemma self_undefined E codes acts : forall M f m p err, In (EvCall f m p (Some p) err) (events acts) -> reads_source (runs codes m f) = true -> m_size (e_mixin E m) <> 0%N ->
  do_acts E codes M acts = None.
Proof.
  induction acts as [|a acts IH]; intros M f m p err I R N; [destruct I|]. cbn [do_acts].
  assert (D : (exists own, a = BEv (EvCall f m p (Some p) err) own) \/ In (EvCall f m p (Some p) err) (events acts)).
  { destruct a as [e own|m' p' v|b x v]; cbn in I; auto. destruct I as [->|I]; eauto. }
  destruct D as [[own ->]|D]; [|destruct (do_act E codes M a); eauto].
  assert (O : overlap p p (size_of E m) = true).
  { unfold overlap, size_of. rewrite Nat.eqb_refl. cbn [andb]. assert (L : (snd p <? snd p + m_size (e_mixin E m))%N = true) by (apply N.ltb_lt; lia). now rewrite L. }
  cbn [do_act]. rewrite runs_code. destruct (runs codes m f); try discriminate R; cbn [call_code]; unfold common_move, common_move_copy, common_copy, memcpy; now rewrite O.
Qed.
