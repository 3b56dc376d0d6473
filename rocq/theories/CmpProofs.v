(** Comparison functions and the orders of rules and mixins *)
From Coq Require Import List Arith ZArith NArith Lia Bool Permutation Sorted.
From Verif Require Import Base Sv Info TypeMut Rules BaseLemmas SvProofs SpecOrd.
Import ListNotations.

(** a three way comparison that is a total preorder *)
Record tcmp {A} (c : A -> A -> comparison) : Prop := {
  tc_opp : forall a b, c b a = CompOpp (c a b);
  tc_trans : forall a b d, c a b = Lt -> c b d = Lt -> c a d = Lt;
  tc_eq : forall a b d, c a b = Eq -> c a d = c b d
}.
Lemma tc_refl {A} (c : A -> A -> comparison) a : tcmp c -> c a a = Eq.
Proof. intros H. pose proof (tc_opp c H a a). destruct (c a a); auto; discriminate. Qed.
Lemma tc_eq_r {A} (c : A -> A -> comparison) a b d : tcmp c -> c a b = Eq -> c d a = c d b.
Proof. intros H He. rewrite (tc_opp c H a d), (tc_opp c H b d). f_equal. now apply (tc_eq c H). Qed.

Definition lexi {A} (c1 c2 : A -> A -> comparison) (a b : A) : comparison :=
  match c1 a b with Eq => c2 a b | x => x end.
Lemma tcmp_lexi {A} (c1 c2 : A -> A -> comparison) : tcmp c1 -> tcmp c2 -> tcmp (lexi c1 c2).
Proof.
  intros H1 H2. split; unfold lexi.
  - intros a b. rewrite (tc_opp _ H1 a b). destruct (c1 a b); simpl; auto. apply (tc_opp _ H2).
  - intros a b d. destruct (c1 a b) eqn:E1; try discriminate.
    + rewrite (tc_eq _ H1 _ _ d E1). destruct (c1 b d) eqn:E2; try discriminate; auto. apply (tc_trans _ H2).
    + intros _. destruct (c1 b d) eqn:E2; try discriminate.
      * intros _. rewrite <- (tc_eq_r c1 b d a H1 E2), E1. auto.
      * intros _. now rewrite (tc_trans _ H1 _ _ _ E1 E2).
  - intros a b d. destruct (c1 a b) eqn:E1; try discriminate. intros E2. rewrite (tc_eq _ H1 _ _ d E1). destruct (c1 b d); auto.
    now apply (tc_eq _ H2).
Qed.
Lemma tcmp_on {A B} (f : A -> B) (c : B -> B -> comparison) : tcmp c -> tcmp (fun a b => c (f a) (f b)).
Proof. intros H. split; intros; [apply (tc_opp _ H)|eapply (tc_trans _ H); eauto|now apply (tc_eq _ H)]. Qed.

Lemma tcmp_Z : tcmp Z.compare.
Proof.
  split.
  - intros. apply Z.compare_antisym.
  - intros a b d. rewrite !Z.compare_lt_iff. lia.
  - intros a b d H. apply Z.compare_eq in H. now subst.
Qed.
Lemma tcmp_nat : tcmp Nat.compare.
Proof.
  split.
  - intros. apply Nat.compare_antisym.
  - intros a b d. rewrite !Nat.compare_lt_iff. lia.
  - intros a b d H. apply Nat.compare_eq in H. now subst.
Qed.
Lemma tcmp_lex : tcmp lexcmp.
Proof.
  split.
  - apply lexcmp_antisym.
  - apply lexcmp_trans.
  - intros a b d H. apply lexcmp_eq in H. now subst.
Qed.
Definition id_cmp (a b : option nat) : comparison :=
  match a, b with
  | Some x, Some y => Nat.compare x y
  | Some _, None => Lt
  | None, Some _ => Gt
  | None, None => Eq
  end.
Lemma tcmp_id : tcmp id_cmp.
Proof.
  split.
  - intros [a|] [b|]; simpl; auto. apply Nat.compare_antisym.
  - intros [a|] [b|] [d|]; simpl; try discriminate; auto. rewrite !Nat.compare_lt_iff. lia.
  - intros [a|] [b|] [d|]; simpl; try discriminate; auto; intros H; apply Nat.compare_eq in H; now subst.
Qed.

Lemma lex_lt_cmp a b : lex_lt a b <-> lexcmp a b = Lt.
Proof.
  split.
  - induction 1; simpl; auto.
    + apply N.compare_lt_iff in H. now rewrite H.
    + now rewrite N.compare_refl.
  - revert b. induction a as [|x a IH]; intros [|y b]; simpl; try discriminate; [constructor|].
    destruct (N.compare_spec x y) as [->|H|H]; try discriminate.
    + intros. apply lex_tail. auto.
    + intros _. now apply lex_head.
Qed.

Lemma sv_cmp_regular {A} (name : A -> sv) a b : names_regular name -> sv_cmp (name a) (name b) = cmpZ (lexcmp (sv_bytes (name a)) (sv_bytes (name b))).
Proof. intros [H1 H2]. apply sv_cmp_lex; [apply H1|apply H1|intro; auto]. Qed.

Section Orders.
Variable E : env.

Definition rcmp : rptr -> rptr -> comparison :=
  lexi (fun a b => Z.compare (r_prio (e_rule E a)) (r_prio (e_rule E b)))
    (lexi (fun a b => lexcmp (sv_bytes (r_name (e_rule E a))) (sv_bytes (r_name (e_rule E b)))) Nat.compare).
Lemma tcmp_rcmp : tcmp rcmp.
Proof.
  apply tcmp_lexi; [|apply tcmp_lexi].
  - apply (tcmp_on (fun a => r_prio (e_rule E a))), tcmp_Z.
  - apply (tcmp_on (fun a => sv_bytes (r_name (e_rule E a)))), tcmp_lex.
  - apply tcmp_nat.
Qed.
Lemma rcmp_eq a b : rcmp a b = Eq -> a = b.
Proof.
  unfold rcmp, lexi. destruct (Z.compare _ _); try discriminate. destruct (lexcmp _ _); try discriminate. apply Nat.compare_eq.
Qed.
Lemma rule_less_cmp a b : regular_rules E -> rule_less E a b = match rcmp a b with Lt => true | _ => false end.
Proof.
  intros Hr. unfold rule_less, rcmp, lexi. rewrite (sv_cmp_regular (fun r => r_name (e_rule E r)) a b Hr).
  destruct (Z.compare_spec (r_prio (e_rule E a)) (r_prio (e_rule E b))) as [->|H|H].
  - rewrite Z.eqb_refl. simpl. destruct (lexcmp _ _); simpl; auto.
    destruct (Nat.compare_spec a b), (Nat.ltb_spec a b); auto; lia.
  - destruct (Z.eqb_spec (r_prio (e_rule E a)) (r_prio (e_rule E b))); [lia|]. simpl. apply Z.ltb_lt. auto.
  - destruct (Z.eqb_spec (r_prio (e_rule E a)) (r_prio (e_rule E b))); [lia|]. simpl. apply Z.ltb_ge. lia.
Qed.

Definition mcmp (idf : mptr -> option nat) : mptr -> mptr -> comparison :=
  lexi (fun a b => Z.compare (m_order (e_mixin E a)) (m_order (e_mixin E b)))
    (lexi (fun a b => lexcmp (sv_bytes (m_name (e_mixin E a))) (sv_bytes (m_name (e_mixin E b))))
       (lexi (fun a b => id_cmp (idf a) (idf b)) Nat.compare)).
Lemma tcmp_mcmp idf : tcmp (mcmp idf).
Proof.
  apply tcmp_lexi; [|apply tcmp_lexi; [|apply tcmp_lexi]].
  - apply (tcmp_on (fun a => m_order (e_mixin E a))), tcmp_Z.
  - apply (tcmp_on (fun a => sv_bytes (m_name (e_mixin E a)))), tcmp_lex.
  - apply (tcmp_on idf), tcmp_id.
  - apply tcmp_nat.
Qed.
Lemma mcmp_eq idf a b : mcmp idf a b = Eq -> a = b.
Proof.
  unfold mcmp, lexi. destruct (Z.compare _ _); try discriminate. destruct (lexcmp _ _); try discriminate.
  destruct (id_cmp _ _); try discriminate. apply Nat.compare_eq.
Qed.
Lemma canonical_less_cmp idf a b : regular_mixins E -> canonical_less E idf a b = match mcmp idf a b with Lt => true | _ => false end.
Proof.
  intros Hr. unfold canonical_less, mcmp, lexi. rewrite (sv_cmp_regular (fun r => m_name (e_mixin E r)) a b Hr).
  destruct (Z.compare_spec (m_order (e_mixin E a)) (m_order (e_mixin E b))) as [->|H|H].
  - rewrite Z.eqb_refl. simpl. destruct (lexcmp _ _); simpl; auto.
    destruct (opt_eqb_spec (idf a) (idf b)) as [->|Hn]; simpl.
    + rewrite (tc_refl id_cmp _ tcmp_id). destruct (Nat.compare_spec a b), (Nat.ltb_spec a b); auto; lia.
    + destruct (idf a) as [x|], (idf b) as [y|]; simpl; auto; try congruence.
      destruct (Nat.compare_spec x y), (Nat.ltb_spec x y); auto; try lia. congruence.
  - destruct (Z.eqb_spec (m_order (e_mixin E a)) (m_order (e_mixin E b))); [lia|]. simpl. apply Z.ltb_lt. auto.
  - destruct (Z.eqb_spec (m_order (e_mixin E a)) (m_order (e_mixin E b))); [lia|]. simpl. apply Z.ltb_ge. lia.
Qed.
End Orders.

(** boolean orders from comparisons *)
Definition ltb_of {A} (c : A -> A -> comparison) (a b : A) : bool := match c a b with Lt => true | _ => false end.
Lemma ltb_of_asym {A} (c : A -> A -> comparison) a b : tcmp c -> ltb_of c a b = true -> ltb_of c b a = false.
Proof. intros H. unfold ltb_of. rewrite (tc_opp c H a b). destruct (c a b); simpl; auto; discriminate. Qed.
Lemma ltb_of_ntrans {A} (c : A -> A -> comparison) x y z : tcmp c -> ltb_of c y x = false -> ltb_of c z y = false -> ltb_of c z x = false.
Proof.
  intros H. unfold ltb_of. rewrite (tc_opp c H x y), (tc_opp c H y z), (tc_opp c H x z).
  destruct (c x y) eqn:E1; simpl; try discriminate; destruct (c y z) eqn:E2; simpl; try discriminate; intros _ _.
  - rewrite (tc_eq c H _ _ z E1), E2. auto.
  - rewrite (tc_eq c H _ _ z E1), E2. auto.
  - rewrite <- (tc_eq_r c y z x H E2), E1. auto.
  - rewrite (tc_trans c H _ _ _ E1 E2). auto.
Qed.
Lemma ltb_of_total {A} (c : A -> A -> comparison) x y : tcmp c -> (forall a b, c a b = Eq -> a = b) -> ltb_of c x y = false -> ltb_of c y x = false -> x = y.
Proof. intros H He. unfold ltb_of. rewrite (tc_opp c H x y). destruct (c x y) eqn:E1; simpl; try discriminate. auto. Qed.

Lemma sort_by_ext {A} (f g : A -> A -> bool) : (forall a b, f a b = g a b) -> forall l, sort_by f l = sort_by g l.
Proof.
  intros H. induction l as [|x l IH]; simpl; auto. rewrite IH. generalize (sort_by g l) as k.
  induction k as [|y k IHk]; simpl; auto. rewrite H. destruct (g y x); auto. now rewrite IHk.
Qed.
Lemma sort_cmp_sorted {A} (c : A -> A -> comparison) l : tcmp c -> StronglySorted (le_by (ltb_of c)) (sort_by (ltb_of c) l).
Proof.
  intros H. apply (sort_by_sorted (ltb_of c) (fun _ => True)).
  - intros; now apply ltb_of_asym.
  - intros; eapply ltb_of_ntrans; eauto.
  - apply Forall_forall; auto.
Qed.
Lemma sort_cmp_perm {A} (c : A -> A -> comparison) l l' : tcmp c -> (forall a b, c a b = Eq -> a = b) -> Permutation l l' -> sort_by (ltb_of c) l = sort_by (ltb_of c) l'.
Proof.
  intros H He Hp. apply (sorted_perm_unique (ltb_of c)).
  - intros x y _ _. now apply ltb_of_total.
  - now apply sort_cmp_sorted.
  - now apply sort_cmp_sorted.
  - now rewrite !sort_by_perm.
Qed.
