From Coq Require Import List Arith ZArith NArith Lia Bool Permutation Sorted.
From Verif Require Import Base.
Import ListNotations.

Lemma upd_same {A} (f : nat -> A) k v : upd f k v k = v.
Proof. unfold upd. now rewrite Nat.eqb_refl. Qed.
Lemma upd_other {A} (f : nat -> A) k v x : x <> k -> upd f k v x = f x.
Proof. unfold upd. intros H. destruct (Nat.eqb_spec x k); congruence. Qed.

Lemma length_set_nth {A} i (x : A) l : length (set_nth i x l) = length l.
Proof. revert i; induction l; destruct i; simpl; auto. Qed.

Lemma nth_error_set_nth_same {A} i (x : A) l : i < length l -> nth_error (set_nth i x l) i = Some x.
Proof. revert i; induction l; destruct i; simpl; intros; try lia; auto. apply IHl. lia. Qed.

Lemma nth_error_set_nth_other {A} i j (x : A) l : i <> j -> nth_error (set_nth i x l) j = nth_error l j.
Proof. revert i j; induction l; destruct i, j; simpl; intros; try lia; auto. Qed.

Lemma nth_error_set_nth {A} i j (x : A) l :
  nth_error (set_nth i x l) j = if (i =? j) && (j <? length l) then Some x else nth_error l j.
Proof.
  destruct (Nat.eqb_spec i j) as [->|H]; simpl.
  - destruct (Nat.ltb_spec j (length l)).
    + now apply nth_error_set_nth_same.
    + rewrite (proj2 (nth_error_None _ _)); [|rewrite length_set_nth; lia].
      symmetry. now apply nth_error_None.
  - now apply nth_error_set_nth_other.
Qed.

Lemma set_nth_set_nth {A} i (x y : A) l : set_nth i x (set_nth i y l) = set_nth i x l.
Proof. revert i; induction l; destruct i; simpl; auto. now rewrite IHl. Qed.

Lemma set_nth_id {A} i (x : A) l : nth_error l i = Some x -> set_nth i x l = l.
Proof. revert i; induction l; destruct i; simpl; intros H; auto; try congruence. now rewrite IHl. Qed.

Lemma list_eqb_spec a b : reflect (a = b) (list_eqb a b).
Proof.
  revert b; induction a as [|x a IH]; destruct b as [|y b]; simpl; try (constructor; congruence).
  destruct (Nat.eqb_spec x y) as [->|]; simpl; [|constructor; congruence].
  destruct (IH b) as [->|]; constructor; congruence.
Qed.
Lemma list_eqb_refl a : list_eqb a a = true.
Proof. destruct (list_eqb_spec a a); congruence. Qed.

Lemma memb_spec x l : reflect (In x l) (memb x l).
Proof.
  unfold memb. destruct (existsb (Nat.eqb x) l) eqn:H.
  - constructor. apply existsb_exists in H. destruct H as [y [Hy He]]. apply Nat.eqb_eq in He. now subst.
  - constructor. intros Hin. assert (existsb (Nat.eqb x) l = true); [|congruence].
    apply existsb_exists. exists x. split; auto. apply Nat.eqb_refl.
Qed.
Lemma memb_true x l : memb x l = true <-> In x l.
Proof. destruct (memb_spec x l); intuition congruence. Qed.
Lemma memb_false x l : memb x l = false <-> ~ In x l.
Proof. destruct (memb_spec x l); intuition congruence. Qed.

Lemma opt_eqb_spec a b : reflect (a = b) (opt_eqb a b).
Proof.
  destruct a, b; simpl; try (constructor; congruence).
  destruct (Nat.eqb_spec n n0); constructor; congruence.
Qed.

(** Sorting *)
Lemma insert_by_perm {A} (lt : A -> A -> bool) x l : Permutation (insert_by lt x l) (x :: l).
Proof.
  induction l as [|y r IH]; simpl; auto.
  destruct (lt y x); auto. rewrite IH. constructor.
Qed.
Lemma sort_by_perm {A} (lt : A -> A -> bool) l : Permutation (sort_by lt l) l.
Proof. induction l; simpl; auto. rewrite insert_by_perm. now constructor. Qed.

Section SortProps.
  Context {A : Type} (lt : A -> A -> bool).
  (** what is needed to conclude sortedness, on a set of elements *)
  Variable P : A -> Prop.
  Hypothesis asym : forall x y, P x -> P y -> lt x y = true -> lt y x = false.
  (** negative transitivity: "not (y < x)" is transitive *)
  Hypothesis ntrans : forall x y z, P x -> P y -> P z -> lt y x = false -> lt z y = false -> lt z x = false.

  Definition le_by (a b : A) : Prop := lt b a = false.

  Lemma insert_by_sorted x l :
    P x -> Forall P l -> StronglySorted le_by l -> StronglySorted le_by (insert_by lt x l).
  Proof.
    intros Hx. induction l as [|y r IH]; simpl; intros Hl Hs.
    - repeat constructor.
    - inversion Hl; inversion Hs; subst. destruct (lt y x) eqn:E.
      + constructor; auto.
        assert (Hp := insert_by_perm lt x r).
        apply (Permutation_Forall (Permutation_sym Hp)). constructor; auto.
        unfold le_by. apply asym; auto.
      + constructor; auto. constructor; auto.
        rewrite Forall_forall in *. intros z Hz. unfold le_by in *.
        apply ntrans with (y := y); auto.
  Qed.
  Lemma sort_by_sorted l : Forall P l -> StronglySorted le_by (sort_by lt l).
  Proof.
    induction l; simpl; intros H; [constructor|].
    inversion H; subst. apply insert_by_sorted; auto.
    apply (Permutation_Forall (Permutation_sym (sort_by_perm lt l))). auto.
  Qed.
End SortProps.

(** A sorted permutation is unique when incomparable elements are equal *)
Lemma sorted_perm_unique {A} (lt : A -> A -> bool) (l1 l2 : list A) :
  (forall x y, In x l1 -> In y l1 -> lt x y = false -> lt y x = false -> x = y) ->
  StronglySorted (le_by lt) l1 -> StronglySorted (le_by lt) l2 -> Permutation l1 l2 -> l1 = l2.
Proof.
  revert l2; induction l1 as [|x l1 IH]; intros l2 Hant H1 H2 Hp.
  - apply Permutation_nil in Hp. now subst.
  - destruct l2 as [|y l2]; [apply Permutation_sym, Permutation_nil in Hp; discriminate|].
    inversion H1 as [|? ? Hs1 Hf1]; inversion H2 as [|? ? Hs2 Hf2]; subst.
    assert (x = y).
    { assert (Hy : In y (x :: l1)) by (eapply Permutation_in; [apply Permutation_sym; eauto|now left]).
      assert (Hx : In x (y :: l2)) by (eapply Permutation_in; [eauto|now left]).
      destruct Hy as [|Hy]; auto. destruct Hx as [|Hx]; auto.
      rewrite Forall_forall in Hf1, Hf2. specialize (Hf1 _ Hy). specialize (Hf2 _ Hx).
      apply Hant; simpl; auto. }
    subst. f_equal. apply IH; auto.
    + intros. apply Hant; simpl; auto.
    + now apply Permutation_cons_inv in Hp.
Qed.

Lemma bind_ok {A B} (x : res A) (f : A -> res B) b :
  bind x f = Ok b -> exists a, x = Ok a /\ f a = Ok b.
Proof. destruct x; simpl; try discriminate. eauto. Qed.

Lemma nth_error_app_l {A} (l1 l2 : list A) i x : nth_error l1 i = Some x -> nth_error (l1 ++ l2) i = Some x.
Proof. intros H. rewrite nth_error_app1; auto. apply nth_error_Some. congruence. Qed.

Lemma nth_error_lt {A} (l : list A) i x : nth_error l i = Some x -> i < length l.
Proof. intros H. apply nth_error_Some. congruence. Qed.
