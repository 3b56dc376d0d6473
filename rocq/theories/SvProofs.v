From Coq Require Import List Arith ZArith NArith Lia Bool.
From Verif Require Import Base Sv BaseLemmas.
Import ListNotations.

Lemma bytes_eqb_spec a b : reflect (a = b) (bytes_eqb a b).
Proof.
  revert b; induction a as [|x a IH]; destruct b as [|y b]; simpl; try (constructor; congruence).
  destruct (N.eqb_spec x y) as [->|]; simpl; [|constructor; congruence].
  destruct (IH b) as [->|]; constructor; congruence.
Qed.
Lemma bytes_eqb_refl a : bytes_eqb a a = true.
Proof. destruct (bytes_eqb_spec a a); congruence. Qed.

Lemma sv_eqb_spec a b : reflect (sv_bytes a = sv_bytes b) (sv_eqb a b).
Proof. apply bytes_eqb_spec. Qed.

(** three way lexicographic comparison *)
Fixpoint lexcmp (a b : list N) : comparison :=
  match a, b with
  | [], [] => Eq
  | [], _ :: _ => Lt
  | _ :: _, [] => Gt
  | x :: a', y :: b' => match N.compare x y with Eq => lexcmp a' b' | c => c end
  end.
Definition cmpZ (c : comparison) : Z := match c with Lt => (-1) | Eq => 0 | Gt => 1 end.

Lemma lexcmp_eq a b : lexcmp a b = Eq <-> a = b.
Proof.
  revert b; induction a as [|x a IH]; destruct b as [|y b]; simpl; try (split; congruence).
  destruct (N.compare_spec x y) as [->|H|H].
  - rewrite IH. split; congruence.
  - split; [discriminate|]. intros [= -> ?]. now apply N.lt_irrefl in H.
  - split; [discriminate|]. intros [= -> ?]. now apply N.lt_irrefl in H.
Qed.
Lemma lexcmp_refl a : lexcmp a a = Eq.
Proof. now apply lexcmp_eq. Qed.
Lemma lexcmp_antisym a b : lexcmp b a = CompOpp (lexcmp a b).
Proof.
  revert b; induction a as [|x a IH]; destruct b as [|y b]; simpl; auto.
  rewrite N.compare_antisym. destruct (N.compare x y); simpl; auto.
Qed.
Lemma lexcmp_trans a b c : lexcmp a b = Lt -> lexcmp b c = Lt -> lexcmp a c = Lt.
Proof.
  revert b c; induction a as [|x a IH]; destruct b as [|y b]; destruct c as [|z c]; simpl; try congruence.
  intros H1 H2.
  destruct (N.compare_spec x y) as [->|H|H]; try discriminate.
  - destruct (N.compare_spec y z) as [->|H'|H']; try discriminate; eauto.
  - destruct (N.compare_spec y z) as [->|H'|H']; try discriminate.
    + apply N.compare_lt_iff in H. now rewrite H.
    + assert (H3 : (x < z)%N) by lia. apply N.compare_lt_iff in H3. now rewrite H3.
Qed.

Lemma memcmp_lex n a b :
  n = Nat.min (length a) (length b) ->
  lexcmp a b = (if Z.eqb (memcmp n a b) 0 then Nat.compare (length a) (length b)
                else if Z.ltb (memcmp n a b) 0 then Lt else Gt).
Proof.
  revert a b; induction n as [|n IH]; intros a b Hn.
  - destruct a, b; simpl in *; auto; lia.
  - destruct a as [|x a], b as [|y b]; simpl in *; try lia.
    destruct (N.eqb_spec x y) as [->|Hne].
    + rewrite N.compare_refl. apply IH. lia.
    + destruct (N.ltb_spec x y) as [Hlt|Hge].
      * apply N.compare_lt_iff in Hlt. now rewrite Hlt.
      * assert (Hgt : (y < x)%N) by lia. rewrite (proj2 (N.compare_gt_iff x y) Hgt). reflexivity.
Qed.
Lemma memcmp_range n a b : memcmp n a b = (-1)%Z \/ memcmp n a b = 0%Z \/ memcmp n a b = 1%Z.
Proof.
  revert a b; induction n; intros [|x a] [|y b]; simpl; auto.
  destruct (N.eqb x y); auto. destruct (N.ltb x y); auto.
Qed.

Definition sv_wf (a : sv) : Prop := sv_begin a = 0%N -> sv_bytes a = [].
Definition sv_same_start (a b : sv) : Prop := sv_begin a = sv_begin b -> sv_bytes a = sv_bytes b.

Lemma sv_cmp_lex a b : sv_wf a -> sv_wf b -> sv_same_start a b ->
  sv_cmp a b = cmpZ (lexcmp (sv_bytes a) (sv_bytes b)).
Proof.
  unfold sv_wf, sv_same_start, sv_cmp, sv_len. intros Ha Hb Hs.
  destruct (N.eqb_spec (sv_begin a) (sv_begin b)) as [He|_].
  { rewrite (Hs He). now rewrite lexcmp_refl. }
  destruct (N.eqb_spec (sv_begin b) 0) as [He|_].
  { rewrite (Hb He). destruct (sv_bytes a); reflexivity. }
  destruct (N.eqb_spec (sv_begin a) 0) as [He|_].
  { rewrite (Ha He). destruct (sv_bytes b); reflexivity. }
  clear. set (x := sv_bytes a). set (y := sv_bytes b).
  destruct (Nat.eqb_spec (length x) (length y)) as [H|H].
  - rewrite (memcmp_lex (length x)) by lia. rewrite H, Nat.compare_refl.
    destruct (memcmp_range (length y) x y) as [-> | [-> | ->]]; reflexivity.
  - destruct (Nat.ltb_spec (length x) (length y)) as [Hl|Hl].
    + rewrite (memcmp_lex (length x)) by lia. rewrite (proj2 (Nat.compare_lt_iff _ _) Hl).
      destruct (memcmp_range (length x) x y) as [-> | [-> | ->]]; reflexivity.
    + rewrite (memcmp_lex (length y)) by lia.
      assert (Hg : length y < length x) by lia. rewrite (proj2 (Nat.compare_gt_iff _ _) Hg).
      destruct (memcmp_range (length y) x y) as [-> | [-> | ->]]; reflexivity.
Qed.
