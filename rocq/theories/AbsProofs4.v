(** Views and queries *)
From Coq Require Import List Arith ZArith NArith Lia Bool.
From Verif Require Import Base Sv BaseLemmas Info TypeBuild TypeQuery Domain SpecLayout Heap Mutation Object SpecObj SpecMut SpecAct SpecAbs OpProofs PerfProofs ObjProofs ActProofs ActProofs3 MutProofs MutProofs2 ObjTheorems AbsProofs AbsProofs2 ExObj.
Import ListNotations.

Section Abs4.
Variable E : env.
Hypothesis AM : aligned_mixins E.
Notation Inv := (Inv E).
Lemma look_queries s o x : Inv s -> typed s -> s_obj s o = Some x ->
  match o_type x with
  | None => look s o = Some {| v_sealed := o_sealed x; v_mixins := None |}
  | Some r => exists t l, w_type (s_w s) r = Some t /\ is_view (look s) o (o_sealed x) l /\ mixins l = t_mixins t /\ NoDup (mixins l) /\
      (forall i m v, nth_error l i = Some (m, v) <-> exists p, get_at s o i = Ok (Some p) /\ instance s p = Some {| i_mixin := m; i_val := v |}) /\
      (forall m v, val_of m l = Some v <-> exists p, get s o (w_mid (s_w s) m) = Ok (Some p) /\ instance s p = Some {| i_mixin := m; i_val := v |})
  end.
Proof.
  intros I Ty Hx. destruct (o_type x) as [r|] eqn:Hr; [|now apply look_untyped].
  assert (Ts : with_type_set s o) by (exists x; split; auto; congruence).
  destruct (view_of E s o I Ty Ts) as (x' & r' & t & l & A1 & A2 & A3 & A4 & A5 & A6). assert (x' = x) as -> by congruence. assert (r' = r) as -> by congruence.
  destruct (queries_agree E AM s o I Ty Ts) as (Q1 & _ & Q3 & _).
  exists t, l. split; auto. split; auto. split; auto. split; [|split].
  - apply NoDup_nth_error. intros i j Hi Hij. unfold mixins in *. rewrite map_length in Hi. rewrite !nth_error_map in Hij. destruct (nth_error l i) as [[m v]|] eqn:Hl; [|apply nth_error_None in Hl; lia].
    destruct (nth_error l j) as [[m' v']|] eqn:Hl'; [|discriminate]. cbn in Hij. injection Hij as <-. apply A6 in Hl. apply A6 in Hl'. destruct Hl as (p & Hp), Hl' as (q & Hq). symmetry. apply (holds_index E AM s o _ _ _ _ _ _ _ I Ty Hp Hq).
  - intros i m v. rewrite (A6 i m v). split; [intros (p & _ & B & C); eauto|]. intros (p & B & C). apply Q1 in B. destruct B as (m' & v' & Hh). pose proof (proj2 (proj2 Hh)) as Hi. assert (m' = m /\ v' = v) as [-> ->] by (split; congruence). eauto.
  - intros m v. rewrite (val_shown E AM s o l m v I Ty A6). split.
    + intros (i & p & Hh). exists p. split; [|apply Hh]. apply Q3. exists i, m, v. auto.
    + intros (p & B & C). apply Q3 in B. destruct B as (i & m' & v' & Hh & _). pose proof (proj2 (proj2 Hh)) as Hi. assert (m' = m /\ v' = v) as [-> ->] by (split; congruence). eauto.
Qed.
End Abs4.

(** For the examples *)
Lemma oexec_snoc E U ops op : forall s, fst (fst (oexec E U s (ops ++ [op]))) = fst (op_run E U op (fst (fst (oexec E U s ops)))).
Proof.
  induction ops as [|a ops IH]; intros s; cbn [oexec app].
  - cbn [fst]. destruct (op_run E U op s) as [s1 x]. reflexivity.
  - destruct (op_run E U a s) as [s1 x]. specialize (IH s1). destruct (oexec E U s1 (ops ++ [op])) as [[s2 tr] ok]. destruct (oexec E U s1 ops) as [[s3 tr3] ok3]. exact IH.
Qed.
Lemma ob_next_st bad ops op : ob_next bad ops op = ob_st bad (ops ++ [op]).
Proof. unfold ob_next, ob_st, ostate. rewrite app_assoc. symmetry. apply oexec_snoc. Qed.
Lemma firstn_snoc {A} (l : list A) : forall n x, nth_error l n = Some x -> firstn (S n) l = firstn n l ++ [x].
Proof. induction l as [|a l IH]; intros [|n] x H; try discriminate; [injection H as ->; reflexivity|]. cbn [firstn app]. f_equal. exact (IH n x H). Qed.
