(** Histories that register all mixins before the first query; used by examples. *)
From Coq Require Import List Arith ZArith NArith Lia Bool.
From Verif Require Import Base Sv Info Registry TypeMut Rules TypeBuild TypeQuery Domain SpecReg SpecDom ExEnv
  BaseLemmas ElemProofs TypesProofs HistProofs RegTheorems DomTheorems.
Import ListNotations.

Definition no_query (o : dop) : bool := match o with DGetType _ _ _ | DGetTypeMut _ _ _ _ => false | _ => true end.
Definition no_registration (o : dop) : bool := match o with DRegMixin _ _ | DUnregMixin _ _ => false | _ => true end.

Lemma no_query_step E w o w' r : WInv E w -> no_query o = true -> (forall d, d_queries (w_dom w d) = []) -> dstep E w o = (w', r) ->
  forall d, d_queries (w_dom w' d) = [].
Proof.
  intros [HE HT] Ho Hq Hs d2. destruct o; try discriminate; simpl in Hs; unfold forget in Hs; injection Hs as <- _.
  - pose proof (register_feature_only E w d f) as (_ & _ & _ & _ & H5). destruct (H5 d2) as (_ & _ & _ & _ & ->). auto.
  - unfold unregister_feature. destruct (basic_unregister _ _ _); simpl; auto. unfold upd. destruct (d2 =? d); simpl; auto.
  - destruct (register_mixin E w d m) as [w1 x] eqn:Hr. simpl. destruct (register_mixin_queries E _ _ _ _ _ HE Hr) as (_ & H & _). now rewrite (proj1 (H d2)).
  - destruct (unregister_mixin w d m) as [w1 x] eqn:Hr. simpl. destruct (unregister_mixin_queries E _ _ _ _ _ HE HT Hr) as (_ & H & _).
    destruct (d_queries (w_dom w1 d2)) as [|[q t] l] eqn:Hd; auto. destruct (H d2 q t) as [Hin _]; [rewrite Hd; now left|]. rewrite Hq in Hin. destruct Hin.
  - unfold register_type_class. destruct (register_tc _ _ _); simpl; auto. unfold upd. destruct (d2 =? d); simpl; auto.
  - unfold unregister_type_class. simpl. unfold upd. destruct (d2 =? d); simpl; auto.
  - unfold add_rule. destruct (r_apply _); [|simpl; auto]. destruct (rules_incr _ _ _) as [l b]. simpl. unfold upd. destruct (d2 =? d); simpl; auto. destruct b; auto.
  - unfold remove_rule. destruct (rules_decr _ _ _) as [[l b]| |]; simpl; auto. unfold upd. destruct (d2 =? d); simpl; auto. destruct b; auto.
  - unfold gc. destruct (existsb _ _); simpl; auto. unfold upd. destruct (d2 =? d); simpl; auto. now rewrite Hq.
  - unfold incr_nobj. destruct (w_type w r0); simpl; auto.
  - unfold decr_nobj. destruct (w_type w r0); simpl; auto. destruct (t_nobj t); simpl; auto.
Qed.

Lemma execs_app E ops1 ops2 : forall w, execs E w (ops1 ++ ops2) =
  (let (w1, t1) := execs E w ops1 in let (w2, t2) := execs E w1 ops2 in (w2, t1 ++ t2)).
Proof.
  induction ops1 as [|o ops1 IH]; intros w; simpl.
  - destruct (execs E w ops2). auto.
  - destruct (dstep E w o) as [w1 x]. rewrite IH. destruct (execs E w1 ops1) as [w2 t2]. destruct (execs E w2 ops2). auto.
Qed.
Lemma no_ub_app a b : no_ub (a ++ b) = true <-> no_ub a = true /\ no_ub b = true.
Proof. unfold no_ub. rewrite forallb_app. apply andb_true_iff. Qed.

Lemma ex_first E ops1 ops2 : forallb no_query ops1 = true -> forallb no_registration ops2 = true -> no_ub (ex_tr E (ops1 ++ ops2)) = true ->
  run_where E registered_first (ex_tr E (ops1 ++ ops2)) (ex_after E (ops1 ++ ops2)).
Proof.
  intros H1 H2. unfold ex_tr, ex_after.
  assert (A : forall ops, forallb no_query ops = true -> no_ub (snd (execs E (init_world E) ops)) = true ->
    run_where E registered_first (snd (execs E (init_world E) ops)) (fst (execs E (init_world E) ops)) /\
    forall d, d_queries (w_dom (fst (execs E (init_world E) ops)) d) = []).
  { intros ops. induction ops as [|o ops IH] using rev_ind; [intros; split; [constructor|reflexivity]|].
    rewrite forallb_app. simpl. rewrite andb_true_r, andb_true_iff, execs_app. intros [Hn Ho].
    destruct (execs E (init_world E) ops) as [w1 t1] eqn:He. simpl. destruct (dstep E w1 o) as [w2 x] eqn:Hs. simpl. rewrite no_ub_app. intros [Hu1 Hu2].
    destruct (IH Hn Hu1) as [Hr Hq]. simpl in *. split.
    - econstructor; eauto; [destruct o; simpl; auto|]. destruct x; simpl in *; try discriminate; auto.
    - eapply no_query_step; eauto. eapply winv_run. eapply run_where_run; eauto. }
  revert H2. induction ops2 as [|o ops2 IH] using rev_ind.
  - rewrite app_nil_r. intros _ Hu. now apply A.
  - rewrite forallb_app. simpl. rewrite andb_true_r, andb_true_iff, app_assoc, execs_app. intros [Hn Ho].
    destruct (execs E (init_world E) (ops1 ++ ops2)) as [w1 t1] eqn:He. simpl. destruct (dstep E w1 o) as [w2 x] eqn:Hs. simpl. rewrite no_ub_app. intros [Hu1 Hu2].
    econstructor; [exact (IH Hn Hu1)| |exact Hs|].
    + destruct o; simpl in *; try discriminate; auto.
    + destruct x; simpl in *; try discriminate; auto.
Qed.
