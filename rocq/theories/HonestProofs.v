(** Errors are reported when a function of the program reports one, and only then, whatever the program does *)
From Coq Require Import List Arith ZArith NArith Lia Bool.
From Verif Require Import Base Sv BaseLemmas Info TypeMut Rules TypeBuild TypeQuery Domain RuleTheorems2 Heap Mutation Object SpecObj SpecMut.
Import ListNotations.
Open Scope res_scope.

(** ** Programs that do not throw *)
Definition nt {S A} (x : M S A) : Prop := forall s s' e, x s <> (s', Throw e).
Lemma nt_ret S A (a : A) : nt (ret a : M S A).
Proof. intros s s' e H. discriminate. Qed.
Lemma nt_ub S A u : nt (ub u : M S A).
Proof. intros s s' e H. discriminate. Qed.
Lemma nt_bnd S A B (x : M S A) (f : A -> M S B) : nt x -> (forall a, nt (f a)) -> nt (bnd x f).
Proof. intros H1 H2 s s' e H. unfold bnd in H. destruct (x s) as [s1 [a|e1|u]] eqn:Hx; [exact (H2 _ _ _ _ H)| |discriminate]. injection H as -> ->. exact (H1 _ _ _ Hx). Qed.
Lemma nt_lift A (x : M st A) : nt x -> nt (lift x).
Proof. intros H [mu s] s' e Hx. unfold lift in Hx. cbn in Hx. destruct (x s) as [s1 r] eqn:H1. injection Hx as _ ->. exact (H _ _ _ H1). Qed.
Lemma nt_get_blk b : nt (get_blk b).
Proof. intros s s' e. unfold get_blk. destruct (s_blk s b); discriminate. Qed.
Lemma nt_get_obj b : nt (get_obj b).
Proof. intros s s' e. unfold get_obj. destruct (s_obj s b); discriminate. Qed.
Lemma nt_get_ty b : nt (get_ty b).
Proof. intros s s' e. unfold get_ty. destruct (w_type (s_w s) b); discriminate. Qed.
Lemma nt_put_obj o x : nt (put_obj o x).
Proof. intros s s' e. discriminate. Qed.
Lemma nt_put_blk o x : nt (put_blk o x).
Proof. intros s s' e. discriminate. Qed.
Lemma nt_emit x : nt (emit x).
Proof. intros s s' e. discriminate. Qed.
Lemma nt_get_mu : nt get_mu.
Proof. intros s s' e. discriminate. Qed.
Lemma nt_set_mu f : nt (set_mu f).
Proof. intros s s' e. discriminate. Qed.
Lemma nt_get_mid : nt get_mid.
Proof. intros s s' e. discriminate. Qed.
Lemma nt_decr r : nt (on_world (fun w => decr_nobj w r)).
Proof. intros s s' e H. injection H as _ H. unfold decr_nobj in H. destruct (w_type (s_w s) r) as [t|]; [|discriminate]. destruct (t_nobj t); discriminate. Qed.
Create HintDb nothrow.
Global Hint Resolve nt_ret nt_ub nt_get_blk nt_get_obj nt_get_ty nt_put_obj nt_put_blk nt_emit nt_get_mu nt_set_mu nt_get_mid nt_decr : nothrow.
Ltac ntt := repeat first [ progress eauto with nothrow | simple apply nt_bnd; [|intros ?] | simple apply nt_lift
  | match goal with |- nt (match ?x with _ => _ end) => destruct x end ].

Section NT.
Variable E : env.
Lemma nt_free a b n k : nt (free E a b n k).
Proof. unfold free. ntt. intros s s' e H. discriminate. Qed.
Lemma nt_read b i : nt (read_data b i).
Proof. unfold read_data. ntt. Qed.
Lemma nt_live m p : nt (live m p).
Proof. unfold live. ntt. Qed.
Lemma nt_del p : nt (del_inst p).
Proof. unfold del_inst. ntt. Qed.
Hint Resolve nt_free nt_read nt_live nt_del : nothrow.
Lemma nt_destroy m p : nt (destroy E m p).
Proof. unfold destroy. ntt. Qed.
Lemma nt_dob r t a b : nt (deallocate_object_buffer E r t a b).
Proof. unfold deallocate_object_buffer. ntt. Qed.
Lemma nt_free_external o m b : nt (free_external E o m b).
Proof. unfold free_external. ntt. Qed.
Lemma nt_target_mixin mu i : nt (target_mixin mu i).
Proof. unfold target_mixin. ntt. Qed.
Lemma nt_target_data mu : nt (target_data mu).
Proof. unfold target_data. ntt. Qed.
Hint Resolve nt_destroy nt_dob nt_free_external nt_target_mixin nt_target_data : nothrow.
Lemma nt_dealloc_one i : nt (dealloc_one E i).
Proof. unfold dealloc_one. ntt. Qed.
Lemma nt_destroy_one i : nt (destroy_one E i).
Proof. unfold destroy_one. ntt. Qed.
Hint Resolve nt_dealloc_one nt_destroy_one : nothrow.
Lemma nt_down f n : (forall i, nt (f i)) -> nt (down_loop f n).
Proof. intros H. induction n; cbn [down_loop]; ntt. Qed.
Hint Resolve nt_down : nothrow.
Lemma nt_rollback : nt (rollback E).
Proof. unfold rollback, destroy_new_mixins, deallocate_mixin_data. ntt. Qed.
Lemma nt_the_type x : nt (the_type x).
Proof. unfold the_type. ntt. Qed.
Lemma nt_run_mut mu a : nt a -> nt (run_mut mu a).
Proof. intros Ha s s' e H. unfold run_mut in H. destruct (a (mu, s)) as [[mu' s2] r] eqn:H1. injection H as _ ->. exact (Ha _ _ _ H1). Qed.
Lemma nt_mod o f : nt (mod_obj o f).
Proof. unfold mod_obj. ntt. Qed.
Hint Resolve nt_rollback nt_the_type nt_run_mut nt_mod : nothrow.
Lemma nt_dtor o : nt (obj_dtor E o).
Proof. unfold obj_dtor, clear_mixin_data. ntt. Qed.
End NT.

Section Honest.
Variable E : env.
Variable U : user.
Variable nm : Prop.

(** What happened between two states, with the result *)
Definition hstep {A} (s s' : st) (r : res A) : Prop :=
  exists l, did s s' l /\ s_calls s <= s_calls s' /\ match r with Ok _ => all_worked l | Throw e => blames U nm s s' l e | Ub _ => True end.
Definition hon {A} (x : M st A) : Prop := forall s s' r, x s = (s', r) -> hstep s s' r.
Definition mhon {A} (x : M mst A) : Prop := forall p p' r, x p = (p', r) -> hstep (snd p) (snd p') r.
(** a result that blames nobody *)
Definition clean (e : exn) : Prop := match e with EUserFunc _ | EBadAlloc => False | _ => True end.
Definition cleanr {A} (r : res A) : Prop := match r with Throw e => clean e | _ => True end.

Lemma worked_nil : all_worked [].
Proof. intros f m p src err []. Qed.
Lemma worked_app l1 l2 : all_worked l1 -> all_worked l2 -> all_worked (l1 ++ l2).
Proof. intros H1 H2 f m p src err H. apply in_app_or in H. destruct H; [eapply H1|eapply H2]; eauto. Qed.
Lemma did_trans s s1 s2 l1 l2 : did s s1 l1 -> did s1 s2 l2 -> did s s2 (l1 ++ l2).
Proof. unfold did. intros -> ->. apply eq_sym, app_assoc. Qed.
Lemma did_nil s : did s s [].
Proof. unfold did. now rewrite app_nil_r. Qed.
Lemma clean_blames s s' l e : clean e -> all_worked l -> blames U nm s s' l e.
Proof. destruct e; cbn; intros H1 H2; auto; contradiction. Qed.

Lemma h_same A s s' (r : res A) : s_log s' = s_log s -> s_calls s <= s_calls s' -> cleanr r -> hstep s s' r.
Proof.
  intros H1 H2 H3. exists []. split; [unfold did; now rewrite app_nil_r|]. split; auto. destruct r; auto; [apply worked_nil|]. apply clean_blames; auto. apply worked_nil.
Qed.
Lemma h_trans A B s s1 s2 (a : A) (r : res B) : hstep s s1 (Ok a) -> hstep s1 s2 r -> hstep s s2 r.
Proof.
  intros (l1 & D1 & C1 & W1) (l2 & D2 & C2 & W2). exists (l1 ++ l2). split; [eapply did_trans; eauto|]. split; [lia|]. destruct r as [b|e|u]; auto; [now apply worked_app|].
  destruct e; cbn in *; try now apply worked_app.
  - destruct W2 as (He & k1 & f & m & p & src & k2 & -> & A1 & A2). split; auto. exists (l1 ++ k1), f, m, p, src, k2. rewrite <- app_assoc. split; auto. split; auto. now apply worked_app.
  - destruct W2 as (A1 & A2). split; [now apply worked_app|]. destruct A2 as [A2|(k & A2 & A3)]; auto. right. exists k. split; auto. lia.
Qed.
(** the exception goes on after something that does not throw *)
Lemma h_rethrow A B s s1 s2 e (b : B) : hstep s s1 (Throw e : res A) -> hstep s1 s2 (Ok b) -> hstep s s2 (Throw e : res A).
Proof.
  intros (l1 & D1 & C1 & W1) (l2 & D2 & C2 & W2). exists (l1 ++ l2). split; [eapply did_trans; eauto|]. split; [lia|].
  destruct e; cbn in *; try now apply worked_app.
  - destruct W1 as (He & k1 & f & m & p & src & k2 & -> & A1 & A2). split; auto. exists k1, f, m, p, src, (k2 ++ l2). rewrite <- app_assoc. split; auto. split; auto. now apply worked_app.
  - destruct W1 as (A1 & A2). split; [now apply worked_app|]. destruct A2 as [A2|(k & A2 & A3)]; auto. right. exists k. split; auto. lia.
Qed.
Lemma h_ub A B C s s1 s2 (r : res A) u : hstep s s1 r -> hstep s1 s2 (Ub u : res B) -> hstep s s2 (Ub u : res C).
Proof. intros (l1 & D1 & C1 & W1) (l2 & D2 & C2 & W2). exists (l1 ++ l2). split; [eapply did_trans; eauto|]. split; [lia|exact Logic.I]. Qed.
Lemma h_cast A B s s' e : hstep s s' (Throw e : res A) -> hstep s s' (Throw e : res B).
Proof. intros H. exact H. Qed.
Lemma h_castu A B s s' e : hstep s s' (Ub e : res A) -> hstep s s' (Ub e : res B).
Proof. intros H. exact H. Qed.

Lemma k_ret A (a : A) : hon (ret a).
Proof. intros s s' r [= <- <-]. apply h_same; cbn; auto. Qed.
Lemma k_ub A u : hon (ub u : M st A).
Proof. intros s s' r [= <- <-]. apply h_same; cbn; auto. Qed.
Lemma k_raise A e : clean e -> hon (raise e : M st A).
Proof. intros He s s' r [= <- <-]. apply h_same; cbn; auto. Qed.
Lemma k_const A (f : st -> res A) : (forall s, cleanr (f s)) -> hon (fun s => (s, f s)).
Proof. intros He s s' r [= <- <-]. apply h_same; cbn; auto. Qed.
Lemma k_bnd A B (x : M st A) (f : A -> M st B) : hon x -> (forall a, hon (f a)) -> hon (bnd x f).
Proof.
  intros H1 H2 s s' r H. unfold bnd in H. destruct (x s) as [s1 [a|e|u]] eqn:Hx.
  - eapply h_trans; [exact (H1 _ _ _ Hx)|exact (H2 a _ _ _ H)].
  - injection H as <- <-. exact (H1 _ _ _ Hx).
  - injection H as <- <-. exact (H1 _ _ _ Hx).
Qed.
Lemma mk_ret A (a : A) : mhon (ret a).
Proof. intros s s' r [= <- <-]. apply h_same; cbn; auto. Qed.
Lemma mk_ub A u : mhon (ub u : M mst A).
Proof. intros s s' r [= <- <-]. apply h_same; cbn; auto. Qed.
Lemma mk_raise A e : clean e -> mhon (raise e : M mst A).
Proof. intros He s s' r [= <- <-]. apply h_same; cbn; auto. Qed.
Lemma mk_bnd A B (x : M mst A) (f : A -> M mst B) : mhon x -> (forall a, mhon (f a)) -> mhon (bnd x f).
Proof.
  intros H1 H2 s s' r H. unfold bnd in H. destruct (x s) as [s1 [a|e|u]] eqn:Hx.
  - eapply h_trans; [exact (H1 _ _ _ Hx)|exact (H2 a _ _ _ H)].
  - injection H as <- <-. exact (H1 _ _ _ Hx).
  - injection H as <- <-. exact (H1 _ _ _ Hx).
Qed.
Lemma mk_lift A (x : M st A) : hon x -> mhon (lift x).
Proof. intros H [mu s] p' r Hx. unfold lift in Hx. cbn in Hx. destruct (x s) as [s1 r1] eqn:H1. injection Hx as <- <-. exact (H _ _ _ H1). Qed.
Lemma mk_get_mu : mhon get_mu.
Proof. intros s s' r [= <- <-]. apply h_same; cbn; auto. Qed.
Lemma mk_set_mu f : mhon (set_mu f).
Proof. intros s s' r [= <- <-]. apply h_same; cbn; auto. Qed.
Lemma mk_get_mid : mhon get_mid.
Proof. intros s s' r [= <- <-]. apply h_same; cbn; auto. Qed.
Lemma k_get_obj o : hon (get_obj o).
Proof. intros s s' r. unfold get_obj. destruct (s_obj s o); intros [= <- <-]; apply h_same; cbn; auto. Qed.
Lemma k_get_ty o : hon (get_ty o).
Proof. intros s s' r. unfold get_ty. destruct (w_type (s_w s) o); intros [= <- <-]; apply h_same; cbn; auto. Qed.
Lemma k_get_blk o : hon (get_blk o).
Proof. intros s s' r. unfold get_blk. destruct (s_blk s o); intros [= <- <-]; apply h_same; cbn; auto. Qed.
Lemma k_put_obj o x : hon (put_obj o x).
Proof. intros s s' r [= <- <-]. apply h_same; cbn; auto. Qed.
Lemma k_put_blk o x : hon (put_blk o x).
Proof. intros s s' r [= <- <-]. apply h_same; cbn; auto. Qed.
Lemma k_tick : hon (tick U).
Proof. intros s s' r [= <- <-]. apply h_same; cbn; auto. Qed.
Lemma k_on_world A (f : world -> world * res A) : (forall w, cleanr (snd (f w))) -> hon (on_world f).
Proof. intros H s s' r [= <- <-]. apply h_same; cbn; auto. Qed.
Lemma k_incr r : hon (on_world (fun w => incr_nobj w r)).
Proof. apply k_on_world. intros w. unfold incr_nobj. destruct (w_type w r); exact Logic.I. Qed.
Lemma k_decr r : hon (on_world (fun w => decr_nobj w r)).
Proof. apply k_on_world. intros w. unfold decr_nobj. destruct (w_type w r) as [t|]; [|exact Logic.I]. destruct (t_nobj t); exact Logic.I. Qed.

Lemma k_alloc a size align : hon (alloc U a size align).
Proof.
  intros s s' r H. unfold alloc, bnd, tick in H. destruct (Z.eqb_spec (an_err (u_ans U (s_calls s))) 0) as [He|He].
  - injection H as <- <-. exists [EvAlloc a (s_next s) size align]. split; [reflexivity|]. split; [cbn; lia|]. intros f m p src err [A|[]]. discriminate.
  - injection H as <- <-. exists []. split; [unfold did; cbn; now rewrite app_nil_r|]. split; [cbn; lia|]. split; [apply worked_nil|]. right. exists (s_calls s). split; [cbn; lia|auto].
Qed.
Lemma k_emit e : (forall f m p src err, e = EvCall f m p src err -> err = 0%Z) -> hon (emit e).
Proof. intros H s s' r [= <- <-]. exists [e]. split; [reflexivity|]. split; [cbn; lia|]. intros f m p src err [A|[]]. eapply H; eauto. Qed.
Lemma k_free a b size align : hon (free E a b size align).
Proof.
  intros s s' r H. unfold free, bnd, get_blk in H. destruct (s_blk s b) as [k|]; [|injection H as <- <-; apply h_same; cbn; auto].
  destruct (aid_eqb (b_alloc k) a && (b_size k =? size)%N && (b_align k =? align)%N); [|injection H as <- <-; apply h_same; cbn; auto].
  destruct (all_dead E (b_inst k)); injection H as <- <-; [|apply h_same; cbn; auto]. exists [EvFree a b size align]. split; [reflexivity|]. split; [cbn; lia|]. intros f m p src err [A|[]]. discriminate.
Qed.

Hint Resolve k_ret k_ub mk_ret mk_ub mk_get_mu mk_set_mu mk_get_mid k_get_obj k_get_ty k_get_blk k_put_obj k_put_blk k_tick k_incr k_decr k_alloc k_free mk_lift : hon.
Hint Extern 1 (hon (raise _)) => apply k_raise; exact Logic.I : hon.
Hint Extern 1 (mhon (raise _)) => apply mk_raise; exact Logic.I : hon.
Ltac kp := repeat first [ progress eauto with hon | simple apply k_bnd; [|intros ?] | simple apply mk_bnd; [|intros ?] | simple apply mk_lift
  | match goal with
    | |- hon (match ?x with _ => _ end) => destruct x
    | |- mhon (match ?x with _ => _ end) => destruct x
    | |- mhon (lift (match ?x with _ => _ end)) => destruct x
    end ].

Lemma k_read_data b i : hon (read_data b i).
Proof. unfold read_data. kp. Qed.
Lemma k_write_data b i d : hon (write_data b i d).
Proof. unfold write_data. kp. Qed.
Lemma k_set_object p o : hon (set_object p o).
Proof. unfold set_object. kp. Qed.
Lemma k_live m p : hon (live m p).
Proof. unfold live. kp. Qed.
Lemma k_vacant p : hon (vacant E p).
Proof. unfold vacant. kp. Qed.
Lemma k_put_inst p x : hon (put_inst p x).
Proof. unfold put_inst. kp. Qed.
Lemma k_del_inst p : hon (del_inst p).
Proof. unfold del_inst. kp. Qed.
Hint Resolve k_read_data k_write_data k_set_object k_live k_vacant k_put_inst k_del_inst : hon.

Ltac kb x := apply k_bnd; [solve [kp]|intros x].
(** a call that reports [err]: success, or an exception with the same error, with nothing that can fail in between *)
Lemma k_call A f m p src err (good bad : M st A) : (err = 0%Z -> hon good) -> (err <> 0%Z -> forall s s' r, bad s = (s', r) -> s_log s' = s_log s /\ s_calls s' = s_calls s /\ (r = Throw (EUserFunc err) \/ exists u, r = Ub u)) ->
  hon (emit (EvCall f m p src err);; if (err =? 0)%Z then good else bad).
Proof.
  intros Hg Hb. destruct (Z.eqb_spec err 0) as [->|He].
  - apply k_bnd; [|intros _; auto]. apply k_emit. intros f' m' p' src' err' [=]. congruence.
  - intros s s' r H. unfold bnd, emit in H. destruct (Hb He _ _ _ H) as (H1 & H2 & H3). exists [EvCall f m p src err]. split; [unfold did; now rewrite H1|]. split; [rewrite H2; cbn; lia|].
    destruct H3 as [->|[u ->]]; [|exact Logic.I]. split; auto. exists [], f, m, p, src, []. split; auto. split; apply worked_nil.
Qed.
Lemma put_inst_quiet p x s s' r : put_inst p x s = (s', r) -> s_log s' = s_log s /\ s_calls s' = s_calls s /\ (r = Ok tt \/ exists u, r = Ub u).
Proof. unfold put_inst, bnd, get_blk, put_blk. destruct (s_blk s (fst p)); intros [= <- <-]; cbn; eauto. Qed.
Lemma raise_quiet A e (s s' : st) (r : res A) : raise e s = (s', r) -> s_log s' = s_log s /\ s_calls s' = s_calls s /\ (r = Throw e \/ exists u, r = Ub u).
Proof. intros [= <- <-]. auto. Qed.
Lemma put_raise_quiet A p x e (s s' : st) (r : res A) : (put_inst p x;; raise e) s = (s', r) -> s_log s' = s_log s /\ s_calls s' = s_calls s /\ (r = Throw e \/ exists u, r = Ub u).
Proof.
  unfold bnd. destruct (put_inst p x s) as [s1 r1] eqn:H1. destruct (put_inst_quiet _ _ _ _ _ H1) as (A1 & A2 & [->|[u ->]]); intros [= <- <-]; eauto.
Qed.
Lemma k_construct f m p src : hon (construct E U f m p src).
Proof. unfold construct. kb a. kb z. kb v. apply k_call; [intros _; kp|]. intros _ s s' r. apply raise_quiet. Qed.
Lemma k_copy_asgn m p src : hon (copy_asgn U m p src).
Proof.
  unfold copy_asgn. kb a. kb z. kb x. apply k_call; [intros _; kp|]. intros _ s s' r. apply put_raise_quiet.
Qed.
Lemma k_update k m p : hon (update U k m p).
Proof.
  unfold update. kb a. kb z. intros s s' r H. assert (Hg : hon (emit (EvCall (FUpdate k) m p None (an_err a));; if (an_err a =? 0)%Z then put_inst p {| i_mixin := m; i_val := an_val a |} else (put_inst p {| i_mixin := m; i_val := an_val a |};; raise (EUserFunc (an_err a))))).
  { apply k_call; [intros _; kp|]. intros _ s1 s2 r1. apply put_raise_quiet. }
  apply (Hg s s' r). unfold bnd in *. destruct (emit _ s) as [s1 [[]|e|u]]; auto. destruct (Z.eqb_spec (an_err a) 0) as [Hz|Hz]; auto.
  destruct (put_inst p {| i_mixin := m; i_val := an_val a |} s1) as [s2 [[]|e|u]]; auto.
Qed.
Lemma k_move_init m p src : hon (move_init E U m p src).
Proof. unfold move_init. kp. apply k_emit. intros; congruence. Qed.
Lemma k_move_asgn m p src : hon (move_asgn U m p src).
Proof. unfold move_asgn. kp. apply k_emit. intros; congruence. Qed.
Lemma k_destroy m p : hon (destroy E m p).
Proof. unfold destroy. kp. apply k_emit. intros; congruence. Qed.
Hint Resolve k_construct k_copy_asgn k_update k_move_init k_move_asgn k_destroy : hon.

Lemma mk_target_mixin mu i : mhon (target_mixin mu i).
Proof. unfold target_mixin. kp. Qed.
Lemma mk_target_offset mu i : mhon (target_offset mu i).
Proof. unfold target_offset. kp. Qed.
Lemma mk_target_data mu : mhon (target_data mu).
Proof. unfold target_data. kp. Qed.
Hint Resolve mk_target_mixin mk_target_offset mk_target_data : hon.
Lemma k_aob r t a : hon (allocate_object_buffer U r t a).
Proof. unfold allocate_object_buffer. kp. Qed.
Lemma k_dob r t a b : hon (deallocate_object_buffer E r t a b).
Proof. unfold deallocate_object_buffer. kp. Qed.
Lemma k_alloc_external o m : hon (alloc_external E U o m).
Proof. unfold alloc_external. kp. Qed.
Lemma k_free_external o m b : hon (free_external E o m b).
Proof. unfold free_external. kp. Qed.
Hint Resolve k_aob k_dob k_alloc_external k_free_external : hon.
Lemma mk_alloc_one i : mhon (alloc_one E U i).
Proof. unfold alloc_one. kp. Qed.
Hint Resolve mk_alloc_one : hon.
Lemma mk_alloc_loop l : mhon (alloc_loop E U l).
Proof. induction l; cbn [alloc_loop]; kp. Qed.
Hint Resolve mk_alloc_loop : hon.
Lemma mk_allocate : mhon (allocate_mixin_data E U).
Proof. unfold allocate_mixin_data. kp. Qed.
Lemma mk_dealloc_one i : mhon (dealloc_one E i).
Proof. unfold dealloc_one. kp. Qed.
Lemma mk_down f n : (forall i, mhon (f i)) -> mhon (down_loop f n).
Proof. intros H. induction n; cbn [down_loop]; kp. Qed.
Lemma mk_destroy_one i : mhon (destroy_one E i).
Proof. unfold destroy_one. kp. Qed.
Hint Resolve mk_allocate mk_dealloc_one mk_down mk_destroy_one : hon.
Lemma mk_deallocate : mhon (deallocate_mixin_data E).
Proof. unfold deallocate_mixin_data. kp. Qed.
Lemma mk_destroy_new : mhon (destroy_new_mixins E).
Proof. unfold destroy_new_mixins. kp. Qed.
Hint Resolve mk_deallocate mk_destroy_new : hon.
Lemma mk_rollback : mhon (rollback E).
Proof. unfold rollback. kp. Qed.
Lemma mk_finalize_one ob ot i : mhon (finalize_one E U ob ot i).
Proof. unfold finalize_one. kp. Qed.
Hint Resolve mk_rollback mk_finalize_one : hon.
Lemma mk_finalize_loop ob ot l : mhon (finalize_loop E U ob ot l).
Proof. induction l; cbn [finalize_loop]; kp. Qed.
Lemma mk_install : mhon install.
Proof. unfold install. kp. Qed.
Hint Resolve mk_finalize_loop mk_install : hon.
Lemma mk_finalize : mhon (finalize E U).
Proof. unfold finalize. kp. Qed.
Hint Resolve mk_finalize : hon.

Definition cbk (cn : cb_new) : Prop := forall m p i, hon (cn m p i).
Definition ucbk (uc : cb_common) : Prop := forall m p i j, hon (uc m p i j).
Lemma mk_update_next cn uc : cbk cn -> ucbk uc -> mhon (update_next cn uc).
Proof. intros H1 H2. unfold cbk, ucbk in *. unfold update_next. kp. Qed.
Hint Resolve mk_update_next : hon.
Lemma mk_turns cn uc n : cbk cn -> ucbk uc -> mhon (update_turns cn uc n).
Proof. intros H1 H2. induction n; cbn [update_turns]; kp. Qed.
Hint Resolve mk_turns : hon.
Lemma mk_each cn uc u : cbk cn -> ucbk uc -> mhon (update_each cn uc u).
Proof. intros H1 H2. unfold update_each. kp. Qed.
Lemma ck_noop : ucbk noop_common.
Proof. intros m p i j. unfold noop_common. kp. Qed.
Lemma ck_default : cbk (default_init E U).
Proof. intros m p i. unfold default_init. kp. Qed.
Hint Resolve mk_each ck_noop ck_default : hon.
Lemma mk_default u : mhon (default_each E U u).
Proof. unfold default_each, construct_each. kp. Qed.
Hint Resolve mk_default : hon.
Lemma mk_update_at i cn uc : cbk cn -> ucbk uc -> mhon (update_at E U i cn uc).
Proof. intros H1 H2. unfold update_at. kp. Qed.
Hint Resolve mk_update_at : hon.
Lemma mk_start x : mhon (start E U x).
Proof. unfold start. kp. Qed.
Hint Resolve mk_start : hon.

Lemma h_rollback A s p e p' (r : res A) : hstep s (snd p) (Throw e : res unit) -> (rollback E;; raise e) p = (p', r) -> hstep s (snd p') r.
Proof.
  intros H Hr. unfold bnd in Hr. destruct (rollback E p) as [p1 [[]|e1|u]] eqn:H1.
  - injection Hr as <- <-. apply h_cast with (A := unit). eapply h_rethrow; [exact H|exact (mk_rollback _ _ _ H1)].
  - destruct (nt_rollback E _ _ _ H1).
  - injection Hr as <- <-. eapply h_ub; [exact H|exact (mk_rollback _ _ _ H1)].
Qed.
Lemma h_unwind A s p e p' (r : res A) : hstep s (snd p) (Throw e : res unit) -> unwind E e p = (p', r) -> hstep s (snd p') r.
Proof.
  intros H Hr. unfold unwind in Hr. unfold bnd at 1 in Hr. cbn [get_mu] in Hr. destruct (mu_moved (fst p)); [|eapply h_rollback; eauto]. injection Hr as <- <-. exact H.
Qed.
Lemma mk_finish unw : mhon (finish E U unw).
Proof.
  unfold finish. kp. intros p p' r H. destruct (default_each E U None p) as [p1 [[]|e|u]] eqn:H1.
  - eapply h_trans; [exact (mk_default _ _ _ _ H1)|exact (mk_finalize _ _ _ H)].
  - eapply h_rollback; [exact (mk_default _ _ _ _ H1)|exact H].
  - injection H as <- <-. exact (mk_default _ _ _ _ H1).
Qed.
Lemma k_get_old x : hon (get_old x).
Proof. unfold get_old. kp. Qed.
Hint Resolve k_get_old : hon.
Lemma k_perform unw o r body : mhon body -> hon (perform E U unw o r body).
Proof.
  intros Hb. unfold perform. kp. intros s s' res H.
  assert (H1 : mhon (start E U a;; body)) by kp. destruct ((start E U a;; body) (new_mut o a a0 r a1, s)) as [p [[]|e|u]] eqn:Hp; pose proof (H1 _ _ _ Hp) as H2; cbn in H2.
  - destruct (finish E U unw p) as [[mu' s2] res2] eqn:H3. injection H as <- <-. eapply h_trans; [exact H2|exact (mk_finish unw _ _ _ H3)].
  - destruct (unwind E e p) as [[mu' s2] res2] eqn:H3. injection H as <- <-. exact (h_unwind _ _ _ _ _ _ H2 H3).
  - destruct p. injection H as <- <-. exact H2.
Qed.
Hint Resolve k_perform : hon.

(** ** Objects *)
Lemma k_the_type x : hon (the_type x).
Proof. unfold the_type. kp. Qed.
Lemma k_fresh o : hon (fresh_obj o).
Proof. intros s s' r. unfold fresh_obj. destruct (s_obj s o); intros [= <- <-]; apply h_same; cbn; auto. Qed.
Lemma k_mod o f : hon (mod_obj o f).
Proof. unfold mod_obj. kp. Qed.
Lemma k_run_mut mu a : mhon a -> hon (run_mut mu a).
Proof. intros Ha s s' r H. unfold run_mut in H. destruct (a (mu, s)) as [[mu' s2] r2] eqn:H1. injection H as <- <-. exact (Ha _ _ _ H1). Qed.
Hint Resolve k_the_type k_fresh k_mod k_run_mut : hon.
Lemma k_clear_data o : hon (clear_mixin_data E o).
Proof. unfold clear_mixin_data. kp. Qed.
Lemma k_redirect b o l : hon (redirect_loop b o l).
Proof. induction l; cbn [redirect_loop]; kp. Qed.
Hint Resolve k_clear_data k_redirect : hon.
Lemma k_usurp o src : hon (usurp o src).
Proof. unfold usurp. kp. Qed.
Lemma k_dtor o : hon (obj_dtor E o).
Proof. unfold obj_dtor. kp. Qed.
Lemma k_reset unw o r : hon (reset_type E U unw o r).
Proof. unfold reset_type. kp. Qed.
Hint Resolve k_usurp k_dtor k_reset : hon.
Lemma k_with_new o a body : hon body -> hon (with_new E o a body).
Proof.
  intros Hb. unfold with_new. kp. intros s s' r H. destruct (body s) as [s1 [x|e|u]] eqn:H1; pose proof (Hb _ _ _ H1) as H2.
  - injection H as <- <-. exact H2.
  - unfold bnd in H. destruct (obj_dtor E o s1) as [s2 [[]|e1|u]] eqn:H3.
    + injection H as <- <-. eapply h_rethrow; [exact H2|exact (k_dtor _ _ _ _ H3)].
    + destruct (nt_dtor E _ _ _ _ H3).
    + injection H as <- <-. eapply h_ub; [exact H2|exact (k_dtor _ _ _ _ H3)].
  - injection H as <- <-. exact H2.
Qed.
Hint Resolve k_with_new : hon.
Lemma k_data_at x i : hon (data_at x i).
Proof. unfold data_at. kp. Qed.
Lemma k_the_mid : hon the_mid.
Proof. apply k_const. intros s. exact Logic.I. Qed.
Hint Resolve k_data_at k_the_mid : hon.
Lemma ck_copy_new y : cbk (copy_new E U y).
Proof. intros m p i. unfold copy_new. kp. Qed.
Lemma ck_copy_common y : ucbk (copy_common E U y).
Proof. intros m p i j. unfold copy_common. kp. Qed.
Lemma ck_copy_checked y : cbk (copy_new_checked E U y).
Proof. intros m p i. unfold copy_new_checked. kp. Qed.
Hint Resolve ck_copy_new ck_copy_common ck_copy_checked : hon.
Lemma mk_construct_each cn u : cbk cn -> mhon (construct_each cn u).
Proof. intros H. unfold construct_each. kp. Qed.
Hint Resolve mk_construct_each : hon.
Lemma c_check_copy mid t l : cleanr (check_copy E mid t l).
Proof. induction l as [|m l IH]; cbn; [exact Logic.I|]. destruct (type_has_id t (mid m)); [destruct (m_copy_asgn _)|destruct (m_copy_init _)]; auto; exact Logic.I. Qed.
Lemma c_check_cmatch mid t l : cleanr (check_copy_matching E mid t l).
Proof. induction l as [|m l IH]; cbn; [exact Logic.I|]. destruct (type_has_id t (mid m)); auto. destruct (m_copy_asgn _); auto; exact Logic.I. Qed.
Lemma c_check_mmatch fb mid t l : cleanr (check_move_matching E fb mid t l).
Proof. induction l as [|m l IH]; cbn; [exact Logic.I|]. destruct (type_has_id t (mid m)); auto. destruct (m_move_asgn _ || _); auto; exact Logic.I. Qed.
Lemma k_check_copy mid t l : hon (fun s => (s, check_copy E mid t l)).
Proof. apply k_const. intros s. apply c_check_copy. Qed.
Lemma k_check_cmatch mid t l : hon (fun s => (s, check_copy_matching E mid t l)).
Proof. apply k_const. intros s. apply c_check_cmatch. Qed.
Lemma k_check_mmatch fb mid t l : hon (fun s => (s, check_move_matching E fb mid t l)).
Proof. apply k_const. intros s. apply c_check_mmatch. Qed.
Hint Resolve k_check_copy k_check_cmatch k_check_mmatch : hon.
Lemma k_cmatch_loop mid x y own l : hon (copy_matching_loop E U mid x y own l).
Proof. induction l as [|[i m] l IH]; cbn [copy_matching_loop]; kp. Qed.
Lemma k_mmatch_loop fb mid x y own l : hon (move_matching_loop E U fb mid x y own l).
Proof. induction l as [|[i m] l IH]; cbn [move_matching_loop]; kp. Qed.
Hint Resolve k_cmatch_loop k_mmatch_loop : hon.
Lemma ck_do_init k m : cbk (do_init E U k m).
Proof. intros m' p i. unfold do_init. kp. Qed.
Hint Resolve ck_do_init : hon.
Lemma mk_ops_loop l : mhon (ops_loop E U l).
Proof. induction l as [|[[k m] i] l IH]; cbn [ops_loop]; kp. Qed.
Hint Resolve mk_ops_loop : hon.

(** *** Results of the domain *)
Lemma c_bind A B (x : res A) (f : A -> res B) : cleanr x -> (forall a, cleanr (f a)) -> cleanr (bind x f).
Proof. destruct x; cbn; auto. Qed.
Lemma c_resolve_op w d t op : cleanr (resolve_op E w d t op).
Proof. destruct op; cbn; [exact Logic.I|destruct (index_of _ _); exact Logic.I|]. destruct (get_mixin_by_name E w d nm0); [destruct (index_of _ _); exact Logic.I|exact Logic.I]. Qed.
Lemma c_resolve_ops w d t ops : cleanr (resolve_ops E w d t ops).
Proof. induction ops as [|op ops IH]; cbn; [exact Logic.I|]. apply c_bind; [apply c_resolve_op|]. intros a. apply c_bind; auto. intros b. exact Logic.I. Qed.
Lemma k_resolve t d ops : hon (fun s => (s, resolve_ops E (s_w s) d t ops)).
Proof. apply k_const. intros s. apply c_resolve_ops. Qed.
Hint Resolve k_resolve : hon.
Lemma k_mutate_to unw o r ops : hon (mutate_to E U unw o r ops).
Proof. unfold mutate_to. kp. Qed.
Hint Resolve k_mutate_to : hon.

Lemma c_mutop lk op l : cleanr (apply_mutop E lk op l).
Proof.
  destruct op; cbn; try exact Logic.I; unfold tm_add_name, tm_to_back, tm_to_back_name.
  - destruct (lk nm0); exact Logic.I.
  - destruct (memb m l); exact Logic.I.
  - destruct (find _ l); exact Logic.I.
Qed.
Lemma c_mutops lk ops : forall l, cleanr (apply_mutops E lk ops l).
Proof. induction ops as [|op ops IH]; intros l; cbn; [exact Logic.I|]. apply c_bind; [apply c_mutop|auto]. Qed.
Lemma c_gop lk op l : cleanr (apply_gop E lk op l).
Proof. destruct op; cbn; [apply c_mutop|exact Logic.I|]. unfold tm_add_if_lacking_name, tm_add_name. destruct (find _ l); [|destruct (lk nm0)]; exact Logic.I. Qed.
Lemma c_gops lk ops : forall l, cleanr (apply_gops E lk ops l).
Proof. induction ops as [|op ops IH]; intros l; cbn; [exact Logic.I|]. apply c_bind; [apply c_gop|auto]. Qed.
Lemma c_cops lk ops : forall l, cleanr (apply_cops E lk ops l).
Proof. induction ops as [|op ops IH]; intros l; cbn; [exact Logic.I|]. destruct (cop_mutop op); [|exact Logic.I]. apply c_bind; [apply c_mutop|auto]. Qed.

Lemma c_pass lk rs : forall l, cleanr (apply_pass E lk rs l).
Proof. induction rs as [|[r n] rs IH]; intros l; cbn; [exact Logic.I|]. destruct (r_apply (e_rule E r)) as [f|]; [|exact Logic.I]. destruct (f lk l); [auto|exact Logic.I]. Qed.
Lemma c_loop fuel : forall i lk rs a b c, cleanr (rules_loop E fuel i lk rs a b c).
Proof.
  induction fuel as [|fuel IH]; intros i lk rs a b c; cbn [rules_loop]; [exact Logic.I|]. apply c_bind; [apply c_pass|]. intros c'. destruct (list_eqb b c'); [exact Logic.I|]. destruct (_ || _); [exact Logic.I|apply IH].
Qed.
Lemma build_type_mem fid mid mdom d ms : build_type E fid mid mdom true d ms <> Throw EBadAlloc.
Proof.
  unfold build_type. destruct (check_mixins mid mdom d ms) eqn:H1; cbn; try discriminate.
  2:{ intros [= ->]. apply check_mixins_throw in H1. intuition discriminate. }
  unfold ftable_counts. pose proof (count_pls_throw fid (all_features E ms) (repeat 0 (ftable_size fid (all_features E ms)))) as H2.
  destruct (count_pls fid _ _) as [c| |]; simpl; try discriminate; [|exfalso; eapply H2; eauto].
  destruct (length ms =? 0); [discriminate|]. 
  unfold build_ftable. pose proof (fill_pls_throw fid (all_features E ms) c {| ft_entries := repeat None (length c); ft_pls := repeat None (length (all_features E ms)) |} 0) as H3.
  destruct (fill_pls fid c _ _ _) as [t| |]; simpl; try discriminate; [|exfalso; eapply H3; eauto].
  destruct (finish_entries E (ft_entries t) (ft_pls t)) eqn:H4; simpl; try discriminate; [|intros [= ->]; apply finish_entries_throw in H4; discriminate].
  unfold layout. match goal with |- context [layout_loop E ms ?s ?a] => pose proof (layout_throw E ms s a) as H5; destruct (layout_loop E ms s a) end; simpl; try discriminate; [|exfalso; eapply H5; eauto].
  unfold build_sparse. match goal with |- context [fill_sparse mid ?l ?s] => pose proof (fill_sparse_throw mid l s) as H6; destruct (fill_sparse mid l s) end; simpl; try discriminate. exfalso; eapply H6; eauto.
Qed.
Definition cleanm {A} (r : res A) : Prop := match r with Throw e => clean e \/ e = EBadAlloc /\ nm | _ => True end.
Lemma c_get_type aok w d dm q : (aok = false -> nm) -> cleanm (snd (get_type_mut E aok w d dm q)).
Proof.
  intros Ha. unfold get_type_mut. destruct (negb (dm =? d)); [left; exact Logic.I|]. unfold lookup_type. destruct (find_query q _); [exact Logic.I|].
  pose proof (c_loop (S max_dependency_depth) 0 (view E w d) (d_rules (w_dom w d)) [] q (filter (fun m => negb (m_dependency (e_mixin E m))) q)) as Hc. fold (apply_rules E (view E w d) (d_rules (w_dom w d)) q) in Hc.
  destruct (apply_rules E (view E w d) (d_rules (w_dom w d)) q) as [x|e|u]; cbn in *; auto. destruct (match snd x with [] => _ | _ => _ end) as [t|]; [exact Logic.I|].
  destruct (build_type E (w_fid w) (w_mid w) (w_mdom w) aok d (snd x)) as [t|e|u] eqn:Hb; cbn; auto.
  - destruct (insert_type w d (fst x) t). exact Logic.I.
  - destruct aok; [|pose proof (build_type_throw E _ _ _ _ _ _ _ Hb) as [->|[->|[->|[->| ->]]]]; cbn; auto].
    assert (e <> EBadAlloc) by (intros ->; eapply build_type_mem; eauto). pose proof (build_type_throw E _ _ _ _ _ _ _ Hb) as [->|[->|[->|[->| ->]]]]; cbn; auto; congruence.
Qed.
Lemma h_samem A s s' (r : res A) : s_log s' = s_log s -> s_calls s <= s_calls s' -> cleanm r -> hstep s s' r.
Proof.
  intros H1 H2 H3. exists []. split; [unfold did; now rewrite app_nil_r|]. split; auto. destruct r; auto; [apply worked_nil|]. destruct H3 as [H3|[-> H3]]; [apply clean_blames; auto; apply worked_nil|]. cbn. split; [apply worked_nil|auto].
Qed.
Lemma k_mutated_type aok t f : (aok = false -> nm) -> (forall lk l, cleanr (f lk l)) -> hon (mutated_type E aok t f).
Proof.
  intros Ha Hf. unfold mutated_type. kp; [apply k_const; auto|]. intros s s' r [= <- <-]. apply h_samem; cbn; auto. now apply c_get_type.
Qed.
Lemma ck_wrap_init c : cbk (wrap_init E U c).
Proof. intros m p i. unfold wrap_init. destruct (co_init c); kp. Qed.
Lemma ck_wrap_update c : ucbk (wrap_update U c).
Proof. intros m p i j. unfold wrap_update. destruct (co_update c); kp. Qed.
Lemma ck_wrap_cop c : cbk (wrap_cop E U c).
Proof. intros m p i. unfold wrap_cop. destruct (cp_init c); kp. Qed.
Lemma ck_user_new k : cbk (user_new E U k).
Proof. intros m p i. unfold user_new. kp. Qed.
Lemma ck_user_common k : ucbk (user_common U k).
Proof. intros m p i j. unfold user_common. kp. Qed.
Hint Resolve ck_wrap_init ck_wrap_update ck_wrap_cop ck_user_new ck_user_common : hon.
Lemma mk_cover_loop cs l : mhon (cover_loop E U cs l).
Proof. induction l as [|[i m] l IH]; cbn [cover_loop]; kp. Qed.
Lemma mk_cop_loop cs l : mhon (cop_loop E U cs l).
Proof. induction l as [|[i m] l IH]; cbn [cop_loop]; kp. Qed.
Lemma mk_pstep p : mhon (run_pstep E U p).
Proof. destruct p; cbn [run_pstep]; kp. Qed.
Hint Resolve mk_cover_loop mk_cop_loop mk_pstep : hon.
Lemma mk_psteps l : mhon (run_psteps E U l).
Proof. induction l; cbn [run_psteps]; kp. Qed.
Hint Resolve mk_psteps : hon.
Lemma k_gradual_dry d l ops : hon (fun s => (s, do _ <- apply_gops E (get_mixin_by_name E (s_w s) d) ops l; Ok tt)).
Proof. apply k_const. intros s. apply c_bind; [apply c_gops|]. intros _. exact Logic.I. Qed.
Hint Resolve k_gradual_dry : hon.

Lemma k_op op : match op with ODom _ => False | _ => True end -> (no_type_memory op -> nm) -> hon (op_run E U op).
Proof.
  intros Hd Hm. destruct op; cbn [op_run no_type_memory] in *; unfold new_empty, new_of_type, new_moved, move_assign, copy, copy_from, copy_matching_from, move_matching_from, clear, seal, mutate, gradual, c_mutate_to, c_mutate, piecewise, use_mixin; repeat first [progress kp | simple apply k_with_new | contradiction
    | simple apply k_mutated_type; [solve [auto]|intros lk z; first [apply c_mutops|apply c_gops|apply c_cops]]].
Qed.
End Honest.

(** Every call of the library, of any program, until it runs into undefined behaviour *)
Lemma op_honest E U op s s' r : match op with ODom _ => False | _ => True end -> op_run E U op s = (s', r) ->
  exists l, did s s' l /\ s_calls s <= s_calls s' /\ match r with Ok _ => all_worked l | Throw e => blames U (no_type_memory op) s s' l e | Ub _ => True end.
Proof. intros H Hr. exact (k_op E U (no_type_memory op) op H (fun x => x) s s' r Hr). Qed.
