(** Only functions that are there are called, whatever the program does *)
From Coq Require Import List Arith ZArith NArith Lia Bool.
From Verif Require Import Base Sv BaseLemmas Info TypeMut TypeBuild TypeQuery Domain Heap HeapProofs Mutation Object SpecObj Common Class SpecClass.
Import ListNotations.

Section CalledP.
Variable E : env.
Variable U : user.

Definition given (e : ev) : Prop := match e with EvCall f m _ _ _ => has_fn (e_mixin E m) f = true | _ => True end.
Definition linked (s : st) : Prop := Forall given (s_log s).
Definition keeps {A} (m : M st A) : Prop := forall s, linked s -> linked (fst (m s)).
Definition mkeeps {A} (m : M mst A) : Prop := forall p, linked (snd p) -> linked (snd (fst (m p))).

(** ** Combinators *)
Lemma k_ret A (a : A) : keeps (ret a).
Proof. intros s H. exact H. Qed.
Lemma k_raise A e : keeps (raise e : M st A).
Proof. intros s H. exact H. Qed.
Lemma k_ub A u : keeps (ub u : M st A).
Proof. intros s H. exact H. Qed.
Lemma k_const A (f : st -> res A) : keeps (fun s => (s, f s)).
Proof. intros s H. exact H. Qed.
Lemma k_bnd A B (x : M st A) (f : A -> M st B) : keeps x -> (forall a, keeps (f a)) -> keeps (bnd x f).
Proof. intros Hx Hf s H. unfold bnd. specialize (Hx s H). destruct (x s) as [s1 [a|e|u]]; cbn in *; auto. apply Hf. exact Hx. Qed.
Lemma mk_ret A (a : A) : mkeeps (ret a).
Proof. intros s H. exact H. Qed.
Lemma mk_raise A e : mkeeps (raise e : M mst A).
Proof. intros s H. exact H. Qed.
Lemma mk_ub A u : mkeeps (ub u : M mst A).
Proof. intros s H. exact H. Qed.
Lemma mk_bnd A B (x : M mst A) (f : A -> M mst B) : mkeeps x -> (forall a, mkeeps (f a)) -> mkeeps (bnd x f).
Proof. intros Hx Hf s H. unfold bnd. specialize (Hx s H). destruct (x s) as [s1 [a|e|u]]; cbn in *; auto. apply Hf. exact Hx. Qed.
Lemma mk_lift A (x : M st A) : keeps x -> mkeeps (lift x).
Proof. intros Hx [mu s] H. unfold lift. specialize (Hx s H). cbn in *. destruct (x s). exact Hx. Qed.
Lemma mk_get_mu : mkeeps get_mu.
Proof. intros p H. exact H. Qed.
Lemma mk_set_mu f : mkeeps (set_mu f).
Proof. intros p H. exact H. Qed.
Lemma mk_get_mid : mkeeps get_mid.
Proof. intros p H. exact H. Qed.
Lemma k_get_obj o : keeps (get_obj o).
Proof. intros s H. unfold get_obj. destruct (s_obj s o); exact H. Qed.
Lemma k_get_ty r : keeps (get_ty r).
Proof. intros s H. unfold get_ty. destruct (w_type (s_w s) r); exact H. Qed.
Lemma k_put_obj o x : keeps (put_obj o x).
Proof. intros s H. exact H. Qed.
Lemma k_on_world A (f : world -> world * res A) : keeps (on_world f).
Proof. intros s H. exact H. Qed.
Lemma k_tick : keeps (tick U).
Proof. intros s H. exact H. Qed.
Lemma k_get_blk b : keeps (get_blk b).
Proof. intros s H. unfold get_blk. destruct (s_blk s b); exact H. Qed.
Lemma k_put_blk b k : keeps (put_blk b k).
Proof. intros s H. exact H. Qed.
Lemma k_emit e : given e -> keeps (emit e).
Proof. intros He s H. cbn. apply Forall_app. split; [exact H|]. constructor; auto. Qed.

(** ** Memory and calls *)
Lemma k_alloc a size align : keeps (alloc U a size align).
Proof.
  unfold alloc. apply k_bnd; [apply k_tick|]. intros x. destruct (an_err x =? 0)%Z; [|apply k_raise]. intros s H. cbn. apply Forall_app. split; [exact H|]. constructor; [exact Logic.I|constructor].
Qed.
Lemma k_free a b size align : keeps (free E a b size align).
Proof.
  unfold free. apply k_bnd; [apply k_get_blk|]. intros k. destruct (_ && _); [|apply k_ub]. destruct (all_dead E (b_inst k)); [|apply k_ub].
  intros s H. cbn. apply Forall_app. split; [exact H|]. constructor; [exact Logic.I|constructor].
Qed.
Ltac kb := repeat first [simple apply k_bnd; [|intros ?] | simple apply k_ret | simple apply k_raise | simple apply k_ub | simple apply k_tick | simple apply k_get_blk | simple apply k_put_blk
  | match goal with |- keeps (match ?x with _ => _ end) => destruct x end].
Lemma k_read_data b i : keeps (read_data b i).
Proof. unfold read_data. kb. Qed.
Lemma k_write_data b i d : keeps (write_data b i d).
Proof. unfold write_data. kb. Qed.
Lemma k_set_object p o : keeps (set_object p o).
Proof. unfold set_object. kb. Qed.
Lemma k_live m p : keeps (live m p).
Proof. unfold live. kb. Qed.
Lemma k_vacant p : keeps (vacant E p).
Proof. unfold vacant. kb. Qed.
Lemma k_put_inst p x : keeps (put_inst p x).
Proof. unfold put_inst. kb. Qed.
Lemma k_del_inst p : keeps (del_inst p).
Proof. unfold del_inst. kb. Qed.
Ltac kc H := repeat first [simple apply k_live | simple apply k_vacant | simple apply k_put_inst | simple apply k_del_inst | simple apply k_emit; exact H | progress kb].
Lemma k_construct f m p src : has_fn (e_mixin E m) f = true -> keeps (construct E U f m p src).
Proof. intros H. unfold construct. kc H. Qed.
Lemma k_copy_asgn m p src : m_copy_asgn (e_mixin E m) = true -> keeps (copy_asgn U m p src).
Proof. intros H. unfold copy_asgn. kc H. Qed.
Lemma k_update k m p : keeps (update U k m p).
Proof. unfold update. kc (eq_refl true). Qed.
Lemma k_move_init m p src : m_move_init (e_mixin E m) = true -> keeps (move_init E U m p src).
Proof. intros H. unfold move_init. kc H. Qed.
Lemma k_move_asgn m p src : m_move_asgn (e_mixin E m) = true -> keeps (move_asgn U m p src).
Proof. intros H. unfold move_asgn. kc H. Qed.
Lemma k_destroy m p : keeps (destroy E m p).
Proof. unfold destroy. destruct (m_destroy (e_mixin E m)) eqn:H; [|apply k_ret]. kc H. Qed.

(** ** Everything else is built from these *)
Hint Resolve k_ret k_raise k_ub k_const mk_ret mk_raise mk_ub mk_get_mu mk_set_mu mk_get_mid k_get_obj k_get_ty k_put_obj k_on_world k_alloc k_free k_read_data k_write_data k_set_object
  k_copy_asgn k_update k_move_init k_move_asgn k_destroy mk_lift : keeps.
Hint Extern 1 (keeps (construct _ _ _ _ _ _)) => apply k_construct; first [reflexivity|assumption] : keeps.
Ltac kp := repeat first [ progress eauto with keeps | simple apply k_bnd; [|intros ?] | simple apply mk_bnd; [|intros ?] | simple apply mk_lift
  | match goal with
    | |- keeps (match ?x with _ => _ end) => destruct x eqn:?
    | |- mkeeps (match ?x with _ => _ end) => destruct x eqn:?
    | |- mkeeps (lift (match ?x with _ => _ end)) => destruct x eqn:?
    end ].

Lemma mk_target_mixin mu i : mkeeps (target_mixin mu i).
Proof. unfold target_mixin. kp. Qed.
Lemma mk_target_offset mu i : mkeeps (target_offset mu i).
Proof. unfold target_offset. kp. Qed.
Lemma mk_target_data mu : mkeeps (target_data mu).
Proof. unfold target_data. kp. Qed.
Hint Resolve mk_target_mixin mk_target_offset mk_target_data : keeps.
Lemma k_aob r t a : keeps (allocate_object_buffer U r t a).
Proof. unfold allocate_object_buffer. kp. Qed.
Lemma k_dob r t a b : keeps (deallocate_object_buffer E r t a b).
Proof. unfold deallocate_object_buffer. kp. Qed.
Lemma k_alloc_external o m : keeps (alloc_external E U o m).
Proof. unfold alloc_external. kp. Qed.
Lemma k_free_external o m b : keeps (free_external E o m b).
Proof. unfold free_external. kp. Qed.
Hint Resolve k_aob k_dob k_alloc_external k_free_external : keeps.
Lemma mk_alloc_one i : mkeeps (alloc_one E U i).
Proof. unfold alloc_one. kp. Qed.
Hint Resolve mk_alloc_one : keeps.
Lemma mk_alloc_loop l : mkeeps (alloc_loop E U l).
Proof. induction l; cbn [alloc_loop]; kp. Qed.
Hint Resolve mk_alloc_loop : keeps.
Lemma mk_allocate : mkeeps (allocate_mixin_data E U).
Proof. unfold allocate_mixin_data. kp. Qed.
Lemma mk_dealloc_one i : mkeeps (dealloc_one E i).
Proof. unfold dealloc_one. kp. Qed.
Lemma mk_down f n : (forall i, mkeeps (f i)) -> mkeeps (down_loop f n).
Proof. intros H. induction n; cbn [down_loop]; kp. Qed.
Lemma mk_destroy_one i : mkeeps (destroy_one E i).
Proof. unfold destroy_one. kp. Qed.
Hint Resolve mk_allocate mk_dealloc_one mk_down mk_destroy_one : keeps.
Lemma mk_deallocate : mkeeps (deallocate_mixin_data E).
Proof. unfold deallocate_mixin_data. kp. Qed.
Lemma mk_destroy_new : mkeeps (destroy_new_mixins E).
Proof. unfold destroy_new_mixins. kp. Qed.
Hint Resolve mk_deallocate mk_destroy_new : keeps.
Lemma mk_rollback : mkeeps (rollback E).
Proof. unfold rollback. kp. Qed.
Lemma mk_finalize_one ob ot i : mkeeps (finalize_one E U ob ot i).
Proof. unfold finalize_one. kp. Qed.
Hint Resolve mk_rollback mk_finalize_one : keeps.
Lemma mk_finalize_loop ob ot l : mkeeps (finalize_loop E U ob ot l).
Proof. induction l; cbn [finalize_loop]; kp. Qed.
Lemma mk_install : mkeeps install.
Proof. unfold install. kp. Qed.
Hint Resolve mk_finalize_loop mk_install : keeps.
Lemma mk_finalize : mkeeps (finalize E U).
Proof. unfold finalize. kp. Qed.
Hint Resolve mk_finalize : keeps.

Definition cbk (cn : cb_new) : Prop := forall m p i, keeps (cn m p i).
Definition ucbk (uc : cb_common) : Prop := forall m p i j, keeps (uc m p i j).
Lemma mk_update_next cn uc : cbk cn -> ucbk uc -> mkeeps (update_next cn uc).
Proof. intros H1 H2. unfold cbk, ucbk in *. unfold update_next. kp. Qed.
Hint Resolve mk_update_next : keeps.
Lemma mk_turns cn uc n : cbk cn -> ucbk uc -> mkeeps (update_turns cn uc n).
Proof. intros H1 H2. induction n; cbn [update_turns]; kp. Qed.
Hint Resolve mk_turns : keeps.
Lemma mk_each cn uc u : cbk cn -> ucbk uc -> mkeeps (update_each cn uc u).
Proof. intros H1 H2. unfold update_each. kp. Qed.
Lemma ck_noop : ucbk noop_common.
Proof. intros m p i j. unfold noop_common. kp. Qed.
Lemma ck_default : cbk (default_init E U).
Proof. intros m p i. unfold default_init. kp. Qed.
Hint Resolve mk_each ck_noop ck_default : keeps.
Lemma mk_default u : mkeeps (default_each E U u).
Proof. unfold default_each, construct_each. kp. Qed.
Hint Resolve mk_default : keeps.
Lemma mk_update_at i cn uc : cbk cn -> ucbk uc -> mkeeps (update_at E U i cn uc).
Proof. intros H1 H2. unfold update_at. kp. Qed.
Hint Resolve mk_update_at : keeps.
Lemma mk_start x : mkeeps (start E U x).
Proof. unfold start. kp. Qed.
Lemma mk_unwind A e : mkeeps (unwind E e : M mst A).
Proof. unfold unwind. kp. Qed.
Hint Resolve mk_start mk_unwind : keeps.
Lemma mk_catch A (x : M mst unit) (f : exn -> M mst A) (g : unit -> M mst A) : mkeeps x -> (forall e, mkeeps (f e)) -> (forall a, mkeeps (g a)) ->
  mkeeps (fun p => match x p with (p', Throw e) => f e p' | (p', Ok a) => g a p' | (p', Ub u) => (p', Ub u) end).
Proof. intros H1 H2 H3 p H. specialize (H1 p H). destruct (x p) as [p' [a|e|u]]; cbn in *; [apply H3|apply H2|]; exact H1. Qed.
Lemma mk_finish unw : mkeeps (finish E U unw).
Proof.
  unfold finish. kp. apply (mk_catch unit (default_each E U None) (fun e => rollback E;; raise e) (fun _ => finalize E U)); intros; kp.
Qed.
Hint Resolve mk_finish : keeps.
Lemma k_get_old x : keeps (get_old x).
Proof. unfold get_old. kp. Qed.
Hint Resolve k_get_old : keeps.
Lemma k_perform unw o r body : mkeeps body -> keeps (perform E U unw o r body).
Proof.
  intros Hb. unfold perform. kp. intros s H.
  assert (H1 : mkeeps (start E U a;; body)) by kp. specialize (H1 (new_mut o a a0 r a1, s) H). destruct ((start E U a;; body) (new_mut o a a0 r a1, s)) as [p [x|e|u]]; cbn in H1.
  - pose proof (mk_finish unw p H1) as H2. destruct (finish E U unw p) as [[mu' s'] res]. exact H2.
  - pose proof (mk_unwind unit e p H1) as H2. destruct (unwind E e p) as [[mu' s'] res]. exact H2.
  - destruct p. exact H1.
Qed.
Hint Resolve k_perform : keeps.

(** ** Objects *)
Lemma k_the_type x : keeps (the_type x).
Proof. unfold the_type. kp. Qed.
Lemma k_fresh o : keeps (fresh_obj o).
Proof. intros s H. unfold fresh_obj. destruct (s_obj s o); exact H. Qed.
Lemma k_mod o f : keeps (mod_obj o f).
Proof. unfold mod_obj. kp. Qed.
Lemma k_run_mut mu a : mkeeps a -> keeps (run_mut mu a).
Proof. intros Ha s H. unfold run_mut. specialize (Ha (mu, s) H). destruct (a (mu, s)) as [[mu' s'] r]. exact Ha. Qed.
Hint Resolve k_the_type k_fresh k_mod k_run_mut : keeps.
Lemma k_clear_data o : keeps (clear_mixin_data E o).
Proof. unfold clear_mixin_data. kp. Qed.
Lemma k_redirect b o l : keeps (redirect_loop b o l).
Proof. induction l; cbn [redirect_loop]; kp. Qed.
Hint Resolve k_clear_data k_redirect : keeps.
Lemma k_usurp o src : keeps (usurp o src).
Proof. unfold usurp. kp. Qed.
Lemma k_dtor o : keeps (obj_dtor E o).
Proof. unfold obj_dtor. kp. Qed.
Lemma k_reset unw o r : keeps (reset_type E U unw o r).
Proof. unfold reset_type. kp. Qed.
Hint Resolve k_usurp k_dtor k_reset : keeps.
Lemma k_with_new o a body : keeps body -> keeps (with_new E o a body).
Proof.
  intros Hb. unfold with_new. kp. intros s H. specialize (Hb s H). destruct (body s) as [s' [x|e|u]]; cbn in *; auto.
  assert (Hk : keeps (obj_dtor E o;; raise e : M st unit)) by kp. now apply Hk.
Qed.
Hint Resolve k_with_new : keeps.
Lemma k_data_at x i : keeps (data_at x i).
Proof. unfold data_at. kp. Qed.
Lemma k_the_mid : keeps the_mid.
Proof. intros s H. exact H. Qed.
Hint Resolve k_data_at k_the_mid : keeps.
Lemma ck_copy_new y : cbk (copy_new E U y).
Proof. intros m p i. unfold copy_new. kp. Qed.
Lemma ck_copy_common y : ucbk (copy_common E U y).
Proof. intros m p i j. unfold copy_common. kp. Qed.
Lemma ck_copy_checked y : cbk (copy_new_checked E U y).
Proof. intros m p i. unfold copy_new_checked. kp. Qed.
Hint Resolve ck_copy_new ck_copy_common ck_copy_checked : keeps.
Lemma mk_construct_each cn u : cbk cn -> mkeeps (construct_each cn u).
Proof. intros H. unfold construct_each. kp. Qed.
Hint Resolve mk_construct_each : keeps.
Lemma k_cmatch_loop mid x y own l : keeps (copy_matching_loop E U mid x y own l).
Proof. induction l as [|[i m] l IH]; cbn [copy_matching_loop]; kp. Qed.
Lemma k_mmatch_loop fb mid x y own l : keeps (move_matching_loop E U fb mid x y own l).
Proof. induction l as [|[i m] l IH]; cbn [move_matching_loop]; kp. Qed.
Hint Resolve k_cmatch_loop k_mmatch_loop : keeps.
Lemma ck_do_init k m : cbk (do_init E U k m).
Proof. intros m' p i. unfold do_init. kp. Qed.
Hint Resolve ck_do_init : keeps.
Lemma mk_ops_loop l : mkeeps (ops_loop E U l).
Proof. induction l as [|[[k m] i] l IH]; cbn [ops_loop]; kp. Qed.
Hint Resolve mk_ops_loop : keeps.
Lemma k_mutate_to unw o r ops : keeps (mutate_to E U unw o r ops).
Proof. unfold mutate_to. kp. Qed.
Lemma k_mutated_type aok t f : keeps (mutated_type E aok t f).
Proof. unfold mutated_type. kp. Qed.
Hint Resolve k_mutate_to k_mutated_type : keeps.
Lemma ck_wrap_init c : cbk (wrap_init E U c).
Proof. intros m p i. unfold wrap_init. destruct (co_init c); kp. Qed.
Lemma ck_wrap_update c : ucbk (wrap_update U c).
Proof. intros m p i j. unfold wrap_update. destruct (co_update c); kp. Qed.
Lemma ck_wrap_cop c : cbk (wrap_cop E U c).
Proof. intros m p i. unfold wrap_cop. destruct (cp_init c); kp. Qed.
Lemma ck_user_new k : cbk (user_new E U k).
Proof. intros m p i. unfold user_new. kp. Qed.
Lemma ck_user_common k : ucbk (user_common U k).
Proof. intros m p i j. unfold user_common. kp. Qed.
Hint Resolve ck_wrap_init ck_wrap_update ck_wrap_cop ck_user_new ck_user_common : keeps.
Lemma mk_cover_loop cs l : mkeeps (cover_loop E U cs l).
Proof. induction l as [|[i m] l IH]; cbn [cover_loop]; kp. Qed.
Lemma mk_cop_loop cs l : mkeeps (cop_loop E U cs l).
Proof. induction l as [|[i m] l IH]; cbn [cop_loop]; kp. Qed.
Lemma mk_pstep p : mkeeps (run_pstep E U p).
Proof. destruct p; cbn [run_pstep]; kp. Qed.
Hint Resolve mk_cover_loop mk_cop_loop mk_pstep : keeps.
Lemma mk_psteps l : mkeeps (run_psteps E U l).
Proof. induction l; cbn [run_psteps]; kp. Qed.
Hint Resolve mk_psteps : keeps.

Lemma k_op op : keeps (op_run E U op).
Proof.
  destruct op; cbn [op_run]; unfold new_empty, new_of_type, new_moved, move_assign, copy, copy_from, copy_matching_from, move_matching_from, clear, seal, mutate, gradual, c_mutate_to, c_mutate, piecewise, use_mixin; repeat first [progress kp | simple apply k_with_new].
Qed.

Lemma orun_given ok tr s : orun E U ok tr s -> forall f m p src err, In (EvCall f m p src err) (s_log s) -> has_fn (e_mixin E m) f = true.
Proof.
  intros H. assert (L : linked s); [|intros f m p src err Hi; exact (proj1 (Forall_forall _ _) L _ Hi)].
  induction H as [|tr s op r s' _ IH _ Hrun _]; [constructor|]. pose proof (k_op op s IH) as H. now rewrite Hrun in H.
Qed.
End CalledP.
