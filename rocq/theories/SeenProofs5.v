(** What functions of mixins see: every event of the log comes with its snapshot *)
From Coq Require Import List Arith ZArith NArith Lia Bool.
From Verif Require Import Base Sv Info MixinInfo TypeMut TypeBuild TypeQuery Domain Heap Mutation Object SpecObj.
Import ListNotations.

Definition J (s : st) : Prop := map fst (s_seen s) = s_log s.
Definition lg {A} (x : M st A) : Prop := forall s s' r, x s = (s', r) -> J s -> J s'.
Definition lgm {A} (x : M mst A) : Prop := forall p p' r, x p = (p', r) -> J (snd p) -> J (snd p').

Section Log.
Variable E : env.
Variable U : user.
Lemma lg_bnd A B (x : M st A) (f : A -> M st B) : lg x -> (forall a, lg (f a)) -> lg (bnd x f).
Proof.
  intros Hx Hf s s' r. unfold bnd. destruct (x s) as [s1 [a|e|u]] eqn:Hs; intros Hr HJ; pose proof (Hx _ _ _ Hs HJ) as H1; [exact (Hf a _ _ _ Hr H1)|injection Hr as <- <-; auto|injection Hr as <- <-; auto].
Qed.
Lemma lgm_bnd A B (x : M mst A) (f : A -> M mst B) : lgm x -> (forall a, lgm (f a)) -> lgm (bnd x f).
Proof.
  intros Hx Hf s s' r. unfold bnd. destruct (x s) as [s1 [a|e|u]] eqn:Hs; intros Hr HJ; pose proof (Hx _ _ _ Hs HJ) as H1; [exact (Hf a _ _ _ Hr H1)|injection Hr as <- <-; auto|injection Hr as <- <-; auto].
Qed.
Lemma lg_const A (f : st -> res A) : lg (fun s => (s, f s)).
Proof. intros s s' r [= <- <-]. auto. Qed.
Lemma lgm_const A (f : mst -> res A) : lgm (fun s => (s, f s)).
Proof. intros s s' r [= <- <-]. auto. Qed.
Lemma lg_ret A (a : A) : lg (ret a). Proof. apply (lg_const _ (fun _ => Ok a)). Qed.
Lemma lg_raise A e : lg (raise e : M st A). Proof. apply (lg_const _ (fun _ => Throw e)). Qed.
Lemma lg_ub A u : lg (ub u : M st A). Proof. apply (lg_const _ (fun _ => Ub u)). Qed.
Lemma lgm_ret A (a : A) : lgm (ret a). Proof. apply (lgm_const _ (fun _ => Ok a)). Qed.
Lemma lgm_raise A e : lgm (raise e : M mst A). Proof. apply (lgm_const _ (fun _ => Throw e)). Qed.
Lemma lgm_ub A u : lgm (ub u : M mst A). Proof. apply (lgm_const _ (fun _ => Ub u)). Qed.
Lemma lg_upd (f : st -> st) : (forall s, s_seen (f s) = s_seen s /\ s_log (f s) = s_log s) -> lg (fun s => (f s, Ok tt)).
Proof. intros H s s' r [= <- <-]. unfold J. destruct (H s) as [-> ->]. auto. Qed.
Lemma j_log s e : J s -> J (add_log s e).
Proof. unfold J. cbn. intros H. now rewrite map_app, H. Qed.
Lemma lg_lift A (x : M st A) : lg x -> lgm (lift x).
Proof. intros H p p' r. unfold lift. destruct (x (snd p)) as [s1 r1] eqn:Hs. intros [= <- <-] HJ. cbn. eapply H; eauto. Qed.
Lemma lgm_get : lgm get_mu. Proof. intros p p' r [= <- <-]. auto. Qed.
Lemma lgm_set f : lgm (set_mu f). Proof. intros p p' r [= <- <-]. auto. Qed.
Lemma lgm_mid : lgm get_mid. Proof. intros p p' r [= <- <-]. auto. Qed.

Hint Resolve lg_ret lg_raise lg_ub lg_const lgm_ret lgm_raise lgm_ub lgm_get lgm_set lgm_mid : lg.
Ltac step := first [solve [auto with lg] | apply lg_bnd; [|intros] | apply lgm_bnd; [|intros] | apply lg_lift |
  match goal with |- lg (match ?x with _ => _ end) => destruct x | |- lgm (match ?x with _ => _ end) => destruct x end].
Ltac go := repeat step.

Lemma lg_obj c : lg (get_obj c).
Proof. unfold get_obj. intros s s' r. destruct (s_obj s c); intros [= <- <-]; auto. Qed.
Lemma lg_ty c : lg (get_ty c).
Proof. unfold get_ty. intros s s' r. destruct (w_type (s_w s) c); intros [= <- <-]; auto. Qed.
Lemma lg_put c x : lg (put_obj c x).
Proof. intros s s' r [= <- <-]. auto. Qed.
Lemma lg_world A (f : world -> world * res A) : lg (on_world f).
Proof. intros s s' r. unfold on_world. intros [= <- <-]. auto. Qed.
Lemma lg_blk b : lg (get_blk b).
Proof. unfold get_blk. intros s s' r. destruct (s_blk s b); intros [= <- <-]; auto. Qed.
Lemma lg_fresh c : lg (fresh_obj c).
Proof. unfold fresh_obj. intros s s' r. destruct (s_obj s c); intros [= <- <-]; auto. Qed.
Lemma lg_mid : lg the_mid.
Proof. intros s s' r [= <- <-]. auto. Qed.
Hint Resolve lg_obj lg_ty lg_put lg_world lg_blk lg_fresh lg_mid : lg.
Lemma lg_read b i : lg (read_data b i).
Proof. unfold read_data. go. Qed.
Ltac prim := let s := fresh "s" in let s' := fresh "s'" in let r := fresh "r" in intros s s' r [= <- <-]; auto.
Lemma lg_write b i d : lg (write_data b i d).
Proof. unfold write_data. go; prim. Qed.
Lemma lg_set q c : lg (set_object q c).
Proof. unfold set_object. go; prim. Qed.
Hint Resolve lg_read lg_write lg_set : lg.
Lemma lg_tick : lg (tick U).
Proof. unfold tick. prim. Qed.
Lemma lg_note e : lg (fun s => (add_log s e, Ok tt)).
Proof. intros s s' r [= <- <-]. apply j_log. Qed.
Hint Resolve lg_tick lg_note : lg.
Lemma lg_alloc a n k : lg (alloc U a n k).
Proof.
  unfold alloc. go; try (intros s s' r [= <- <-] H; unfold J in *; cbn; rewrite ?map_app, H; reflexivity).
Qed.
Lemma lg_free a b n k : lg (free E a b n k).
Proof. unfold free. go; try (intros s s' r [= <- <-] H; unfold J in *; cbn; rewrite ?map_app, H; reflexivity). Qed.
Hint Resolve lg_alloc lg_free : lg.
Lemma lg_live m p : lg (live m p). Proof. unfold live. go. Qed.
Lemma lg_vacant p : lg (vacant E p). Proof. unfold vacant. go. Qed.
Lemma lg_putblk b k : lg (put_blk b k). Proof. prim. Qed.
Lemma lg_emit e : lg (emit e). Proof. apply lg_note. Qed.
Hint Resolve lg_live lg_vacant lg_putblk lg_emit : lg.
Lemma lg_put_inst p x : lg (put_inst p x). Proof. unfold put_inst. go. Qed.
Lemma lg_del_inst p : lg (del_inst p). Proof. unfold del_inst. go. Qed.
Hint Resolve lg_put_inst lg_del_inst : lg.
Lemma lg_construct f m p q : lg (construct E U f m p q). Proof. unfold construct. go. Qed.
Lemma lg_copy_asgn m p q : lg (copy_asgn U m p q). Proof. unfold copy_asgn. go. Qed.
Lemma lg_update k m p : lg (update U k m p). Proof. unfold update. go. Qed.
Lemma lg_move_init m p q : lg (move_init E U m p q). Proof. unfold move_init. go. Qed.
Lemma lg_move_asgn m p q : lg (move_asgn U m p q). Proof. unfold move_asgn. go. Qed.
Lemma lg_destroy m p : lg (destroy E m p). Proof. unfold destroy. go. Qed.
Lemma lg_abuf r t a : lg (allocate_object_buffer U r t a). Proof. unfold allocate_object_buffer. go. Qed.
Lemma lg_dbuf r t a b : lg (deallocate_object_buffer E r t a b). Proof. unfold deallocate_object_buffer. go. Qed.
Lemma lg_aext x m : lg (alloc_external E U x m). Proof. unfold alloc_external. go. Qed.
Lemma lg_fext x m b : lg (free_external E x m b). Proof. unfold free_external. go. Qed.
Hint Resolve lg_construct lg_copy_asgn lg_update lg_move_init lg_move_asgn lg_destroy lg_abuf lg_dbuf lg_aext lg_fext : lg.
Lemma lg_tmix mu ti : lgm (target_mixin mu ti). Proof. unfold target_mixin. go. Qed.
Lemma lg_toff mu ti : lgm (target_offset mu ti). Proof. unfold target_offset. go. Qed.
Lemma lg_tdat mu : lgm (target_data mu). Proof. unfold target_data. go. Qed.
Hint Resolve lg_tmix lg_toff lg_tdat : lg.
Lemma lg_alloc_one ti : lgm (alloc_one E U ti). Proof. unfold alloc_one. go. Qed.
Hint Resolve lg_alloc_one : lg.
Lemma lg_alloc_loop l : lgm (alloc_loop E U l). Proof. induction l; cbn; go. Qed.
Hint Resolve lg_alloc_loop : lg.
Lemma lg_allocate : lgm (allocate_mixin_data E U). Proof. unfold allocate_mixin_data. go. Qed.
Lemma lg_down f n : (forall i, lgm (f i)) -> lgm (down_loop f n). Proof. intros H. induction n; cbn; go; auto. Qed.
Lemma lg_dealloc_one ti : lgm (dealloc_one E ti). Proof. unfold dealloc_one. go. Qed.
Lemma lg_destroy_one ti : lgm (destroy_one E ti). Proof. unfold destroy_one. go. Qed.
Hint Resolve lg_allocate lg_down lg_dealloc_one lg_destroy_one : lg.
Lemma lg_deallocate : lgm (deallocate_mixin_data E). Proof. unfold deallocate_mixin_data. go. Qed.
Lemma lg_destroy_new : lgm (destroy_new_mixins E). Proof. unfold destroy_new_mixins. go. Qed.
Hint Resolve lg_deallocate lg_destroy_new : lg.
Lemma lg_rollback : lgm (rollback E). Proof. unfold rollback. go. Qed.
Lemma lg_fin_one ob ot oi : lgm (finalize_one E U ob ot oi). Proof. unfold finalize_one. go. Qed.
Hint Resolve lg_rollback lg_fin_one : lg.
Lemma lg_fin_loop ob ot l : lgm (finalize_loop E U ob ot l). Proof. induction l; cbn; go. Qed.
Lemma lg_install : lgm install. Proof. unfold install. go. Qed.
Hint Resolve lg_fin_loop lg_install : lg.
Lemma lg_finalize : lgm (finalize E U). Proof. unfold finalize. go. Qed.
Hint Resolve lg_finalize : lg.
Lemma lg_next cn uc : (forall m p i, lg (cn m p i)) -> (forall m p i j, lg (uc m p i j)) -> lgm (update_next cn uc).
Proof. intros H1 H2. unfold update_next. go; auto. Qed.
Lemma lg_turns cn uc n : (forall m p i, lg (cn m p i)) -> (forall m p i j, lg (uc m p i j)) -> lgm (update_turns cn uc n).
Proof. intros H1 H2. induction n; cbn; go; try (apply lg_next; auto). Qed.
Lemma lg_each cn uc u : (forall m p i, lg (cn m p i)) -> (forall m p i j, lg (uc m p i j)) -> lgm (update_each cn uc u).
Proof. intros H1 H2. unfold update_each. apply lgm_bnd; [auto with lg|]. intros. apply lg_turns; auto. Qed.
Lemma lg_noop m p i j : lg (noop_common m p i j). Proof. unfold noop_common. go. Qed.
Lemma lg_dinit m p i : lg (default_init E U m p i). Proof. unfold default_init. go. Qed.
Hint Resolve lg_next lg_each lg_noop lg_dinit : lg.
Lemma lg_constr cn u : (forall m p i, lg (cn m p i)) -> lgm (construct_each cn u).
Proof. intros H. unfold construct_each. auto with lg. Qed.
Lemma lg_default u : lgm (default_each E U u).
Proof. unfold default_each. apply lg_constr. auto with lg. Qed.
Hint Resolve lg_default lg_constr : lg.
Lemma lg_at i cn uc : (forall m p i, lg (cn m p i)) -> (forall m p i j, lg (uc m p i j)) -> lgm (update_at E U i cn uc).
Proof. intros H1 H2. unfold update_at. go. Qed.
Hint Resolve lg_at : lg.
Lemma lg_start x : lgm (start E U x). Proof. unfold start. go. Qed.
Lemma lg_unwind A e : lgm (unwind E e : M mst A). Proof. unfold unwind. go. Qed.
Lemma lg_finish unw : lgm (finish E U unw).
Proof.
  unfold finish. go. intros p p' r. destruct (default_each E U None p) as [p1 [z|e|u]] eqn:Hd; intros Hr HJ; pose proof (lg_default _ _ _ _ Hd HJ) as H1.
  - exact (lg_finalize _ _ _ Hr H1).
  - refine ((_ : lgm (bnd (rollback E) (fun _ => raise e))) _ _ _ Hr H1). go.
  - injection Hr as <- <-; auto.
Qed.
Hint Resolve lg_start lg_unwind lg_finish : lg.
Lemma lg_old x : lg (get_old x). Proof. unfold get_old. go. Qed.
Hint Resolve lg_old : lg.
Lemma lg_perform unw o r body : lgm body -> lg (perform E U unw o r body).
Proof.
  intros Hb. unfold perform. go. intros s s' q.
  assert (H0 : lgm (bnd (start E U a) (fun _ => body))) by (go; auto).
  destruct (bnd (start E U a) (fun _ => body) (new_mut o a a0 r a1, s)) as [p [x|e|u]] eqn:Hs; intros Hr HJ; pose proof (H0 _ _ _ Hs HJ) as H1.
  - destruct (finish E U unw p) as [[mu s1] r1] eqn:Hf. injection Hr as <- <-. exact (lg_finish _ _ _ _ Hf H1).
  - destruct (unwind E e p) as [[mu s1] r1] eqn:Hf. injection Hr as <- <-. exact (lg_unwind _ _ _ _ _ Hf H1).
  - destruct p. injection Hr as <- <-. auto.
Qed.
Hint Resolve lg_perform : lg.
Lemma lg_the_type x : lg (the_type x). Proof. unfold the_type. go. Qed.
Lemma lg_mod o f : lg (mod_obj o f). Proof. unfold mod_obj. go. Qed.
Lemma lg_run mu x : lgm x -> lg (run_mut mu x).
Proof. intros H s s' r. unfold run_mut. destruct (x (mu, s)) as [[mu' s1] r1] eqn:Hx. intros [= <- <-] HJ. exact (H _ _ _ Hx HJ). Qed.
Hint Resolve lg_the_type lg_mod lg_run : lg.
Lemma lg_clear_data o : lg (clear_mixin_data E o). Proof. unfold clear_mixin_data. go. Qed.
Lemma lg_redirect b o l : lg (redirect_loop b o l). Proof. induction l; cbn; go. Qed.
Hint Resolve lg_clear_data lg_redirect : lg.
Lemma lg_usurp o c : lg (usurp o c). Proof. unfold usurp. go. Qed.
Lemma lg_dtor o : lg (obj_dtor E o). Proof. unfold obj_dtor. go. Qed.
Hint Resolve lg_usurp lg_dtor : lg.
Lemma lg_reset unw o r : lg (reset_type E U unw o r). Proof. unfold reset_type. go. Qed.
Lemma lg_with o a body : lg body -> lg (with_new E o a body).
Proof.
  intros Hb. unfold with_new. go. intros s s' r. destruct (body s) as [s1 [x|e|u]] eqn:Hs; intros Hr HJ; pose proof (Hb _ _ _ Hs HJ) as H1.
  - injection Hr as <- <-; auto.
  - refine ((_ : lg (bnd (obj_dtor E o) (fun _ => raise e))) _ _ _ Hr H1). go.
  - injection Hr as <- <-; auto.
Qed.
Hint Resolve lg_reset lg_with : lg.
Lemma lg_data_at x i : lg (data_at x i). Proof. unfold data_at. go. Qed.
Hint Resolve lg_data_at : lg.
Lemma lg_copy_new y m p i : lg (copy_new E U y m p i). Proof. unfold copy_new. go. Qed.
Lemma lg_copy_common y m p i j : lg (copy_common E U y m p i j). Proof. unfold copy_common. go. Qed.
Lemma lg_copy_checked y m p i : lg (copy_new_checked E U y m p i). Proof. unfold copy_new_checked. go. Qed.
Hint Resolve lg_copy_new lg_copy_common lg_copy_checked : lg.
Lemma lg_copy_loop mid x y t l : lg (copy_matching_loop E U mid x y t l).
Proof. induction l as [|[si m] l IH]; cbn; go. Qed.
Lemma lg_move_loop fb mid x y t l : lg (move_matching_loop E U fb mid x y t l).
Proof. induction l as [|[si m] l IH]; cbn; go. Qed.
Hint Resolve lg_copy_loop lg_move_loop : lg.
Lemma lg_do_init k q m p i : lg (do_init E U k q m p i). Proof. unfold do_init. go. Qed.
Hint Resolve lg_do_init : lg.
Lemma lg_ops l : lgm (ops_loop E U l). Proof. induction l as [|[[k m] i] l IH]; cbn; go. Qed.
Hint Resolve lg_ops : lg.
Lemma lg_mutate_to unw o r l : lg (mutate_to E U unw o r l). Proof. unfold mutate_to. go. Qed.
Hint Resolve lg_mutate_to : lg.
Lemma lg_mtype aok t f : lg (mutated_type E aok t f). Proof. unfold mutated_type. go. Qed.
Hint Resolve lg_mtype : lg.
Lemma lg_wrap_init c m p i : lg (wrap_init E U c m p i). Proof. unfold wrap_init. go. Qed.
Lemma lg_wrap_update c m p i j : lg (wrap_update U c m p i j). Proof. unfold wrap_update. go. Qed.
Lemma lg_wrap_cop c m p i : lg (wrap_cop E U c m p i). Proof. unfold wrap_cop. go. Qed.
Hint Resolve lg_wrap_init lg_wrap_update lg_wrap_cop : lg.
Lemma lg_cover cs l : lgm (cover_loop E U cs l). Proof. revert cs. induction l as [|[i m] l IH]; intros cs; cbn; go. Qed.
Lemma lg_cops cs l : lgm (cop_loop E U cs l). Proof. revert cs. induction l as [|[i m] l IH]; intros cs; cbn; go. Qed.
Lemma lg_user_new k m p i : lg (user_new E U k m p i). Proof. unfold user_new. go. Qed.
Lemma lg_user_common k m p i j : lg (user_common U k m p i j). Proof. unfold user_common. go. Qed.
Hint Resolve lg_cover lg_cops lg_user_new lg_user_common : lg.
Lemma lg_pstep p : lgm (run_pstep E U p). Proof. unfold run_pstep. go. Qed.
Hint Resolve lg_pstep : lg.
Lemma lg_psteps l : lgm (run_psteps E U l). Proof. induction l; cbn; go. Qed.
Hint Resolve lg_psteps : lg.
Lemma lg_op op : lg (op_run E U op).
Proof.
  destruct op; cbn [op_run]; unfold new_empty, new_of_type, new_moved, move_assign, copy, copy_from, copy_matching_from, move_matching_from, clear, seal,
    mutate, gradual, c_mutate_to, c_mutate, piecewise; repeat (first [apply lg_with | step]).
Qed.

Lemma seen_log ok tr s : orun E U ok tr s -> map fst (s_seen s) = s_log s.
Proof. induction 1 as [|tr s op r s' _ IH _ Hr _]; [reflexivity|exact (lg_op _ _ _ _ Hr IH)]. Qed.
End Log.
