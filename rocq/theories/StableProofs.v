(** Calls of objects keep the types of the domains but for the numbers of objects, and all that is registered *)
From Coq Require Import List Arith ZArith NArith Lia Bool.
From Verif Require Import Base Sv BaseLemmas Info TypeMut Rules TypeBuild TypeQuery Domain ElemProofs TypesProofs HistProofs Heap Mutation Object.
Import ListNotations.
Open Scope res_scope.

(** Ids of types that are not yet used *)
Definition bounded (w : world) : Prop := forall k, w_next w <= k -> w_type w (TReg k) = None.
Definition types_go_on (w w' : world) : Prop := forall r t, w_type w r = Some t -> exists n, w_type w' r = Some (set_nobj t n).
Definition stable (w w' : world) : Prop := bounded w -> bounded w' /\ types_go_on w w' /\ same_elems w w'.
Lemma nobj_id t : set_nobj t (t_nobj t) = t.
Proof. now destruct t. Qed.
Lemma same_elems_refl w : same_elems w w.
Proof. repeat split. Qed.
Lemma same_elems_trans a b c : same_elems a b -> same_elems b c -> same_elems a c.
Proof. intros (A1 & A2 & A3 & A4) (B1 & B2 & B3 & B4). split; [congruence|]. split; [congruence|]. split; [congruence|]. intros d. destruct (A4 d), (B4 d). split; congruence. Qed.
Lemma stable_refl w : stable w w.
Proof. intros H. split; auto. split; [|apply same_elems_refl]. intros r t Ht. exists (t_nobj t). now rewrite nobj_id. Qed.
Lemma stable_trans a b c : stable a b -> stable b c -> stable a c.
Proof.
  intros H1 H2 Ha. destruct (H1 Ha) as (Hb & A1 & A2). destruct (H2 Hb) as (Hc & B1 & B2). split; auto. split; [|eapply same_elems_trans; eauto].
  intros r t Ht. destruct (A1 r t Ht) as (n & Hn). destruct (B1 r _ Hn) as (n' & Hn'). exists n'. exact Hn'.
Qed.
Lemma stable_set w r t n : w_type w r = Some t -> stable w (with_type w r (set_nobj t n)).
Proof.
  intros Ht Hb. split; [|split].
  - intros k Hk. cbn. unfold tupd. destruct (tref_eqb (TReg k) r) eqn:He; [|now apply Hb]. destruct r; cbn in He; [discriminate|]. apply Nat.eqb_eq in He. subst. rewrite (Hb _ Hk) in Ht. discriminate.
  - intros q t' Ht'. cbn. unfold tupd. destruct (tref_eqb q r) eqn:He; [|exists (t_nobj t'); now rewrite nobj_id]. assert (q = r) as -> by (destruct q, r; cbn in He; try discriminate; apply Nat.eqb_eq in He; now subst). exists n. congruence.
  - repeat split.
Qed.

Section Stable.
Variable E : env.
Variable U : user.
Definition hon {A} (x : M st A) : Prop := forall s s' r, x s = (s', r) -> stable (s_w s) (s_w s').
Definition mhon {A} (x : M mst A) : Prop := forall p p' r, x p = (p', r) -> stable (s_w (snd p)) (s_w (snd p')).

Lemma k_same A (x : M st A) : (forall s s' r, x s = (s', r) -> s_w s' = s_w s) -> hon x.
Proof. intros H s s' r Hr. rewrite (H _ _ _ Hr). apply stable_refl. Qed.
Lemma k_ret A (a : A) : hon (ret a).
Proof. apply k_same. now intros s s' r [= <- <-]. Qed.
Lemma k_ub A u : hon (ub u : M st A).
Proof. apply k_same. now intros s s' r [= <- <-]. Qed.
Lemma k_raise A e : hon (raise e : M st A).
Proof. apply k_same. now intros s s' r [= <- <-]. Qed.
Lemma k_const A (f : st -> res A) : hon (fun s => (s, f s)).
Proof. apply k_same. now intros s s' r [= <- <-]. Qed.
Lemma k_bnd A B (x : M st A) (f : A -> M st B) : hon x -> (forall a, hon (f a)) -> hon (bnd x f).
Proof.
  intros H1 H2 s s' r H. unfold bnd in H. destruct (x s) as [s1 [a|e|u]] eqn:Hx.
  - eapply stable_trans; [exact (H1 _ _ _ Hx)|exact (H2 a _ _ _ H)].
  - injection H as <- <-. exact (H1 _ _ _ Hx).
  - injection H as <- <-. exact (H1 _ _ _ Hx).
Qed.
Lemma mk_ret A (a : A) : mhon (ret a).
Proof. intros s s' r [= <- <-]. apply stable_refl. Qed.
Lemma mk_ub A u : mhon (ub u : M mst A).
Proof. intros s s' r [= <- <-]. apply stable_refl. Qed.
Lemma mk_raise A e : mhon (raise e : M mst A).
Proof. intros s s' r [= <- <-]. apply stable_refl. Qed.
Lemma mk_bnd A B (x : M mst A) (f : A -> M mst B) : mhon x -> (forall a, mhon (f a)) -> mhon (bnd x f).
Proof.
  intros H1 H2 s s' r H. unfold bnd in H. destruct (x s) as [s1 [a|e|u]] eqn:Hx.
  - eapply stable_trans; [exact (H1 _ _ _ Hx)|exact (H2 a _ _ _ H)].
  - injection H as <- <-. exact (H1 _ _ _ Hx).
  - injection H as <- <-. exact (H1 _ _ _ Hx).
Qed.
Lemma mk_lift A (x : M st A) : hon x -> mhon (lift x).
Proof. intros H [mu s] p' r Hx. unfold lift in Hx. cbn in Hx. destruct (x s) as [s1 r1] eqn:H1. injection Hx as <- <-. exact (H _ _ _ H1). Qed.
Lemma mk_get_mu : mhon get_mu.
Proof. intros s s' r [= <- <-]. apply stable_refl. Qed.
Lemma mk_set_mu f : mhon (set_mu f).
Proof. intros s s' r [= <- <-]. apply stable_refl. Qed.
Lemma mk_get_mid : mhon get_mid.
Proof. intros s s' r [= <- <-]. apply stable_refl. Qed.
Lemma k_get_obj o : hon (get_obj o).
Proof. apply k_same. intros s s' r. unfold get_obj. destruct (s_obj s o); now intros [= <- <-]. Qed.
Lemma k_get_ty o : hon (get_ty o).
Proof. apply k_same. intros s s' r. unfold get_ty. destruct (w_type (s_w s) o); now intros [= <- <-]. Qed.
Lemma k_get_blk o : hon (get_blk o).
Proof. apply k_same. intros s s' r. unfold get_blk. destruct (s_blk s o); now intros [= <- <-]. Qed.
Lemma k_put_obj o x : hon (put_obj o x).
Proof. apply k_same. now intros s s' r [= <- <-]. Qed.
Lemma k_put_blk o x : hon (put_blk o x).
Proof. apply k_same. now intros s s' r [= <- <-]. Qed.
Lemma k_tick : hon (tick U).
Proof. apply k_same. now intros s s' r [= <- <-]. Qed.
Lemma k_emit e : hon (emit e).
Proof. apply k_same. now intros s s' r [= <- <-]. Qed.
Lemma k_incr r : hon (on_world (fun w => incr_nobj w r)).
Proof. intros s s' x [= <- <-]. cbn. unfold incr_nobj. destruct (w_type (s_w s) r) eqn:Ht; [|apply stable_refl]. now apply stable_set. Qed.
Lemma k_decr r : hon (on_world (fun w => decr_nobj w r)).
Proof. intros s s' x [= <- <-]. cbn. unfold decr_nobj. destruct (w_type (s_w s) r) as [t|] eqn:Ht; [|apply stable_refl]. destruct (t_nobj t); [apply stable_refl|now apply stable_set]. Qed.
Lemma k_alloc a size align : hon (alloc U a size align).
Proof. apply k_same. intros s s' r H. unfold alloc, bnd, tick in H. destruct (Z.eqb_spec (an_err (u_ans U (s_calls s))) 0) as [He|He]; now injection H as <- <-. Qed.
Lemma k_free a b size align : hon (free E a b size align).
Proof.
  apply k_same. intros s s' r H. unfold free, bnd, get_blk in H. destruct (s_blk s b) as [k|]; [|now injection H as <- <-].
  destruct (aid_eqb (b_alloc k) a && (b_size k =? size)%N && (b_align k =? align)%N); [|now injection H as <- <-].
  destruct (all_dead E (b_inst k)); now injection H as <- <-.
Qed.

Hint Resolve k_ret k_ub k_raise k_const k_emit mk_raise mk_ret mk_ub mk_get_mu mk_set_mu mk_get_mid k_get_obj k_get_ty k_get_blk k_put_obj k_put_blk k_tick k_incr k_decr k_alloc k_free mk_lift : hon.
Ltac kp := repeat first [ progress eauto with hon | simple apply k_bnd; [|intros ?] | simple apply mk_bnd; [|intros ?] | simple apply mk_lift
  | match goal with
    | |- hon (match ?x with _ => _ end) => destruct x
    | |- mhon (match ?x with _ => _ end) => destruct x
    | |- mhon (lift (match ?x with _ => _ end)) => destruct x
    end ].

Lemma k_read_data b i : hon (read_data b i).
Proof. unfold read_data. kp. Qed.
Lemma k_write_data b i d : hon (write_data b i d).
Proof. unfold write_data. kp. Qed.
Lemma k_set_object p o : hon (set_object p o).
Proof. unfold set_object. kp. Qed.
Lemma k_live m p : hon (live m p).
Proof. unfold live. kp. Qed.
Lemma k_vacant p : hon (vacant E p).
Proof. unfold vacant. kp. Qed.
Lemma k_put_inst p x : hon (put_inst p x).
Proof. unfold put_inst. kp. Qed.
Lemma k_del_inst p : hon (del_inst p).
Proof. unfold del_inst. kp. Qed.
Hint Resolve k_read_data k_write_data k_set_object k_live k_vacant k_put_inst k_del_inst : hon.

Lemma k_construct f m p src : hon (construct E U f m p src).
Proof. unfold construct. kp. Qed.
Lemma k_copy_asgn m p src : hon (copy_asgn U m p src).
Proof. unfold copy_asgn. kp. Qed.
Lemma k_update k m p : hon (update U k m p).
Proof. unfold update. kp. Qed.
Lemma k_move_init m p src : hon (move_init E U m p src).
Proof. unfold move_init. kp. Qed.
Lemma k_move_asgn m p src : hon (move_asgn U m p src).
Proof. unfold move_asgn. kp. Qed.
Lemma k_destroy m p : hon (destroy E m p).
Proof. unfold destroy. kp. Qed.
Hint Resolve k_construct k_copy_asgn k_update k_move_init k_move_asgn k_destroy : hon.

Lemma mk_target_mixin mu i : mhon (target_mixin mu i).
Proof. unfold target_mixin. kp. Qed.
Lemma mk_target_offset mu i : mhon (target_offset mu i).
Proof. unfold target_offset. kp. Qed.
Lemma mk_target_data mu : mhon (target_data mu).
Proof. unfold target_data. kp. Qed.
Hint Resolve mk_target_mixin mk_target_offset mk_target_data : hon.
Lemma k_aob r t a : hon (allocate_object_buffer U r t a).
Proof. unfold allocate_object_buffer. kp. Qed.
Lemma k_dob r t a b : hon (deallocate_object_buffer E r t a b).
Proof. unfold deallocate_object_buffer. kp. Qed.
Lemma k_alloc_external o m : hon (alloc_external E U o m).
Proof. unfold alloc_external. kp. Qed.
Lemma k_free_external o m b : hon (free_external E o m b).
Proof. unfold free_external. kp. Qed.
Hint Resolve k_aob k_dob k_alloc_external k_free_external : hon.
Lemma mk_alloc_one i : mhon (alloc_one E U i).
Proof. unfold alloc_one. kp. Qed.
Hint Resolve mk_alloc_one : hon.
Lemma mk_alloc_loop l : mhon (alloc_loop E U l).
Proof. induction l; cbn [alloc_loop]; kp. Qed.
Hint Resolve mk_alloc_loop : hon.
Lemma mk_allocate : mhon (allocate_mixin_data E U).
Proof. unfold allocate_mixin_data. kp. Qed.
Lemma mk_dealloc_one i : mhon (dealloc_one E i).
Proof. unfold dealloc_one. kp. Qed.
Lemma mk_down f n : (forall i, mhon (f i)) -> mhon (down_loop f n).
Proof. intros H. induction n; cbn [down_loop]; kp. Qed.
Lemma mk_destroy_one i : mhon (destroy_one E i).
Proof. unfold destroy_one. kp. Qed.
Hint Resolve mk_allocate mk_dealloc_one mk_down mk_destroy_one : hon.
Lemma mk_deallocate : mhon (deallocate_mixin_data E).
Proof. unfold deallocate_mixin_data. kp. Qed.
Lemma mk_destroy_new : mhon (destroy_new_mixins E).
Proof. unfold destroy_new_mixins. kp. Qed.
Hint Resolve mk_deallocate mk_destroy_new : hon.
Lemma mk_rollback : mhon (rollback E).
Proof. unfold rollback. kp. Qed.
Lemma mk_finalize_one ob ot i : mhon (finalize_one E U ob ot i).
Proof. unfold finalize_one. kp. Qed.
Hint Resolve mk_rollback mk_finalize_one : hon.
Lemma mk_finalize_loop ob ot l : mhon (finalize_loop E U ob ot l).
Proof. induction l; cbn [finalize_loop]; kp. Qed.
Lemma mk_install : mhon install.
Proof. unfold install. kp. Qed.
Hint Resolve mk_finalize_loop mk_install : hon.
Lemma mk_finalize : mhon (finalize E U).
Proof. unfold finalize. kp. Qed.
Hint Resolve mk_finalize : hon.

Definition cbk (cn : cb_new) : Prop := forall m p i, hon (cn m p i).
Definition ucbk (uc : cb_common) : Prop := forall m p i j, hon (uc m p i j).
Lemma mk_update_next cn uc : cbk cn -> ucbk uc -> mhon (update_next cn uc).
Proof. intros H1 H2. unfold cbk, ucbk in *. unfold update_next. kp. Qed.
Hint Resolve mk_update_next : hon.
Lemma mk_turns cn uc n : cbk cn -> ucbk uc -> mhon (update_turns cn uc n).
Proof. intros H1 H2. induction n; cbn [update_turns]; kp. Qed.
Hint Resolve mk_turns : hon.
Lemma mk_each cn uc u : cbk cn -> ucbk uc -> mhon (update_each cn uc u).
Proof. intros H1 H2. unfold update_each. kp. Qed.
Lemma ck_noop : ucbk noop_common.
Proof. intros m p i j. unfold noop_common. kp. Qed.
Lemma ck_default : cbk (default_init E U).
Proof. intros m p i. unfold default_init. kp. Qed.
Hint Resolve mk_each ck_noop ck_default : hon.
Lemma mk_default u : mhon (default_each E U u).
Proof. unfold default_each, construct_each. kp. Qed.
Hint Resolve mk_default : hon.
Lemma mk_update_at i cn uc : cbk cn -> ucbk uc -> mhon (update_at E U i cn uc).
Proof. intros H1 H2. unfold update_at. kp. Qed.
Hint Resolve mk_update_at : hon.
Lemma mk_start x : mhon (start E U x).
Proof. unfold start. kp. Qed.
Hint Resolve mk_start : hon.

Lemma mk_unwind A e : mhon (unwind E e : M mst A).
Proof. unfold unwind. kp. Qed.
Lemma mk_finish unw : mhon (finish E U unw).
Proof.
  unfold finish. kp. intros p p' r H. destruct (default_each E U None p) as [p1 [[]|e|u]] eqn:H1; pose proof (mk_default _ _ _ _ H1) as H2.
  - eapply stable_trans; [exact H2|exact (mk_finalize _ _ _ H)].
  - eapply stable_trans; [exact H2|]. assert (H3 : mhon (rollback E;; raise e : M mst unit)) by kp. exact (H3 _ _ _ H).
  - injection H as <- <-. exact H2.
Qed.
Lemma k_get_old x : hon (get_old x).
Proof. unfold get_old. kp. Qed.
Hint Resolve k_get_old : hon.
Lemma k_perform unw o r body : mhon body -> hon (perform E U unw o r body).
Proof.
  intros Hb. unfold perform. kp. intros s s' res H.
  assert (H1 : mhon (start E U a;; body)) by kp. destruct ((start E U a;; body) (new_mut o a a0 r a1, s)) as [p [[]|e|u]] eqn:Hp; pose proof (H1 _ _ _ Hp) as H2; cbn in H2.
  - destruct (finish E U unw p) as [[mu' s2] res2] eqn:H3. injection H as <- <-. eapply stable_trans; [exact H2|exact (mk_finish unw _ _ _ H3)].
  - destruct (unwind E e p) as [[mu' s2] res2] eqn:H3. injection H as <- <-. eapply stable_trans; [exact H2|exact (mk_unwind _ _ _ _ _ H3)].
  - destruct p. injection H as <- <-. exact H2.
Qed.
Hint Resolve k_perform : hon.

(** ** Objects *)
Lemma k_the_type x : hon (the_type x).
Proof. unfold the_type. kp. Qed.
Lemma k_fresh o : hon (fresh_obj o).
Proof. apply k_same. intros s s' r. unfold fresh_obj. destruct (s_obj s o); now intros [= <- <-]. Qed.
Lemma k_mod o f : hon (mod_obj o f).
Proof. unfold mod_obj. kp. Qed.
Lemma k_run_mut mu a : mhon a -> hon (run_mut mu a).
Proof. intros Ha s s' r H. unfold run_mut in H. destruct (a (mu, s)) as [[mu' s2] r2] eqn:H1. injection H as <- <-. exact (Ha _ _ _ H1). Qed.
Hint Resolve k_the_type k_fresh k_mod k_run_mut : hon.
Lemma k_clear_data o : hon (clear_mixin_data E o).
Proof. unfold clear_mixin_data. kp. Qed.
Lemma k_redirect b o l : hon (redirect_loop b o l).
Proof. induction l; cbn [redirect_loop]; kp. Qed.
Hint Resolve k_clear_data k_redirect : hon.
Lemma k_usurp o src : hon (usurp o src).
Proof. unfold usurp. kp. Qed.
Lemma k_dtor o : hon (obj_dtor E o).
Proof. unfold obj_dtor. kp. Qed.
Lemma k_reset unw o r : hon (reset_type E U unw o r).
Proof. unfold reset_type. kp. Qed.
Hint Resolve k_usurp k_dtor k_reset : hon.
Lemma k_with_new o a body : hon body -> hon (with_new E o a body).
Proof.
  intros Hb. unfold with_new. kp. intros s s' r H. destruct (body s) as [s1 [x|e|u]] eqn:H1; pose proof (Hb _ _ _ H1) as H2; try (injection H as <- <-; exact H2).
  eapply stable_trans; [exact H2|]. assert (H3 : hon (obj_dtor E o;; raise e : M st unit)) by kp. exact (H3 _ _ _ H).
Qed.
Hint Resolve k_with_new : hon.
Lemma k_data_at x i : hon (data_at x i).
Proof. unfold data_at. kp. Qed.
Lemma k_the_mid : hon the_mid.
Proof. apply k_const. Qed.
Hint Resolve k_data_at k_the_mid : hon.
Lemma ck_copy_new y : cbk (copy_new E U y).
Proof. intros m p i. unfold copy_new. kp. Qed.
Lemma ck_copy_common y : ucbk (copy_common E U y).
Proof. intros m p i j. unfold copy_common. kp. Qed.
Lemma ck_copy_checked y : cbk (copy_new_checked E U y).
Proof. intros m p i. unfold copy_new_checked. kp. Qed.
Hint Resolve ck_copy_new ck_copy_common ck_copy_checked : hon.
Lemma mk_construct_each cn u : cbk cn -> mhon (construct_each cn u).
Proof. intros H. unfold construct_each. kp. Qed.
Hint Resolve mk_construct_each : hon.
Lemma k_cmatch_loop mid x y own l : hon (copy_matching_loop E U mid x y own l).
Proof. induction l as [|[i m] l IH]; cbn [copy_matching_loop]; kp. Qed.
Lemma k_mmatch_loop fb mid x y own l : hon (move_matching_loop E U fb mid x y own l).
Proof. induction l as [|[i m] l IH]; cbn [move_matching_loop]; kp. Qed.
Hint Resolve k_cmatch_loop k_mmatch_loop : hon.
Lemma ck_do_init k m : cbk (do_init E U k m).
Proof. intros m' p i. unfold do_init. kp. Qed.
Hint Resolve ck_do_init : hon.
Lemma mk_ops_loop l : mhon (ops_loop E U l).
Proof. induction l as [|[[k m] i] l IH]; cbn [ops_loop]; kp. Qed.
Hint Resolve mk_ops_loop : hon.

Lemma k_mutate_to unw o r ops : hon (mutate_to E U unw o r ops).
Proof. unfold mutate_to. kp. Qed.
Hint Resolve k_mutate_to : hon.

Lemma stable_same w w' : w_type w' = w_type w -> w_next w' = w_next w -> same_elems w w' -> stable w w'.
Proof. intros H1 H2 H3 Hb. split; [intros k Hk; rewrite H1; apply Hb; congruence|]. split; auto. intros r t Ht. exists (t_nobj t). now rewrite nobj_id, H1. Qed.
Lemma stable_get_type aok w d dm q : stable w (fst (get_type_mut E aok w d dm q)).
Proof.
  pose proof (same_elems_get_type_mut E aok w d dm q) as Hs. revert Hs. unfold get_type_mut. destruct (negb (dm =? d)); [intros _; apply stable_refl|].
  destruct (lookup_type E w d q) as [[t|oq ms [t|]]| |]; try (intros _; apply stable_refl).
  - intros Hs. now apply stable_same.
  - destruct (build_type E _ _ _ aok d ms) as [t| |]; try (intros _; apply stable_refl). unfold insert_type. destruct (find_type w (t_mixins t) _); cbn; intros Hs; [now apply stable_same|].
    intros Hb. split; [|split; auto].
    + intros k Hk. cbn in Hk |- *. unfold tupd. destruct (tref_eqb (TReg k) (TReg (w_next w))) eqn:He; [cbn in He; apply Nat.eqb_eq in He; lia|]. apply Hb. lia.
    + intros r t' Ht. exists (t_nobj t'). rewrite nobj_id. cbn. unfold tupd. destruct (tref_eqb r (TReg (w_next w))) eqn:He; auto. destruct r as [d'|k]; cbn in He; [discriminate|]. apply Nat.eqb_eq in He. subst. rewrite (Hb (w_next w) (le_n _)) in Ht. discriminate.
Qed.
Lemma k_mutated_type aok t f : hon (mutated_type E aok t f).
Proof. unfold mutated_type. kp. intros s s' r [= <- <-]. apply stable_get_type. Qed.
Lemma ck_wrap_init c : cbk (wrap_init E U c).
Proof. intros m p i. unfold wrap_init. destruct (co_init c); kp. Qed.
Lemma ck_wrap_update c : ucbk (wrap_update U c).
Proof. intros m p i j. unfold wrap_update. destruct (co_update c); kp. Qed.
Lemma ck_wrap_cop c : cbk (wrap_cop E U c).
Proof. intros m p i. unfold wrap_cop. destruct (cp_init c); kp. Qed.
Lemma ck_user_new k : cbk (user_new E U k).
Proof. intros m p i. unfold user_new. kp. Qed.
Lemma ck_user_common k : ucbk (user_common U k).
Proof. intros m p i j. unfold user_common. kp. Qed.
Hint Resolve ck_wrap_init ck_wrap_update ck_wrap_cop ck_user_new ck_user_common : hon.
Lemma mk_cover_loop cs l : mhon (cover_loop E U cs l).
Proof. induction l as [|[i m] l IH]; cbn [cover_loop]; kp. Qed.
Lemma mk_cop_loop cs l : mhon (cop_loop E U cs l).
Proof. induction l as [|[i m] l IH]; cbn [cop_loop]; kp. Qed.
Lemma mk_pstep p : mhon (run_pstep E U p).
Proof. destruct p; cbn [run_pstep]; kp. Qed.
Hint Resolve mk_cover_loop mk_cop_loop mk_pstep : hon.
Lemma mk_psteps l : mhon (run_psteps E U l).
Proof. induction l; cbn [run_psteps]; kp. Qed.
Hint Resolve mk_psteps : hon.
Lemma k_op op : match op with ODom _ => False | _ => True end -> hon (op_run E U op).
Proof.
  intros Hd. destruct op; cbn [op_run] in *; unfold new_empty, new_of_type, new_moved, move_assign, copy, copy_from, copy_matching_from, move_matching_from, clear, seal, mutate, gradual, c_mutate_to, c_mutate, piecewise, use_mixin;
    repeat first [progress kp | simple apply k_with_new | contradiction | simple apply k_mutated_type ].
Qed.
End Stable.

(** Every call of objects, of any program *)
Lemma op_stable E U op s s' r : match op with ODom _ => False | _ => True end -> op_run E U op s = (s', r) -> bounded (s_w s) -> types_go_on (s_w s) (s_w s') /\ same_elems (s_w s) (s_w s').
Proof. intros H Hr Hb. destruct (k_op E U op H s s' r Hr Hb) as (_ & H1 & H2). auto. Qed.
