(** What happens to the seal and the allocator of an object *)
From Coq Require Import List Arith ZArith NArith Lia Bool.
From Verif Require Import Base Sv BaseLemmas Info TypeMut TypeBuild TypeQuery Domain Heap HeapProofs Mutation Object SpecObj SpecSeal HonestProofs.
Import ListNotations.

Section Seal.
Variable E : env.
Variable U : user.
Variable o0 al0 : nat.
Variable sl0 : bool.

(** Object [o0] exists and has allocator [al0], and the seal [sl0]. *)
Definition att (s : st) : Prop := match s_obj s o0 with Some x => o_alloc x = al0 /\ o_sealed x = sl0 | None => False end.
Definition keeps {A} (m : M st A) : Prop := forall s, att s -> att (fst (m s)).
Definition mkeeps {A} (m : M mst A) : Prop := forall p, att (snd p) -> att (snd (fst (m p))).

(** ** Combinators *)
Lemma k_same A (m : M st A) : (forall s, s_obj (fst (m s)) = s_obj s) -> keeps m.
Proof. intros H s. unfold att. now rewrite H. Qed.
Lemma k_ret A (a : A) : keeps (ret a).
Proof. intros s H. exact H. Qed.
Lemma k_raise A e : keeps (raise e : M st A).
Proof. intros s H. exact H. Qed.
Lemma k_ub A u : keeps (ub u : M st A).
Proof. intros s H. exact H. Qed.
Lemma k_const A (f : st -> res A) : keeps (fun s => (s, f s)).
Proof. intros s H. exact H. Qed.
Lemma k_bnd A B (x : M st A) (f : A -> M st B) : keeps x -> (forall a, keeps (f a)) -> keeps (bnd x f).
Proof. intros Hx Hf s H. unfold bnd. specialize (Hx s H). destruct (x s) as [s1 [a|e|u]]; cbn in *; auto. apply Hf. exact Hx. Qed.
Lemma mk_ret A (a : A) : mkeeps (ret a).
Proof. intros s H. exact H. Qed.
Lemma mk_raise A e : mkeeps (raise e : M mst A).
Proof. intros s H. exact H. Qed.
Lemma mk_ub A u : mkeeps (ub u : M mst A).
Proof. intros s H. exact H. Qed.
Lemma mk_bnd A B (x : M mst A) (f : A -> M mst B) : mkeeps x -> (forall a, mkeeps (f a)) -> mkeeps (bnd x f).
Proof. intros Hx Hf s H. unfold bnd. specialize (Hx s H). destruct (x s) as [s1 [a|e|u]]; cbn in *; auto. apply Hf. exact Hx. Qed.
Lemma mk_lift A (x : M st A) : keeps x -> mkeeps (lift x).
Proof. intros Hx [mu s] H. unfold lift. specialize (Hx s H). cbn in *. destruct (x s). exact Hx. Qed.
Lemma mk_get_mu : mkeeps get_mu.
Proof. intros p H. exact H. Qed.
Lemma mk_set_mu f : mkeeps (set_mu f).
Proof. intros p H. exact H. Qed.
Lemma mk_get_mid : mkeeps get_mid.
Proof. intros p H. exact H. Qed.
Lemma k_get_obj o : keeps (get_obj o).
Proof. intros s H. unfold get_obj. destruct (s_obj s o); exact H. Qed.
Lemma k_get_ty r : keeps (get_ty r).
Proof. intros s H. unfold get_ty. destruct (w_type (s_w s) r); exact H. Qed.
Lemma k_put_obj o x : o <> o0 -> keeps (put_obj o x).
Proof. intros Ho s H. unfold att in *. cbn in H |- *. unfold upd. destruct (Nat.eqb_spec o0 o); [congruence|exact H]. Qed.
Lemma k_on_world A (f : world -> world * res A) : keeps (on_world f).
Proof. intros s H. exact H. Qed.
Lemma k_get_blk b : keeps (get_blk b).
Proof. intros s H. unfold get_blk. destruct (s_blk s b); exact H. Qed.
Lemma k_put_blk b k : keeps (put_blk b k).
Proof. intros s H. exact H. Qed.
Lemma k_tick : keeps (tick U).
Proof. intros s H. exact H. Qed.
Lemma k_emit e : keeps (emit e).
Proof. intros s H. exact H. Qed.
Hint Resolve k_ret k_raise k_ub k_const mk_ret mk_raise mk_ub mk_get_mu mk_set_mu mk_get_mid k_get_obj k_get_ty k_put_obj k_on_world k_get_blk k_put_blk k_tick k_emit mk_lift : keeps.
Ltac kp := repeat first [ progress eauto with keeps | simple apply k_bnd; [|intros ?] | simple apply mk_bnd; [|intros ?] | simple apply mk_lift
  | match goal with
    | |- keeps (match ?x with _ => _ end) => destruct x
    | |- mkeeps (match ?x with _ => _ end) => destruct x
    | |- mkeeps (lift (match ?x with _ => _ end)) => destruct x
    end ].

Lemma k_alloc a size align : keeps (alloc U a size align).
Proof. unfold alloc. kp; intros s H; exact H. Qed.
Hint Resolve k_alloc : keeps.
Lemma k_free a b size align : keeps (free E a b size align).
Proof. unfold free. kp; intros s H; exact H. Qed.
Hint Resolve k_free : keeps.
Lemma k_read_data b i : keeps (read_data b i).
Proof. unfold read_data. kp; intros s H; exact H. Qed.
Hint Resolve k_read_data : keeps.
Lemma k_write_data b i d : keeps (write_data b i d).
Proof. unfold write_data. kp; intros s H; exact H. Qed.
Hint Resolve k_write_data : keeps.
Lemma k_set_object p o : keeps (set_object p o).
Proof. unfold set_object. kp; intros s H; exact H. Qed.
Hint Resolve k_set_object : keeps.
Lemma k_live m p : keeps (live m p).
Proof. unfold live. kp; intros s H; exact H. Qed.
Hint Resolve k_live : keeps.
Lemma k_vacant p : keeps (vacant E p).
Proof. unfold vacant. kp; intros s H; exact H. Qed.
Hint Resolve k_vacant : keeps.
Lemma k_put_inst p x : keeps (put_inst p x).
Proof. unfold put_inst. kp; intros s H; exact H. Qed.
Hint Resolve k_put_inst : keeps.
Lemma k_del_inst p : keeps (del_inst p).
Proof. unfold del_inst. kp; intros s H; exact H. Qed.
Hint Resolve k_del_inst : keeps.
Lemma k_construct f m p src : keeps (construct E U f m p src).
Proof. unfold construct. kp; intros s H; exact H. Qed.
Hint Resolve k_construct : keeps.
Lemma k_copy_asgn m p src : keeps (copy_asgn U m p src).
Proof. unfold copy_asgn. kp; intros s H; exact H. Qed.
Hint Resolve k_copy_asgn : keeps.
Lemma k_update k m p : keeps (update U k m p).
Proof. unfold update. kp; intros s H; exact H. Qed.
Hint Resolve k_update : keeps.
Lemma k_move_init m p src : keeps (move_init E U m p src).
Proof. unfold move_init. kp; intros s H; exact H. Qed.
Hint Resolve k_move_init : keeps.
Lemma k_move_asgn m p src : keeps (move_asgn U m p src).
Proof. unfold move_asgn. kp; intros s H; exact H. Qed.
Hint Resolve k_move_asgn : keeps.
Lemma k_destroy m p : keeps (destroy E m p).
Proof. unfold destroy. kp; intros s H; exact H. Qed.
Hint Resolve k_destroy : keeps.
Lemma mk_target_mixin mu i : mkeeps (target_mixin mu i).
Proof. unfold target_mixin. kp. Qed.
Lemma mk_target_offset mu i : mkeeps (target_offset mu i).
Proof. unfold target_offset. kp. Qed.
Lemma mk_target_data mu : mkeeps (target_data mu).
Proof. unfold target_data. kp. Qed.
Hint Resolve mk_target_mixin mk_target_offset mk_target_data : keeps.
Lemma k_aob r t a : keeps (allocate_object_buffer U r t a).
Proof. unfold allocate_object_buffer. kp. Qed.
Lemma k_dob r t a b : keeps (deallocate_object_buffer E r t a b).
Proof. unfold deallocate_object_buffer. kp. Qed.
Lemma k_alloc_external o m : keeps (alloc_external E U o m).
Proof. unfold alloc_external. kp. Qed.
Lemma k_free_external o m b : keeps (free_external E o m b).
Proof. unfold free_external. kp. Qed.
Hint Resolve k_aob k_dob k_alloc_external k_free_external : keeps.
Lemma mk_alloc_one i : mkeeps (alloc_one E U i).
Proof. unfold alloc_one. kp. Qed.
Hint Resolve mk_alloc_one : keeps.
Lemma mk_alloc_loop l : mkeeps (alloc_loop E U l).
Proof. induction l; cbn [alloc_loop]; kp. Qed.
Hint Resolve mk_alloc_loop : keeps.
Lemma mk_allocate : mkeeps (allocate_mixin_data E U).
Proof. unfold allocate_mixin_data. kp. Qed.
Lemma mk_dealloc_one i : mkeeps (dealloc_one E i).
Proof. unfold dealloc_one. kp. Qed.
Lemma mk_down f n : (forall i, mkeeps (f i)) -> mkeeps (down_loop f n).
Proof. intros H. induction n; cbn [down_loop]; kp. Qed.
Lemma mk_destroy_one i : mkeeps (destroy_one E i).
Proof. unfold destroy_one. kp. Qed.
Hint Resolve mk_allocate mk_dealloc_one mk_down mk_destroy_one : keeps.
Lemma mk_deallocate : mkeeps (deallocate_mixin_data E).
Proof. unfold deallocate_mixin_data. kp. Qed.
Lemma mk_destroy_new : mkeeps (destroy_new_mixins E).
Proof. unfold destroy_new_mixins. kp. Qed.
Hint Resolve mk_deallocate mk_destroy_new : keeps.
Lemma mk_rollback : mkeeps (rollback E).
Proof. unfold rollback. kp. Qed.
Lemma mk_finalize_one ob ot i : mkeeps (finalize_one E U ob ot i).
Proof. unfold finalize_one. kp. Qed.
Hint Resolve mk_rollback mk_finalize_one : keeps.
Lemma mk_finalize_loop ob ot l : mkeeps (finalize_loop E U ob ot l).
Proof. induction l; cbn [finalize_loop]; kp. Qed.
Lemma mk_install : mkeeps install.
Proof.
  intros [mu s] H. unfold install, bnd, get_mu, lift, get_obj, put_obj. cbn [fst snd]. destruct (s_obj s (mu_obj mu)) as [x|] eqn:Hx; [|exact H]. cbn. unfold att in *. cbn in H |- *. unfold upd.
  destruct (Nat.eqb_spec o0 (mu_obj mu)) as [Eo|_]; [|exact H]. rewrite Eo, Hx in H. exact H.
Qed.
Hint Resolve mk_finalize_loop mk_install : keeps.
Lemma mk_finalize : mkeeps (finalize E U).
Proof. unfold finalize. kp. Qed.
Hint Resolve mk_finalize : keeps.

Definition cbk (cn : cb_new) : Prop := forall m p i, keeps (cn m p i).
Definition ucbk (uc : cb_common) : Prop := forall m p i j, keeps (uc m p i j).
Lemma mk_update_next cn uc : cbk cn -> ucbk uc -> mkeeps (update_next cn uc).
Proof. intros H1 H2. unfold cbk, ucbk in *. unfold update_next. kp. Qed.
Hint Resolve mk_update_next : keeps.
Lemma mk_turns cn uc n : cbk cn -> ucbk uc -> mkeeps (update_turns cn uc n).
Proof. intros H1 H2. induction n; cbn [update_turns]; kp. Qed.
Hint Resolve mk_turns : keeps.
Lemma mk_each cn uc u : cbk cn -> ucbk uc -> mkeeps (update_each cn uc u).
Proof. intros H1 H2. unfold update_each. kp. Qed.
Lemma ck_noop : ucbk noop_common.
Proof. intros m p i j. unfold noop_common. kp. Qed.
Lemma ck_default : cbk (default_init E U).
Proof. intros m p i. unfold default_init. kp. Qed.
Hint Resolve mk_each ck_noop ck_default : keeps.
Lemma mk_default u : mkeeps (default_each E U u).
Proof. unfold default_each, construct_each. kp. Qed.
Hint Resolve mk_default : keeps.
Lemma mk_update_at i cn uc : cbk cn -> ucbk uc -> mkeeps (update_at E U i cn uc).
Proof. intros H1 H2. unfold update_at. kp. Qed.
Hint Resolve mk_update_at : keeps.
Lemma mk_start x : mkeeps (start E U x).
Proof. unfold start. kp. Qed.
Lemma mk_unwind A e : mkeeps (unwind E e : M mst A).
Proof. unfold unwind. kp. Qed.
Hint Resolve mk_start mk_unwind : keeps.
Lemma mk_catch A (x : M mst unit) (f : exn -> M mst A) (g : unit -> M mst A) : mkeeps x -> (forall e, mkeeps (f e)) -> (forall a, mkeeps (g a)) ->
  mkeeps (fun p => match x p with (p', Throw e) => f e p' | (p', Ok a) => g a p' | (p', Ub u) => (p', Ub u) end).
Proof. intros H1 H2 H3 p H. specialize (H1 p H). destruct (x p) as [p' [a|e|u]]; cbn in *; [apply H3|apply H2|]; exact H1. Qed.
Lemma mk_finish unw : mkeeps (finish E U unw).
Proof.
  unfold finish. kp. apply (mk_catch unit (default_each E U None) (fun e => rollback E;; raise e) (fun _ => finalize E U)); intros; kp.
Qed.
Hint Resolve mk_finish : keeps.
Lemma k_get_old x : keeps (get_old x).
Proof. unfold get_old. kp. Qed.
Hint Resolve k_get_old : keeps.
Lemma k_perform unw o r body : mkeeps body -> keeps (perform E U unw o r body).
Proof.
  intros Hb. unfold perform. kp. intros s H.
  assert (H1 : mkeeps (start E U a;; body)) by kp. specialize (H1 (new_mut o a a0 r a1, s) H). destruct ((start E U a;; body) (new_mut o a a0 r a1, s)) as [p [x|e|u]]; cbn in H1.
  - pose proof (mk_finish unw p H1) as H2. destruct (finish E U unw p) as [[mu' s'] res]. exact H2.
  - pose proof (mk_unwind unit e p H1) as H2. destruct (unwind E e p) as [[mu' s'] res]. exact H2.
  - destruct p. exact H1.
Qed.
Hint Resolve k_perform : keeps.

(** ** Objects *)
Lemma k_the_type x : keeps (the_type x).
Proof. unfold the_type. kp. Qed.
Lemma k_fresh o : keeps (fresh_obj o).
Proof. intros s H. unfold fresh_obj. destruct (s_obj s o); exact H. Qed.
Lemma k_mod o f : o <> o0 \/ (forall x, o_alloc (f x) = o_alloc x /\ o_sealed (f x) = o_sealed x) -> keeps (mod_obj o f).
Proof.
  intros Hf s H. unfold mod_obj, bnd, get_obj, put_obj. destruct (s_obj s o) as [x|] eqn:Hx; [|exact H]. cbn. unfold att in *. cbn in H |- *. unfold upd.
  destruct (Nat.eqb_spec o0 o) as [Eo|_]; [|exact H]. rewrite Eo, Hx in H. destruct Hf as [Hf|Hf]; [congruence|]. destruct (Hf x) as [-> ->]. exact H.
Qed.
Hint Extern 1 (keeps (mod_obj _ _)) => (apply k_mod; (left; assumption) || (right; intros ?; split; reflexivity)) : keeps.
Lemma k_run_mut mu a : mkeeps a -> keeps (run_mut mu a).
Proof. intros Ha s H. unfold run_mut. specialize (Ha (mu, s) H). destruct (a (mu, s)) as [[mu' s'] r]. exact Ha. Qed.
Hint Resolve k_the_type k_fresh k_run_mut : keeps.
Lemma k_clear_data o : keeps (clear_mixin_data E o).
Proof. unfold clear_mixin_data. kp. Qed.
Lemma k_redirect b o l : keeps (redirect_loop b o l).
Proof. induction l; cbn [redirect_loop]; kp. Qed.
Hint Resolve k_clear_data k_redirect : keeps.
Lemma k_usurp o src : o <> o0 -> keeps (usurp o src).
Proof. intros Ho. unfold usurp. kp. Qed.
Lemma k_dtor o : o <> o0 -> keeps (obj_dtor E o).
Proof. intros Ho. unfold obj_dtor. kp. Qed.
Lemma k_reset unw o r : keeps (reset_type E U unw o r).
Proof. unfold reset_type. kp. Qed.
Hint Resolve k_usurp k_dtor k_reset : keeps.
Lemma fresh_stop A o (f : unit -> M st A) : (o <> o0 -> keeps (f tt)) -> keeps (bnd (fresh_obj o) f).
Proof.
  intros Hf s H. unfold bnd, fresh_obj. destruct (s_obj s o) as [x|] eqn:Hx; [exact H|]. apply Hf; [|exact H]. intros Eo. unfold att in H. rewrite <- Eo, Hx in H. exact H.
Qed.
Lemma k_with_new o a body : (o <> o0 -> keeps body) -> keeps (with_new E o a body).
Proof.
  intros Hb. unfold with_new. apply fresh_stop. intros Ho. specialize (Hb Ho). kp. intros s H. specialize (Hb s H). destruct (body s) as [s' [x|e|u]]; cbn in *; auto.
  assert (Hk : keeps (obj_dtor E o;; raise e : M st unit)) by kp. now apply Hk.
Qed.
Lemma k_data_at x i : keeps (data_at x i).
Proof. unfold data_at. kp. Qed.
Lemma k_the_mid : keeps the_mid.
Proof. intros s H. exact H. Qed.
Hint Resolve k_data_at k_the_mid : keeps.
Lemma ck_copy_new y : cbk (copy_new E U y).
Proof. intros m p i. unfold copy_new. kp. Qed.
Lemma ck_copy_common y : ucbk (copy_common E U y).
Proof. intros m p i j. unfold copy_common. kp. Qed.
Lemma ck_copy_checked y : cbk (copy_new_checked E U y).
Proof. intros m p i. unfold copy_new_checked. kp. Qed.
Hint Resolve ck_copy_new ck_copy_common ck_copy_checked : keeps.
Lemma mk_construct_each cn u : cbk cn -> mkeeps (construct_each cn u).
Proof. intros H. unfold construct_each. kp. Qed.
Hint Resolve mk_construct_each : keeps.
Lemma k_cmatch_loop mid x y own l : keeps (copy_matching_loop E U mid x y own l).
Proof. induction l as [|[i m] l IH]; cbn [copy_matching_loop]; kp. Qed.
Lemma k_mmatch_loop fb mid x y own l : keeps (move_matching_loop E U fb mid x y own l).
Proof. induction l as [|[i m] l IH]; cbn [move_matching_loop]; kp. Qed.
Hint Resolve k_cmatch_loop k_mmatch_loop : keeps.
Lemma ck_do_init k m : cbk (do_init E U k m).
Proof. intros m' p i. unfold do_init. kp. Qed.
Hint Resolve ck_do_init : keeps.
Lemma mk_ops_loop l : mkeeps (ops_loop E U l).
Proof. induction l as [|[[k m] i] l IH]; cbn [ops_loop]; kp. Qed.
Hint Resolve mk_ops_loop : keeps.
Lemma k_mutate_to unw o r ops : keeps (mutate_to E U unw o r ops).
Proof. unfold mutate_to. kp. Qed.
Lemma k_mutated_type aok t f : keeps (mutated_type E aok t f).
Proof. unfold mutated_type. kp. Qed.
Hint Resolve k_mutate_to k_mutated_type : keeps.
Lemma ck_wrap_init c : cbk (wrap_init E U c).
Proof. intros m p i. unfold wrap_init. destruct (co_init c); kp. Qed.
Lemma ck_wrap_update c : ucbk (wrap_update U c).
Proof. intros m p i j. unfold wrap_update. destruct (co_update c); kp. Qed.
Lemma ck_wrap_cop c : cbk (wrap_cop E U c).
Proof. intros m p i. unfold wrap_cop. destruct (cp_init c); kp. Qed.
Lemma ck_user_new k : cbk (user_new E U k).
Proof. intros m p i. unfold user_new. kp. Qed.
Lemma ck_user_common k : ucbk (user_common U k).
Proof. intros m p i j. unfold user_common. kp. Qed.
Hint Resolve ck_wrap_init ck_wrap_update ck_wrap_cop ck_user_new ck_user_common : keeps.
Lemma mk_cover_loop cs l : mkeeps (cover_loop E U cs l).
Proof. induction l as [|[i m] l IH]; cbn [cover_loop]; kp. Qed.
Lemma mk_cop_loop cs l : mkeeps (cop_loop E U cs l).
Proof. induction l as [|[i m] l IH]; cbn [cop_loop]; kp. Qed.
Lemma mk_pstep p : mkeeps (run_pstep E U p).
Proof. destruct p; cbn [run_pstep]; kp. Qed.
Hint Resolve mk_cover_loop mk_cop_loop mk_pstep : keeps.
Lemma mk_psteps l : mkeeps (run_psteps E U l).
Proof. induction l; cbn [run_psteps]; kp. Qed.
Hint Resolve mk_psteps : keeps.

Lemma k_op op : op <> ODtor o0 -> op <> OSeal o0 -> (forall src, op <> OMoveAssign o0 src) -> keeps (op_run E U op).
Proof.
  intros N1 N2 N3. destruct op; cbn [op_run];
    try match goal with |- keeps (new_moved _ _) => unfold new_moved; apply k_bnd; [apply k_get_obj|intros y; apply fresh_stop; intros No; solve [kp]] end; try (assert (No : o <> o0) by congruence);
  unfold new_empty, new_of_type, new_moved, move_assign, copy, copy_from, copy_matching_from, move_matching_from, clear, seal, mutate, gradual, c_mutate_to, c_mutate, piecewise, use_mixin;
  repeat first [simple apply fresh_stop; intros ? | simple apply k_with_new; intros ? | progress kp].
Qed.
End Seal.

Section Seal2.
Variable E : env.
Variable U : user.
Lemma att_here s o x : s_obj s o = Some x -> att o (o_alloc x) (o_sealed x) s.
Proof. intros H. unfold att. rewrite H. auto. Qed.
Lemma att_after s o a b x : att o a b s -> s_obj s o = Some x -> o_alloc x = a /\ o_sealed x = b.
Proof. unfold att. intros H Hx. now rewrite Hx in H. Qed.

Lemma usurp_seal s s' res o src x y : s_obj s o = Some x -> s_obj s src = Some y -> o <> src -> usurp o src s = (s', res) -> ~ is_ub res ->
  res = Ok tt /\ exists x', s_obj s' o = Some x' /\ o_alloc x' = o_alloc x /\ o_sealed x' = o_sealed y.
Proof.
  intros Hx Hy Ho Hr Hu. assert (K : att o (o_alloc x) (o_sealed y) s' /\ nt (usurp o src)).
  { split.
    - unfold usurp, mod_obj in Hr. unfold bnd at 1 in Hr. unfold get_obj at 1 in Hr. rewrite Hy in Hr. unfold bnd at 1 in Hr. unfold bnd at 1 in Hr. unfold get_obj at 1 in Hr. rewrite Hx in Hr.
      unfold put_obj at 1 in Hr. match type of Hr with ?m ?s1 = _ => set (s2 := s1) in *; assert (A : att o (o_alloc x) (o_sealed y) s2) end.
      { unfold att, s2. cbn. unfold upd. rewrite Nat.eqb_refl. cbn. auto. }
      match type of Hr with ?m s2 = _ => assert (P : keeps o (o_alloc x) (o_sealed y) m) end; [|specialize (P s2 A); rewrite Hr in P; exact P].
      apply k_bnd; [apply (k_the_type U)|intros rt]. apply k_bnd; [destruct (o_data y); [apply (k_redirect U)|destruct (num_mixins (snd rt) =? 0); [apply k_ret|apply k_ub]]|intros _].
      apply k_mod. left. congruence.
    - unfold usurp. apply nt_bnd; [apply nt_get_obj|intros z]. apply nt_bnd; [apply nt_mod|intros _]. apply nt_bnd; [apply nt_the_type|intros rt]. apply nt_bnd; [|intros _; apply nt_mod].
      destruct (o_data z) as [b|]; [|destruct (num_mixins (snd rt) =? 0); [apply nt_ret|apply nt_ub]]. generalize (seq 0 (num_mixins (snd rt))). intros l. induction l as [|i l IH]; cbn [redirect_loop]; [apply nt_ret|].
      apply nt_bnd; [apply nt_read|intros d]. apply nt_bnd; [|intros _; exact IH]. unfold set_object. apply nt_bnd; [apply nt_get_blk|intros k; apply nt_put_blk]. }
  destruct K as [K N]. split.
  - destruct res as [[]|e|u]; [reflexivity|exfalso; exact (N _ _ _ Hr)|exfalso; apply Hu; exact I].
  - unfold att in K. destruct (s_obj s' o) as [x'|]; [|contradiction]. eauto.
Qed.

Lemma seal_state op s s' res o x x' : op_run E U op s = (s', res) -> ~ is_ub res -> s_obj s o = Some x -> s_obj s' o = Some x' ->
  o_alloc x' = o_alloc x /\
  (o_sealed x' = true <-> o_sealed x = true \/ op = OSeal o \/ exists src y, op = OMoveAssign o src /\ res = Ok tt /\ s_obj s src = Some y /\ o_sealed y = true).
Proof.
  intros Hr Hu Hx Hx'.
  assert (GEN : op <> OSeal o -> (forall src, op <> OMoveAssign o src) -> op <> ODtor o -> o_alloc x' = o_alloc x /\ (o_sealed x' = true <-> o_sealed x = true \/ op = OSeal o \/ exists src y, op = OMoveAssign o src /\ res = Ok tt /\ s_obj s src = Some y /\ o_sealed y = true)).
  { intros N1 N2 N3. pose proof (k_op E U o (o_alloc x) (o_sealed x) op N3 N1 N2 s (att_here s o x Hx)) as K. rewrite Hr in K. destruct (att_after _ _ _ _ _ K Hx') as [-> ->]. split; [reflexivity|].
    split; [auto|]. intros [H|[H|(src & y & H & _)]]; [exact H|contradiction|]. exfalso. exact (N2 src H). }
  destruct op; try (apply GEN; intros; discriminate).
  - (* ODtor *) destruct (Nat.eq_dec o0 o) as [->|No]; [|apply GEN; intros; congruence]. exfalso. cbn in Hr. unfold obj_dtor, bnd in Hr.
    pose proof (nt_dtor E o s) as N. unfold obj_dtor, bnd in N. destruct (clear_mixin_data E o s) as [s1 [[]|e|u]].
    + injection Hr as <- <-. cbn in Hx'. unfold upd in Hx'. rewrite Nat.eqb_refl in Hx'. discriminate.
    + exact (N _ _ eq_refl).
    + injection Hr as <- <-. apply Hu. exact I.
  - (* OMoveAssign *) destruct (Nat.eq_dec o0 o) as [->|No]; [|apply GEN; intros; congruence]. cbn [op_run] in Hr. unfold move_assign in Hr. unfold bnd at 1 in Hr. unfold get_obj at 1 in Hr. rewrite Hx in Hr.
    unfold bnd at 1 in Hr. unfold get_obj at 1 in Hr. destruct (s_obj s src) as [y|] eqn:Hy; [|injection Hr as <- <-; exfalso; apply Hu; exact I].
    destruct (Nat.eqb_spec o src) as [->|Ns].
    { injection Hr as <- <-. rewrite Hx in Hx'. injection Hx' as <-. rewrite Hx in Hy. injection Hy as <-. split; [reflexivity|]. split; [auto|]. intros [H|[H|(s1 & z & H & _ & Hz & H2)]]; [exact H|discriminate H|]. injection H as <-. congruence. }
    assert (RAISE : forall e, (let* _ := the_type x in raise e) s = (s', res) -> s' = s /\ res <> Ok tt).
    { intros e K. unfold the_type in K. unfold bnd at 1 in K. destruct (o_type x) as [r|]; [|injection K as <- <-; split; [reflexivity|discriminate]]. unfold bnd at 1, get_ty in K.
      destruct (w_type (s_w s) r) as [t|]; injection K as <- <-; (split; [reflexivity|discriminate]). }
    destruct (Nat.eqb_spec (o_alloc x) (o_alloc y)) as [Ea|Ea].
    2:{ destruct (RAISE _ Hr) as [-> Hne]. rewrite Hx in Hx'. injection Hx' as <-. split; [reflexivity|]. split; [auto|]. intros [H|[H|(s1 & z & H & H1 & _)]]; [exact H|discriminate H|]. contradiction. }
    destruct (o_sealed x) eqn:Hs.
    { destruct (RAISE _ Hr) as [-> Hne]. rewrite Hx in Hx'. injection Hx' as <-. split; [reflexivity|]. split; auto. }
    unfold bnd at 1 in Hr. pose proof (k_clear_data E U o (o_alloc x) (o_sealed x) o s (att_here s o x Hx)) as K1. pose proof (k_clear_data E U src (o_alloc y) (o_sealed y) o s (att_here s src y Hy)) as K2.
    destruct (clear_mixin_data E o s) as [s1 [[]|e|u]] eqn:Hc; cbn [fst] in K1, K2.
    + unfold att in K1, K2. destruct (s_obj s1 o) as [x1|] eqn:Hx1; [|contradiction]. destruct (s_obj s1 src) as [y1|] eqn:Hy1; [|contradiction].
      destruct (usurp_seal s1 s' res o src x1 y1 Hx1 Hy1 Ns Hr Hu) as (Hok & x2 & Hx2 & A & B). rewrite Hx' in Hx2. injection Hx2 as <-. rewrite A, B. destruct K1 as [-> _]. destruct K2 as [_ ->]. split; [reflexivity|]. split.
      * intros H. right. right. exists src, y. auto.
      * intros [H|[H|(s3 & z & H & _ & Hz & H2)]]; [discriminate H|discriminate H|]. injection H as <-. congruence.
    + exfalso. pose proof (nt_dtor E o s) as N. unfold obj_dtor, bnd in N. rewrite Hc in N. exact (N _ _ eq_refl).
    + injection Hr as <- <-. exfalso. apply Hu. exact I.
  - (* OSeal *) destruct (Nat.eq_dec o0 o) as [->|No]; [|apply GEN; intros; congruence]. cbn in Hr. unfold seal, mod_obj, bnd, get_obj in Hr. rewrite Hx in Hr. injection Hr as <- <-. cbn in Hx'. unfold upd in Hx'. rewrite Nat.eqb_refl in Hx'. injection Hx' as <-.
    cbn. split; [reflexivity|]. split; auto.
Qed.
Lemma still_there op s s' res o x : op_run E U op s = (s', res) -> ~ is_ub res -> s_obj s o = Some x -> (s_obj s' o = None <-> op = ODtor o).
Proof.
  intros Hr Hu Hx. split.
  - intros Hn. assert (D : {op = ODtor o} + {op <> ODtor o}).
    { destruct op; try (right; discriminate). destruct (Nat.eq_dec o0 o) as [->|No]; [now left|right; congruence]. }
    destruct D as [D|D]; [exact D|exfalso].
    assert (GEN : op <> OSeal o -> (forall src, op <> OMoveAssign o src) -> False).
    { intros N1 N2. pose proof (k_op E U o (o_alloc x) (o_sealed x) op D N1 N2 s (att_here s o x Hx)) as K. rewrite Hr in K. unfold att in K. cbn in K. now rewrite Hn in K. }
    destruct op; try (apply GEN; intros; discriminate).
    + destruct (Nat.eq_dec o0 o) as [->|No]; [|apply GEN; intros; congruence]. cbn [op_run] in Hr. unfold move_assign in Hr. unfold bnd at 1 in Hr. unfold get_obj at 1 in Hr. rewrite Hx in Hr.
      unfold bnd at 1 in Hr. unfold get_obj at 1 in Hr. destruct (s_obj s src) as [y|] eqn:Hy; [|injection Hr as <- <-; apply Hu; exact I].
      destruct (Nat.eqb_spec o src) as [->|Ns]; [injection Hr as <- <-; congruence|].
      assert (RAISE : forall e, (let* _ := the_type x in raise e) s = (s', res) -> s' = s).
      { intros e K. unfold the_type in K. unfold bnd at 1 in K. destruct (o_type x) as [r|]; [|injection K as <- <-; reflexivity]. unfold bnd at 1, get_ty in K. destruct (w_type (s_w s) r) as [t|]; injection K as <- <-; reflexivity. }
      destruct (Nat.eqb_spec (o_alloc x) (o_alloc y)) as [Ea|Ea]; [|rewrite (RAISE _ Hr) in Hn; congruence]. destruct (o_sealed x) eqn:Hs; [rewrite (RAISE _ Hr) in Hn; congruence|].
      unfold bnd at 1 in Hr. pose proof (k_clear_data E U o (o_alloc x) (o_sealed x) o s (att_here s o x Hx)) as K1. pose proof (k_clear_data E U src (o_alloc y) (o_sealed y) o s (att_here s src y Hy)) as K2.
      destruct (clear_mixin_data E o s) as [s1 [[]|e|u]] eqn:Hc; cbn [fst] in K1, K2.
      * unfold att in K1, K2. destruct (s_obj s1 o) as [x1|] eqn:Hx1; [|contradiction]. destruct (s_obj s1 src) as [y1|] eqn:Hy1; [|contradiction].
        destruct (usurp_seal s1 s' res o src x1 y1 Hx1 Hy1 Ns Hr Hu) as (_ & x2 & Hx2 & _). congruence.
      * pose proof (nt_dtor E o s) as N. unfold obj_dtor, bnd in N. rewrite Hc in N. exact (N _ _ eq_refl).
      * injection Hr as <- <-. apply Hu. exact I.
    + destruct (Nat.eq_dec o0 o) as [->|No]; [|apply GEN; intros; congruence]. cbn in Hr. unfold seal, mod_obj, bnd, get_obj in Hr. rewrite Hx in Hr. injection Hr as <- <-. cbn in Hn. unfold upd in Hn. rewrite Nat.eqb_refl in Hn. discriminate.
  - intros ->. cbn in Hr. unfold obj_dtor, bnd in Hr. pose proof (nt_dtor E o s) as N. unfold obj_dtor, bnd in N. destruct (clear_mixin_data E o s) as [s1 [[]|e|u]].
    + injection Hr as <- <-. cbn. unfold upd. now rewrite Nat.eqb_refl.
    + exfalso. exact (N _ _ eq_refl).
    + exfalso. injection Hr as <- <-. apply Hu. exact I.
Qed.
End Seal2.

Section Seal3.
Variable E : env.
Variable U : user.
Lemma with_new_keeps o a body s s' : s_obj s o = None -> with_new E o a body s = (s', Ok tt) -> keeps o a false body -> att o a false s'.
Proof.
  intros Ho Hr K. unfold with_new in Hr. unfold bnd at 1, fresh_obj in Hr. rewrite Ho in Hr. unfold bnd at 1, put_obj in Hr.
  match type of Hr with (let (_, _) := body ?x in _) = _ => set (s1 := x) in *; assert (A : att o a false s1) end.
  { unfold att, s1. cbn. unfold upd. rewrite Nat.eqb_refl. cbn. auto. }
  specialize (K s1 A). destruct (body s1) as [s2 [[]|e|u]]; cbn [fst] in K.
  - injection Hr as <-. exact K.
  - exfalso. unfold bnd in Hr. destruct (obj_dtor E o s2) as [s3 [[]|e'|u]]; discriminate Hr.
  - discriminate Hr.
Qed.
Lemma was_fresh A o (f : unit -> M st A) s s' r : bnd (fresh_obj o) f s = (s', Ok r) -> s_obj s o = None.
Proof. unfold bnd, fresh_obj. destruct (s_obj s o); [discriminate|reflexivity]. Qed.
Lemma seal_new op s s' o a sl : op_run E U op s = (s', Ok tt) -> seal_given s op o a sl -> exists x', s_obj s' o = Some x' /\ o_alloc x' = a /\ o_sealed x' = sl.
Proof.
  intros Hr G. destruct op; cbn [seal_given] in G; try contradiction; cbn [op_run] in Hr.
  - destruct G as (-> & -> & ->). unfold new_empty in Hr. unfold bnd at 1, fresh_obj in Hr. destruct (s_obj s o); [discriminate|]. injection Hr as <-. cbn. unfold upd. rewrite Nat.eqb_refl. eauto.
  - destruct G as (-> & -> & ->). unfold new_of_type in Hr. pose proof (was_fresh _ _ _ _ _ _ Hr) as Hf. unfold with_new in Hr. unfold bnd at 1, fresh_obj in Hr. rewrite Hf in Hr. unfold bnd at 1, put_obj in Hr.
    match type of Hr with (let (_, _) := _ ?x in _) = _ => set (s1 := x) in *; assert (A : att o a false s1) end.
    { unfold att, s1. cbn. unfold upd. rewrite Nat.eqb_refl. cbn. auto. }
    pose proof (k_reset E U o a false unw o r s1 A) as K. unfold bnd at 1 in Hr. destruct (reset_type E U unw o r s1) as [s2 [[]|e|u]]; cbn [fst] in K.
    + unfold att in K. destruct (s_obj s2 o) as [x2|] eqn:Hx2; [|contradiction]. unfold mod_obj, bnd, get_obj in Hr. rewrite Hx2 in Hr. injection Hr as <-. cbn. unfold upd. rewrite Nat.eqb_refl. eexists. split; [reflexivity|]. cbn. tauto.
    + exfalso. unfold bnd in Hr. destruct (obj_dtor E o s2) as [s3 [[]|e'|u]]; discriminate Hr.
    + discriminate Hr.
  - destruct G as (-> & y & Hy & <- & <-). unfold new_moved in Hr. unfold bnd at 1, get_obj in Hr. rewrite Hy in Hr. unfold bnd at 1, fresh_obj in Hr. destruct (s_obj s o) eqn:Ho; [discriminate|]. unfold bnd at 1, put_obj in Hr.
    assert (Ns : o <> src) by congruence. match type of Hr with usurp _ _ ?x = _ => set (s1 := x) in * end.
    assert (H1 : s_obj s1 o = Some {| o_type := None; o_data := None; o_alloc := o_alloc y; o_sealed := false |}) by (unfold s1; cbn; unfold upd; now rewrite Nat.eqb_refl).
    assert (H2 : s_obj s1 src = Some y). { unfold s1. cbn. unfold upd. destruct (Nat.eqb_spec src o); [congruence|exact Hy]. }
    destruct (usurp_seal U s1 s' _ o src _ _ H1 H2 Ns Hr) as (_ & x' & A & B & C); [intros []|]. exists x'. auto.
  - destruct G as (-> & -> & ->). unfold copy in Hr. assert (K : att o a false s').
    { unfold bnd at 1 in Hr. destruct (get_obj src s) as [s0 [y|e|u]] eqn:Hg; [|discriminate..]. unfold get_obj in Hg. destruct (s_obj s src) as [y'|]; [|discriminate]. injection Hg as <- <-.
      eapply with_new_keeps; [eapply was_fresh; exact Hr|exact Hr|].
      destruct (o_data y') eqn:Hd; [|apply k_mod; right; intros x; split; reflexivity].
      apply k_bnd; [apply (k_the_type U)|intros rt]. apply k_perform. apply (mk_construct_each U). apply ck_copy_new. }
    unfold att in K. destruct (s_obj s' o) as [x'|]; [|contradiction]. exists x'. tauto.
Qed.
End Seal3.
