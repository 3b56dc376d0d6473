(** Theorem C71: domains when memory runs out *)
From Coq Require Import List Arith ZArith NArith Lia Bool.
From Verif Require Import Base Sv Info Registry TypeMut Rules TypeBuild TypeQuery Domain SpecReg SpecDom SpecRule SpecConc Oom SpecOom ExEnv OomProofs.
Import ListNotations.

(** Calls with what becomes of their requests for memory *)
Fixpoint m_exec (E : env) (w : world) (l : list (dop * mem)) : world * list (dop * res (option tref)) :=
  match l with
  | [] => (w, [])
  | (o, al) :: r => let (w1, x) := dstep_m E w o al in let (w2, tr) := m_exec E w1 r in (w2, (o, x) :: tr)
  end.
Lemma m_exec_run E l : forall tr w, run_m E tr w -> no_ub (snd (m_exec E w l)) = true -> run_m E (tr ++ snd (m_exec E w l)) (fst (m_exec E w l)).
Proof.
  induction l as [|[o al] l IH]; intros tr w H; cbn [m_exec]; [cbn; now rewrite app_nil_r|].
  destruct (dstep_m E w o al) as [w1 x] eqn:Hs. specialize (IH (tr ++ [(o, x)]) w1). destruct (m_exec E w1 l) as [w2 tr2]. cbn [fst snd] in *.
  intros Hx. cbn in Hx. apply andb_true_iff in Hx as [Hx Ht]. rewrite <- app_assoc in IH. apply IH; auto. econstructor; eauto. destruct x; simpl; try discriminate; auto.
Qed.
Definition m_calls : list (dop * mem) :=
  [(DRegMixin 0 0, [true; false]); (DRegMixin 0 0, []); (DRegMixin 0 1, [true; false]); (DRegMixin 0 1, []); (DAddRule 0 1, [false]); (DRegMixin 0 3, []); (DAddRule 0 1, []);
   (DGetType 0 [0; 1] true, [true; true; true; false]); (DGetType 0 [0] true, [false]); (DGetType 0 [0] true, [])].
Definition m_world : world := fst (m_exec ex_env (init_world ex_env) m_calls).
Definition m_trace := snd (m_exec ex_env (init_world ex_env) m_calls).
Lemma m_run : run_m ex_env m_trace m_world.
Proof. apply (m_exec_run ex_env m_calls []); [constructor|vm_compute; reflexivity]. Qed.

(** C71, first part. A call that does not report that memory ran out does what it does when there is enough. *)
Theorem C71_enough_memory : forall E w o al w' r, dstep_m E w o al = (w', r) -> r <> Throw EBadAlloc ->
  same_world w' (fst (dstep E w o)) /\ r = snd (dstep E w o).
Proof. exact c71_enough. Qed.
Print Assumptions C71_enough_memory.
Example C71_enough_memory_case : exists w' t, dstep_m ex_env m_world (DGetType 0 [0; 1] true) [true; true; true; true] = (w', Ok (Some t)).
Proof. eexists. eexists. vm_compute. reflexivity. Qed.

(** C71, second part. A call that runs out of memory leaves all as it was, but for features of the mixin to be registered and for the new type. *)
Theorem C71_left_behind : forall E tr w o al w', run_m E tr w -> dstep_m E w o al = (w', Throw EBadAlloc) -> left_behind E w w' o.
Proof. exact c71_left. Qed.
Print Assumptions C71_left_behind.
(** Both are left: the feature of mixin 4, and the type of mixin 1, which no query leads to *)
Example C71_left_behind_case :
  (exists w', dstep_m ex_env m_world (DRegMixin 1 4) [true; false] = (w', Throw EBadAlloc) /\
     get_feature_by_id m_world 1 (w_fid w' 3) = None /\ get_feature_by_id w' 1 (w_fid w' 3) = Some 3) /\
  (exists w', dstep_m ex_env m_world (DGetType 0 [1] true) [true; true; true; false] = (w', Throw EBadAlloc) /\
     d_types (w_dom w' 0) = d_types (w_dom m_world 0) ++ [TReg (w_next m_world)] /\ d_queries (w_dom w' 0) = d_queries (w_dom m_world 0)).
Proof. split; eexists; (split; [vm_compute; reflexivity|]); vm_compute; auto. Qed.

(** C71, third part. The call can be made again: after any number of attempts that ran out of memory it does what it would have done at first. *)
Theorem C71_retry : forall E tr w o w', run_m E tr w -> failed_attempts E w o w' ->
  same_world (fst (dstep E w' o)) (fst (dstep E w o)) /\ snd (dstep E w' o) = snd (dstep E w o).
Proof. exact c71_retry. Qed.
Print Assumptions C71_retry.
Example C71_retry_case : exists w', failed_attempts ex_env m_world (DGetType 0 [1] true) w' /\ d_types (w_dom w' 0) <> d_types (w_dom m_world 0) /\
  exists t, snd (dstep ex_env m_world (DGetType 0 [1] true)) = Ok (Some t).
Proof.
  exists (fst (m_exec ex_env m_world [(DGetType 0 [1] true, [false]); (DGetType 0 [1] true, [true; true; true; false]); (DGetType 0 [1] true, [true; true; false])])).
  split; [|split; [vm_compute; discriminate|eexists; vm_compute; reflexivity]].
  eapply (fa_one _ _ _ [false]); [vm_compute; reflexivity|]. eapply (fa_one _ _ _ [true; true; true; false]); [vm_compute; reflexivity|].
  eapply (fa_one _ _ _ [true; true; false]); [vm_compute; reflexivity|]. vm_compute. constructor.
Qed.

(** C71, fourth part. In histories where memory ran out, the registries are sound, and all rules that are added apply. *)
Theorem C71_sound : forall E tr w, run_m E tr w -> sound w /\ forall d, applies E w d (map fst (d_rules (w_dom w d))).
Proof. exact c71_sound. Qed.
Print Assumptions C71_sound.
(** In this history five calls ran out of memory. *)
Example C71_sound_case : run_m ex_env m_trace m_world /\
  length (filter (fun c => match snd c with Throw EBadAlloc => true | _ => false end) m_trace) = 5 /\ length (d_types (w_dom m_world 0)) = 2.
Proof. split; [exact m_run|]. split; vm_compute; reflexivity. Qed.
