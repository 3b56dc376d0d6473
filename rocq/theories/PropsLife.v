(** Theorems C72 and C73: traversal, domains side by side, the end of domains *)
From Coq Require Import List Arith ZArith NArith Lia Bool.
From Verif Require Import Base Sv Info Registry TypeMut Rules TypeBuild TypeQuery Domain SpecReg SpecDom SpecRule SpecOrd SpecOom Life SpecLife ExEnv LifeProofs.
Import ListNotations.

(** C72, first part. Traversal visits what the history says is registered, each once. *)
Theorem C72_elements : forall E tr w d, run E (init_world E) tr w ->
  (NoDup (traverse_mixins w d) /\ forall m, In m (traverse_mixins w d) <-> mixin_registered tr m = Some d) /\
  (exists cur, features_registered E tr cur /\ NoDup (traverse_features w d) /\ forall f, In f (traverse_features w d) <-> cur f = Some d) /\
  (NoDup (traverse_type_classes w d) /\ forall c, In c (traverse_type_classes w d) <-> tc_registered tr d c = true).
Proof. exact c72_elements. Qed.
Print Assumptions C72_elements.
(** Second part. It visits all types that are alive in this domain but the empty one, and all stored queries with the types that get_type gives for them; the numbers agree. *)
Theorem C72_types : forall E tr w d, run E (init_world E) tr w ->
  NoDup (traverse_types w d) /\ num_types w d = length (traverse_types w d) /\
  (forall r, In r (traverse_types w d) <-> exists n t, r = TReg n /\ w_type w r = Some t /\ t_dom t = d) /\
  NoDup (map fst (traverse_type_queries w d)) /\ num_type_queries w d = length (traverse_type_queries w d) /\
  (forall q r a, In (q, r) (traverse_type_queries w d) -> get_type E a w d q = (w, Ok r)).
Proof. exact c72_types. Qed.
Print Assumptions C72_types.
(** Third part. Rules are visited with their counts. *)
Theorem C72_rules : forall E tr w d, regular_rules E -> run E (init_world E) tr w ->
  NoDup (map fst (traverse_mutation_rules w d)) /\ num_mutation_rules w d = length (traverse_mutation_rules w d) /\
  forall r n, In (r, n) (traverse_mutation_rules w d) <-> n = rule_count E tr d r /\ 0 < n.
Proof. exact c72_rules. Qed.
Print Assumptions C72_rules.
Example C72_example : run ex_env (init_world ex_env) ex_trace ex_world /\
  traverse_mixins ex_world 0 <> [] /\ traverse_features ex_world 0 = [0; 1; 2] /\ traverse_type_classes ex_world 0 = [2] /\
  traverse_types ex_world 0 <> [] /\ traverse_type_queries ex_world 0 <> [] /\ traverse_mutation_rules ex_world 0 <> [].
Proof. split; [exact ex_run|]. vm_compute. repeat split; discriminate. Qed.

(** C73, first part. A call on one domain changes nothing of another one. *)
Theorem C73_isolated : forall E tr w o w' r d d2, run E (init_world E) tr w -> on_domain w o = Some d -> d2 <> d -> dstep E w o = (w', r) -> domain_same w w' d2.
Proof. exact c73_isolated. Qed.
Print Assumptions C73_isolated.
Example C73_isolated_case : run ex_env (init_world ex_env) ex_trace ex_world /\ traverse_mixins ex_world 0 <> [] /\ traverse_types ex_world 0 <> [] /\
  traverse_mixins ex_world 1 = [5] /\ snd (dstep ex_env ex_world (DUnregMixin 1 5)) = Ok None.
Proof. split; [exact ex_run|]. vm_compute. repeat split; discriminate. Qed.

(** Second part. If domains are destroyed after all that was registered in them is unregistered, then infos are registered in domains that exist, and registries are sound. *)
Theorem C73_clean_end_partial : forall E tr l, lrun E clean_end (l_init E) tr l ->
  sound (l_w l) /\
  (forall m d, w_mdom (l_w l) m = Some d -> l_dead l d = false) /\
  (forall f i, w_fid (l_w l) f = Some i -> exists d, l_dead l d = false /\ get_feature_by_id (l_w l) d (Some i) = Some f).
Proof. exact c73_clean. Qed.
Print Assumptions C73_clean_end_partial.
Fixpoint l_exec (E : env) (l : lworld) (ops : list lop) : lworld * list (lop * res (option tref)) :=
  match ops with
  | [] => (l, [])
  | o :: r => let (l1, x) := lstep E l o in let (l2, tr) := l_exec E l1 r in (l2, (o, x) :: tr)
  end.
Definition l_fine (tr : list (lop * res (option tref))) : bool := forallb (fun c => match snd c with Ub _ => false | _ => true end) tr.
Lemma l_exec_run E ops l0 : forall tr l, lrun E any_end l0 tr l -> l_fine (snd (l_exec E l ops)) = true -> lrun E any_end l0 (tr ++ snd (l_exec E l ops)) (fst (l_exec E l ops)).
Proof.
  induction ops as [|o ops IH]; intros tr l H; cbn [l_exec]; [cbn; now rewrite app_nil_r|].
  destruct (lstep E l o) as [l1 x] eqn:Hs. specialize (IH (tr ++ [(o, x)]) l1). destruct (l_exec E l1 ops) as [l2 tr2]. cbn [fst snd] in *.
  intros Hx. cbn in Hx. apply andb_true_iff in Hx as [Hx Ht]. rewrite <- app_assoc in IH. apply IH; auto. econstructor; eauto; [exact Logic.I|]. destruct x; simpl; try discriminate; auto.
Qed.
(** A mixin and its features move from a domain to another one when the first one ends. *)
Definition l_clean : list lop :=
  [LCall (DRegMixin 0 0); LCall (DGetType 0 [0] true); LCall (DUnregMixin 0 0); LCall (DUnregFeature 0 0); LCall (DUnregFeature 0 1); LDestroy 0;
   LCall (DRegMixin 1 0); LCall (DGetType 1 [0] true)].
Example C73_clean_end_case : exists tr l, lrun ex_env clean_end (l_init ex_env) tr l /\ l_dead l 0 = true /\ w_mdom (l_w l) 0 = Some 1 /\ map (fun c => match snd c with Ok _ => true | _ => false end) tr = repeat true 8.
Proof.
  exists (((((((([] ++ [(LCall (DRegMixin 0 0), Ok None)]) ++ [(LCall (DGetType 0 [0] true), Ok (Some (TReg 0)))]) ++ [(LCall (DUnregMixin 0 0), Ok None)]) ++
      [(LCall (DUnregFeature 0 0), Ok None)]) ++ [(LCall (DUnregFeature 0 1), Ok None)]) ++ [(LDestroy 0, Ok None)]) ++ [(LCall (DRegMixin 1 0), Ok None)]) ++ [(LCall (DGetType 1 [0] true), Ok (Some (TReg 1)))]),
    (fst (l_exec ex_env (l_init ex_env) l_clean)).
  split.
  - apply lr_snoc with (l := fst (l_exec ex_env (l_init ex_env) (firstn 7 l_clean))); [|exact Logic.I|vm_compute; reflexivity|intros []].
    apply lr_snoc with (l := fst (l_exec ex_env (l_init ex_env) (firstn 6 l_clean))); [|exact Logic.I|vm_compute; reflexivity|intros []].
    apply lr_snoc with (l := fst (l_exec ex_env (l_init ex_env) (firstn 5 l_clean))); [|split; intros [[|[|[|i]]]|]; vm_compute; reflexivity|vm_compute; reflexivity|intros []].
    apply lr_snoc with (l := fst (l_exec ex_env (l_init ex_env) (firstn 4 l_clean))); [|exact Logic.I|vm_compute; reflexivity|intros []].
    apply lr_snoc with (l := fst (l_exec ex_env (l_init ex_env) (firstn 3 l_clean))); [|exact Logic.I|vm_compute; reflexivity|intros []].
    apply lr_snoc with (l := fst (l_exec ex_env (l_init ex_env) (firstn 2 l_clean))); [|exact Logic.I|vm_compute; reflexivity|intros []].
    apply lr_snoc with (l := fst (l_exec ex_env (l_init ex_env) (firstn 1 l_clean))); [|exact Logic.I|vm_compute; reflexivity|intros []].
    apply lr_snoc with (l := l_init ex_env); [constructor|exact Logic.I|vm_compute; reflexivity|intros []].
  - vm_compute. auto.
Qed.

(** Without that, the infos of a domain that ended are lost for ever: the mixin can be registered in no domain ... *)
Theorem C73_lost_mixin : forall E tr l m d tr2 l2, lrun E any_end (l_init E) tr l -> l_dead l d = true -> w_mdom (l_w l) m = Some d -> lrun E any_end l tr2 l2 ->
  forall d2, l_dead l2 d2 = false -> lstep E l2 (LCall (DRegMixin d2 m)) = (l2, Throw EInfoHasDomain).
Proof. exact c73_lost_mixin. Qed.
Print Assumptions C73_lost_mixin.
(** ... and no mixin that has the feature. *)
Theorem C73_lost_feature : forall E tr l f d i l1 tr2 l2, lrun E any_end (l_init E) tr l -> get_feature_by_id (l_w l) d i = Some f -> lstep E l (LDestroy d) = (l1, Ok None) ->
  lrun E any_end l1 tr2 l2 ->
  forall d2 m, l_dead l2 d2 = false -> In f (map ff_info (m_features (e_mixin E m))) -> ~ is_ok (snd (lstep E l2 (LCall (DRegMixin d2 m)))).
Proof. exact c73_lost_feature. Qed.
Print Assumptions C73_lost_feature.
(** It is even undefined behaviour to register a mixin, never registered before, that has a feature which was registered in a domain that ended. *)
Definition l_dirty : lworld := fst (l_exec ex_env (l_init ex_env) [LCall (DRegMixin 0 0); LDestroy 0]).
Theorem C73_unregister_optional_refuted : exists E tr l m m2 d d2, lrun E any_end (l_init E) tr l /\ l_dead l d = true /\ l_dead l d2 = false /\
  w_mdom (l_w l) m = Some d /\ snd (lstep E l (LCall (DRegMixin d2 m))) = Throw EInfoHasDomain /\
  w_mdom (l_w l) m2 = None /\ w_mid (l_w l) m2 = None /\ snd (lstep E l (LCall (DRegMixin d2 m2))) = Ub UbOutOfBounds.
Proof.
  exists ex_env, (snd (l_exec ex_env (l_init ex_env) [LCall (DRegMixin 0 0); LDestroy 0])), l_dirty, 0, 1, 0, 1.
  split; [apply (l_exec_run ex_env _ _ []); [constructor|vm_compute; reflexivity]|]. vm_compute. auto 9.
Qed.
Print Assumptions C73_unregister_optional_refuted.
Example C73_lost_case : exists l l1, lrun ex_env any_end (l_init ex_env) (snd (l_exec ex_env (l_init ex_env) [LCall (DRegMixin 0 0)])) l /\ get_feature_by_id (l_w l) 0 (Some 0) = Some 0 /\
  lstep ex_env l (LDestroy 0) = (l1, Ok None) /\ w_mdom (l_w l1) 0 = Some 0 /\ l_dead l1 1 = false /\ In 0 (map ff_info (m_features (e_mixin ex_env 1))).
Proof.
  exists (fst (l_exec ex_env (l_init ex_env) [LCall (DRegMixin 0 0)])), l_dirty. split; [apply (l_exec_run ex_env _ _ []); [constructor|vm_compute; reflexivity]|]. vm_compute. auto 9.
Qed.
