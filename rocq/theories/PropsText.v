(** Theorems C88: the texts of exceptions *)
From Coq Require Import List Arith ZArith NArith Lia Bool String Ascii.
From Verif Require Import Base Sv Info Registry TypeMut Rules TypeBuild TypeQuery Domain Life SpecLife ExEnv PropsLife Define Texts SpecText TextProofs2 PropsMsg.
Import ListNotations.
Open Scope list_scope.

(** C88, first part. What a text says: it starts with the domain that the call was made on, and names what was wrong. *)
Theorem C88_text : forall E dname l c l' e t, tell E dname l (LCall c) = (l', Told e t) ->
  exists d, on_domain (l_w l) c = Some d /\ lstep E l (LCall c) = (l', Throw e) /\ begins t (shown dname d ++ text ": ") /\ blamed E dname (l_w l) c e t.
Proof. exact c88_text. Qed.
Print Assumptions C88_text.
(** Second part. In programs where domains end after all that was registered in them is unregistered, and mutations are used while their domain exists,
    every exception but those of allocators has a text, and making it reads nothing that was destroyed ... *)
Theorem C88_told : forall E dname tr l c l' e, lrun E clean_end (l_init E) tr l -> alive_mutation l (LCall c) -> lstep E l (LCall c) = (l', Throw e) -> e <> EBadAlloc ->
  exists t, tell E dname l (LCall c) = (l', Told e t).
Proof. exact c88_told. Qed.
Print Assumptions C88_told.
(** ... and texts change nothing of calls that do not throw. *)
Theorem C88_same : forall E dname l o l' r, lstep E l o = (l', r) -> (forall e, r <> Throw e) -> tell E dname l o = (l', Done r).
Proof. exact c88_same. Qed.
Print Assumptions C88_same.
Lemma l_calls_run E ops l0 : forallb (fun o => match o with LCall _ => true | _ => false end) ops = true -> forall tr l, lrun E clean_end l0 tr l -> l_fine (snd (l_exec E l ops)) = true ->
  lrun E clean_end l0 (tr ++ snd (l_exec E l ops)) (fst (l_exec E l ops)).
Proof.
  induction ops as [|o ops IH]; intros HC tr l H; cbn [l_exec]; [cbn; now rewrite app_nil_r|]. cbn [forallb] in HC. apply andb_true_iff in HC as [HO HC].
  destruct (lstep E l o) as [l1 x] eqn:Hs. specialize (IH HC (tr ++ [(o, x)]) l1). destruct (l_exec E l1 ops) as [l2 tr2]. cbn [fst snd] in *.
  intros Hx. cbn in Hx. apply andb_true_iff in Hx as [Hx Ht]. rewrite <- app_assoc in IH. apply IH; auto. econstructor; eauto; [destruct o; [exact Logic.I|discriminate]|]. destruct x; simpl; try discriminate; auto.
Qed.
(** Mixin 0 is registered in domain 0, which is named, and used for a type of domain 1, which is not. *)
Definition t_names (d : dptr) : list N := match d with O => text "main" | _ => [] end.
Definition t_live : lworld := fst (l_exec ex_env (l_init ex_env) [LCall (DRegMixin 0 0)]).
Example C88_example : lrun ex_env clean_end (l_init ex_env) (snd (l_exec ex_env (l_init ex_env) [LCall (DRegMixin 0 0)])) t_live /\
  snd (tell ex_env t_names t_live (LCall (DGetType 1 [0] true))) =
    Told EForeignMixin (text "unnamed domain: foreign mixin " ++ shown_mixin ex_env 0 ++ text " from 'main' while trying to create type {" ++ shown_mixin ex_env 0 ++ text "}") /\
  snd (tell ex_env t_names t_live (LCall (DRegMixin 0 0))) = Told EIdRegistered (text "main: register mixin " ++ shown_mixin ex_env 0 ++ text " with a valid id 0") /\
  snd (tell ex_env t_names t_live (LCall (DUnregMixin 0 1))) = Told EUnregForeign (text "main: unregister foreign feature " ++ shown_mixin ex_env 1 ++ text ", id = 4294967295, domain = <null>") /\
  snd (tell ex_env t_names t_live (LCall (DGetTypeMut 0 1 [0; 1] true))) =
    Told EForeignMutation (text "main: requested type with foreign mutation {" ++ shown_mixin ex_env 0 ++ text ", " ++ shown_mixin ex_env 1 ++ text "} of domain 'unnamed domain'").
Proof.
  split; [apply (l_calls_run ex_env [LCall (DRegMixin 0 0)] _ eq_refl []); [constructor|vm_compute; reflexivity]|]. vm_compute. auto 9.
Qed.

(** Third part. Without that, there is no exception to catch: a mixin that was left in a domain that ended cannot be registered or unregistered anywhere,
    at any later time, without undefined behaviour. *)
Theorem C88_lost : forall E dname tr l m d tr2 l2, lrun E any_end (l_init E) tr l -> l_dead l d = true -> w_mdom (l_w l) m = Some d -> lrun E any_end l tr2 l2 -> forall d2,
  snd (tell E dname l2 (LCall (DRegMixin d2 m))) = Done (Ub UbDangling) /\ exists u, snd (tell E dname l2 (LCall (DUnregMixin d2 m))) = Done (Ub u).
Proof. exact c88_lost. Qed.
Print Assumptions C88_lost.
(** The same happens to a type that is asked for with it, or with a mutation of that domain, although the call itself finds the mistake. *)
Theorem C88_exception_refuted : exists E dname tr l m d d2, lrun E any_end (l_init E) tr l /\ l_dead l d = true /\ l_dead l d2 = false /\ w_mdom (l_w l) m = Some d /\
  snd (lstep E l (LCall (DGetType d2 [m] true))) = Throw EForeignMixin /\ snd (tell E dname l (LCall (DGetType d2 [m] true))) = Done (Ub UbDangling) /\
  snd (lstep E l (LCall (DGetTypeMut d2 d [] true))) = Throw EForeignMutation /\ snd (tell E dname l (LCall (DGetTypeMut d2 d [] true))) = Done (Ub UbDangling).
Proof.
  exists ex_env, t_names, (snd (l_exec ex_env (l_init ex_env) [LCall (DRegMixin 0 0); LDestroy 0])), l_dirty, 0, 0, 1.
  split; [apply (l_exec_run ex_env _ _ []); [constructor|vm_compute; reflexivity]|]. vm_compute. auto 9.
Qed.
Print Assumptions C88_exception_refuted.
Example C88_lost_case : lrun ex_env any_end (l_init ex_env) (snd (l_exec ex_env (l_init ex_env) [LCall (DRegMixin 0 0); LDestroy 0])) l_dirty /\
  l_dead l_dirty 0 = true /\ w_mdom (l_w l_dirty) 0 = Some 0.
Proof. split; [apply (l_exec_run ex_env _ _ []); [constructor|vm_compute; reflexivity]|]. vm_compute. auto. Qed.
(** A clash: mixins 0 and 2 of [ex_clash]. *)
Definition t_clash : lworld := fst (l_exec ex_clash (l_init ex_clash) [LCall (DRegMixin 0 0); LCall (DRegMixin 0 1); LCall (DRegMixin 0 2)]).
Example C88_clash_case : snd (tell ex_clash t_names t_clash (LCall (DGetType 0 [0; 1; 2] true))) =
  Told EFeatureClash (text "main: feature clash in {'a', 'b', 'c'} on " ++ shown_feature ex_clash 0 ++ text " between 'c' and 'a'").
Proof. vm_compute. reflexivity. Qed.
