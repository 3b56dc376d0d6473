(** Theorems C69 and C70: the C interface *)
From Coq Require Import List Arith ZArith NArith Lia Bool.
From Verif Require Import Base Sv Info Registry TypeMut Rules TypeBuild TypeQuery Domain SpecLayout Heap Mutation Object SpecObj ExEnv ExObj ObjProofs ActProofs3
  CApi SpecC CProofs CProofs2.
Import ListNotations.

(** Programs in C, run *)
Section Exec.
Variable E : env.
Variable U : user.
Fixpoint c_exec (c : cstate) (xs : list ccall) : cstate * list (ccall * cret) * bool :=
  match xs with
  | [] => (c, [], true)
  | x :: r =>
    match c_run E U c x with
    | (c', CRet v) =>
      let '(c2, tr, ok) := c_exec c' r in
      (c2, (x, v) :: tr, (match cpp_of c x with Some op => fairb E (cs_s c) op | None => true end) && ok)
    | (c', _) => (c', [], false)
    end
  end.
Lemma c_exec_hist (AM : aligned_mixins E) xs : forall tr c, c_hist E U (c_fair E) tr c -> snd (c_exec c xs) = true ->
  c_hist E U (c_fair E) (tr ++ snd (fst (c_exec c xs))) (fst (fst (c_exec c xs))).
Proof.
  induction xs as [|x xs IH]; intros tr c H Hok; cbn [c_exec] in *; [cbn; now rewrite app_nil_r|].
  destruct (c_run E U c x) as [c' [v|e|u]] eqn:R; try discriminate Hok. specialize (IH (tr ++ [(x, v)]) c'). destruct (c_exec c' xs) as [[c2 tr2] ok]. cbn [fst snd] in *.
  apply andb_true_iff in Hok as [Hf Hok]. rewrite <- app_assoc in IH. apply IH; auto. apply (ch_snoc _ _ _ _ _ _ _ _ H); [|exact R].
  intros op Hop. rewrite Hop in Hf. destruct (c70_history E U _ _ H) as [tr' HH]. apply fairb_ok; auto. apply (iv_reach _ _ (proj1 (history_inv E U AM _ _ HH))).
Qed.
Definition c_after (xs : list ccall) : cstate := fst (fst (c_exec (c_init E) xs)).
Definition c_results (xs : list ccall) : list cret := map snd (snd (fst (c_exec (c_init E) xs))).
Definition c_fine (xs : list ccall) : bool := snd (c_exec (c_init E) xs).
Lemma c_after_hist (AM : aligned_mixins E) xs : c_fine xs = true -> c_hist E U (c_fair E) (snd (fst (c_exec (c_init E) xs))) (c_after xs).
Proof. intros H. apply (c_exec_hist AM xs [] (c_init E)); auto. constructor. Qed.
End Exec.

(** C69, partial: in programs that keep the contracts of the C++ operations, exceptions leave a function of the C interface in exactly three
    cases: dnmx_unregister_feature and dnmx_unregister_mixin of something that is not registered there, and dnmx_object_reset_type(object, NULL) of a sealed object.
    Missing: these three; see below. *)
Theorem C69_lets_out_partial : forall E U tr c x, aligned_mixins E -> c_hist E U (c_fair E) tr c -> c_fair E c x ->
  ((exists c' e, c_run E U c x = (c', CEscape e)) <-> lets_out c x).
Proof. exact c69. Qed.
Print Assumptions C69_lets_out_partial.

(** A type is made from a mutation, then an object of it; mixin 0 cannot be registered twice (-1); a mutation handle is used after memory ran out; the object is
    copied, compared, sealed; then it cannot be cleared. *)
Definition ex_c : list ccall :=
  [CRegMixin 0 0; CRegMixin 0 0; CRegMixin 0 1; CTmEmpty false 9 0; CTmEmpty true 9 0; CTmAdd true 9 0; CTmAdd true 9 0; CTmAdd true 9 1; CTmDedup 9; CTmAdd false 9 5;
   CGetType true 0 9; CCreateDefault true false 1 (TReg 0); CCreateCopy true false 2 1; CCreateCopy false false 3 1; CCompare 1 2; CSeal 1; CClear 1; CReset false 1 (Some (TEmpty 0));
   CTmFromType true 8 (TReg 0); CTmToBack 8 0; CTmAdd true 8 5; CGetType true 0 8; CClear 2; CUnregTc 0 3; CGc 0].
Definition ex_cst : cstate := c_after ob_env (ob_user []) ex_c.
Example C69_example : aligned_mixins ob_env /\ c_fine ob_env (ob_user []) ex_c = true /\
  c_results ob_env (ob_user []) ex_c =
    [CCode true; CCode false; CCode true; CHandle None; CHandle (Some 9); CCode true; CCode true; CCode true; CVoid; CCode false;
     CType (Some (TReg 0)); CHandle (Some 1); CHandle (Some 2); CHandle None; CInt (Some 0%Z); CVoid; CCode false; CCode false;
     CHandle (Some 8); CCode true; CCode true; CType None; CCode true; CVoid; CVoid] /\
  map (cs_tm ex_cst) [8; 9] = [None; None].
Proof. split; [exact ob_aligned|]. vm_compute. auto. Qed.

Lemma snd_pair {A B} (p : A * B) b : snd p = b -> p = (fst p, b).
Proof. intros <-. apply surjective_pairing. Qed.
(** dnmx_object_reset_type(object, NULL) is meant to clear the object; for a sealed one the exception of clear() is not caught. *)
Theorem C69_reset_refuted : exists E U tr c x c' e, aligned_mixins E /\ c_hist E U (c_fair E) tr c /\ c_fair E c x /\ (exists o, x = CReset false o None) /\
  c_run E U c x = (c', CEscape e) /\ e = ESealed.
Proof.
  exists ob_env, (ob_user []), (snd (fst (c_exec ob_env (ob_user []) (c_init ob_env) ex_c))), ex_cst, (CReset false 1 None), (fst (c_run ob_env (ob_user []) ex_cst (CReset false 1 None))), ESealed.
  split; [exact ob_aligned|]. split; [apply (c_after_hist _ _ ob_aligned); vm_compute; reflexivity|].
  split; [intros op H; injection H as <-; apply typedb_ok; vm_compute; reflexivity|]. split; [eauto|]. split; [|reflexivity]. apply snd_pair. vm_compute. reflexivity.
Qed.
Print Assumptions C69_reset_refuted.
(** dnmx_unregister_mixin of a mixin whose registration failed *)
Theorem C69_unregister_refuted : exists E U tr c d m c' e, aligned_mixins E /\ c_hist E U (c_fair E) tr c /\ c_fair E c (CUnregMixin d m) /\
  c_run E U c (CUnregMixin d m) = (c', CEscape e) /\ e = EUnregForeign.
Proof.
  exists ob_env, (ob_user []), (snd (fst (c_exec ob_env (ob_user []) (c_init ob_env) ex_c))), ex_cst, 0, 5,
    (fst (c_run ob_env (ob_user []) ex_cst (CUnregMixin 0 5))), EUnregForeign.
  split; [exact ob_aligned|]. assert (H : c_hist ob_env (ob_user []) (c_fair ob_env) (snd (fst (c_exec ob_env (ob_user []) (c_init ob_env) ex_c))) ex_cst) by (apply (c_after_hist _ _ ob_aligned); vm_compute; reflexivity).
  split; [exact H|]. split; [|split; [apply snd_pair; vm_compute; reflexivity|reflexivity]].
  intros op X. injection X as <-. destruct (c70_history _ _ _ _ H) as [tr' HH]. apply fairb_ok; [|vm_compute; reflexivity]. apply (iv_reach _ _ (proj1 (history_inv _ _ ob_aligned _ _ HH))).
Qed.
Print Assumptions C69_unregister_refuted.

(** C70. A call of the C interface does what the C++ operation does that it stands for, and its result says success or failure accordingly; the calls that stand for
    none change neither domains nor objects. *)
Theorem C70_same : forall E U c x c' out, c_run E U c x = (c', out) ->
  match cpp_of c x with
  | Some op => exists r, op_run E U op (cs_s c) = (cs_s c', r) /\ reports out r
  | None => cs_s c' = cs_s c /\ forall e, out <> CEscape e
  end.
Proof. exact c70_same. Qed.
Print Assumptions C70_same.
(** Calls use the type mutation they are given only; dnmx_get_type consumes it, whether it succeeds or not, and gives the type of its mixins. *)
Theorem C70_mutations : forall E U c x c' out, c_run E U c x = (c', out) ->
  (forall h, mutation_of x <> Some h -> cs_tm c' h = cs_tm c h) /\
  (forall aok d h, x = CGetType aok d h -> cs_tm c' h = None) /\
  (forall aok d h dm q, x = CGetType aok d h -> cs_tm c h = Some (dm, q) -> forall t,
     out = CRet (CType (Some t)) <-> dstep E (s_w (cs_s c)) (DGetTypeMut d dm q aok) = (s_w (cs_s c'), Ok (Some t))).
Proof. exact c70_mutations. Qed.
Print Assumptions C70_mutations.
(** The result of a call that succeeds: the handle of the new object, success, a type. *)
Theorem C70_answers : forall E U c x c' out op, c_run E U c x = (c', out) -> cpp_of c x = Some op -> snd (op_run E U op (cs_s c)) = Ok tt ->
  exists v, out = CRet v /\ answer x v.
Proof. exact c70_answers. Qed.
Print Assumptions C70_answers.
(** dnmx_get_type_from_infos gives the type that domain::get_type gives. *)
Theorem C70_types : forall E U c c' out aok d q t, c_run E U c (CGetTypeInfos aok d q) = (c', out) ->
  (out = CRet (CType (Some t)) <-> dstep E (s_w (cs_s c)) (DGetType d q aok) = (s_w (cs_s c'), Ok (Some t))).
Proof. exact c70_types. Qed.
Print Assumptions C70_types.
(** dnmx_object_compare gives what object::compare gives, and an error just if that throws. *)
Theorem C70_compare : forall E U c o o' c' out, c_run E U c (CCompare o o') = (c', out) ->
  (forall z, out = CRet (CInt (Some z)) <-> compare E U (cs_s c) o o' = Ok z) /\ (out = CRet (CInt None) <-> exists e, compare E U (cs_s c) o o' = Throw e).
Proof. exact c70_compare. Qed.
Print Assumptions C70_compare.
(** dnmx_type_is_of_name gives what type::is_of gives, and false just if that is false or throws. *)
Theorem C70_is_of : forall E U c t nm c' out ty, w_type (s_w (cs_s c)) t = Some ty -> c_run E U c (CIsOf t nm) = (c', out) ->
  let r := TypeQuery.is_of E ty (get_type_class E (s_w (cs_s c)) (t_dom ty) nm) in
  (out = CRet (CCode true) <-> r = Ok true) /\ (out = CRet (CCode false) <-> r = Ok false \/ exists e, r = Throw e).
Proof. exact c70_is_of. Qed.
Print Assumptions C70_is_of.
(** The calls on a type mutation change its list of mixins and answer as [edits] says; a call that cannot do its work leaves the list as it is. *)
Theorem C70_edits : forall E U c x h d l c' out, edits_mutation x h -> cs_tm c h = Some (d, l) -> c_run E U c x = (c', out) ->
  exists l' v, out = CRet v /\ cs_tm c' h = Some (d, l') /\ edits E x l l' v.
Proof. exact c70_edits. Qed.
Print Assumptions C70_edits.
(** The life of type mutation handles: made empty or from a type, destroyed; used after that or before, undefined behaviour. *)
Theorem C70_mutation_life : forall E U c c' out,
  (forall nok h d, c_run E U c (CTmEmpty nok h d) = (c', out) ->
     if nok then out = CRet (CHandle (Some h)) /\ cs_tm c' h = Some (d, []) else out = CRet (CHandle None) /\ cs_tm c' h = cs_tm c h) /\
  (forall nok h t ty, w_type (s_w (cs_s c)) t = Some ty -> c_run E U c (CTmFromType nok h t) = (c', out) ->
     if nok then out = CRet (CHandle (Some h)) /\ cs_tm c' h = Some (t_dom ty, t_mixins ty) else out = CRet (CHandle None) /\ cs_tm c' h = cs_tm c h) /\
  (forall h, cs_tm c h <> None -> c_run E U c (CTmDestroy h) = (c', out) -> out = CRet CVoid /\ cs_tm c' h = None) /\
  (forall x h, edits_mutation x h \/ x = CTmDestroy h -> cs_tm c h = None -> c_run E U c x = (c', out) -> exists u, out = CUb u).
Proof. exact c70_mutation_life. Qed.
Print Assumptions C70_mutation_life.
(** So whatever holds in all histories of C++ programs holds in those of C programs. *)
Theorem C70_history : forall E U tr c, c_hist E U (c_fair E) tr c -> exists tr', history E U tr' (cs_s c).
Proof. exact c70_history. Qed.
Print Assumptions C70_history.
Example C70_example : c_hist ob_env (ob_user []) (c_fair ob_env) (snd (fst (c_exec ob_env (ob_user []) (c_init ob_env) ex_c))) ex_cst /\
  option_map (fun x => (o_type x, o_sealed x)) (s_obj (cs_s ex_cst) 1) = Some (Some (TReg 0), true) /\
  option_map (fun x => (o_type x, o_sealed x)) (s_obj (cs_s ex_cst) 2) = Some (Some (TEmpty 0), false) /\ s_obj (cs_s ex_cst) 3 = None.
Proof. split; [apply (c_after_hist _ _ ob_aligned); vm_compute; reflexivity|]. vm_compute. auto. Qed.
(** After the mutation 8 is made from the type with the mixins 0 1 *)
Definition ex_cst2 : cstate := c_after ob_env (ob_user []) (firstn 19 ex_c).
Definition ex_cout (c : cstate) (x : ccall) : cout * option (dptr * list mptr) := let r := c_run ob_env (ob_user []) c x in (snd r, cs_tm (fst r) 8).
Example C70_example2 : cs_tm ex_cst2 8 = Some (0, [0; 1]) /\ edits_mutation (CTmToBack 8 0) 8 /\
  ex_cout ex_cst2 (CTmToBack 8 0) = (CRet (CCode true), Some (0, [1; 0])) /\ ex_cout ex_cst2 (CTmRemoveName 8 [98]%N) = (CRet (CMixin (Some 1)), Some (0, [0])) /\
  ex_cout ex_cst2 (CTmAddIfLacking true 8 1) = (CRet (CCode false), Some (0, [0; 1])) /\
  ex_cout ex_cst2 (CCompare 1 2) = (CRet (CInt (Some 0%Z)), Some (0, [0; 1])) /\
  ex_cout ex_cst2 (CIsOf (TReg 0) [120]%N) = (CRet (CCode false), Some (0, [0; 1])) /\
  fst (ex_cout ex_cst2 (CGetTypeInfos true 0 [1; 0])) = CRet (CType (Some (TReg 1))) /\
  fst (ex_cout ex_cst2 (CTmDestroy 9)) = CUb UbDangling.
Proof. vm_compute. repeat split. Qed.
