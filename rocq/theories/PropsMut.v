(** Properties of copies, comparisons, counts and mutations of objects *)
From Coq Require Import List Arith ZArith NArith Lia Bool.
From Verif Require Import Base Sv Info TypeBuild TypeQuery MixinInfo Domain SpecReg SpecDom SpecOrd SpecLayout SpecList Heap Mutation Object SpecObj SpecMut SpecLog SpecAct
  HonestProofs ObjTheorems ObjTheorems2 ObjTheorems3 ObjTheorems4 ObjTheorems5 ObjTheorems6 ObjTheorems7 ObjTheorems8 ObjTheorems9 ObjTheorems10 ExEnv ExObj PropsObj.
Import ListNotations.
Ltac ob_hist := apply ob_history; vm_compute; reflexivity.
Ltac ob_can := apply ob_fair; vm_compute; reflexivity.
Ltac ob_does := apply ob_run; vm_compute; reflexivity.

(** C41. *)
Theorem C41_copy : forall E U tr s o src a s', aligned_mixins E -> history E U tr s -> fair E s (OCopy false o src a) -> op_run E U (OCopy false o src a) s = (s', Ok tt) ->
  otype s' o = otype s src /\ (exists l, did s s' l /\
    (forall i m q v, holds s src i m q v -> exists p, holds s' o i m p v /\ allocation s (fst p) = None /\ calls m l = [EvCall FCopyInit m p (Some q) 0%Z]) /\
    (forall m, ~ has_some s src m -> calls m l = [])) /\
  (forall i m p v, holds s' o i m p v -> exists q, holds s src i m q v) /\
  (forall o', o' <> o -> s_obj s' o' = s_obj s o' /\ forall i m p v, holds s' o' i m p v <-> holds s o' i m p v) /\
  (with_type_set s src -> can_equal E s src -> user_equalities E U -> equals E U s' o src = Ok true).
Proof. intros E U tr s o src a s' A H. by_history A H. exact (copy_ok E U A s o src a s' I T). Qed.
Print Assumptions C41_copy.
Theorem C41_failed : forall E U tr s o src a unw s' e, aligned_mixins E -> history E U tr s -> fair E s (OCopy unw o src a) -> op_run E U (OCopy unw o src a) s = (s', Throw e) ->
  unchanged s s' /\ types_kept s s' /\ (forall o' i m p v, holds s' o' i m p v <-> holds s o' i m p v).
Proof. intros E U tr s o src a unw s' e A H. by_history A H. exact (copy_throw E U A s o src a unw s' e I T). Qed.
Print Assumptions C41_failed.
Example C41_example : forall bad r, In (bad, r) [([], Ok tt); ([23], Throw EBadAlloc); ([26], Throw (EUserFunc 7))] ->
  history ob_env (ob_user bad) (ob_trace bad []) (ob_st bad []) /\ fair ob_env (ob_st bad []) (OCopy false 9 3 7) /\
  op_run ob_env (ob_user bad) (OCopy false 9 3 7) (ob_st bad []) = (ob_next bad [] (OCopy false 9 3 7), r).
Proof. intros bad r H. cbn [In] in H. repeat (destruct H as [H|H]; [injection H as <- <-; split; [ob_hist|split; [ob_can|ob_does]]|]). destruct H. Qed.

(** C42. *)
Theorem C42_copy_from : forall E U tr s o src s', aligned_mixins E -> history E U tr s -> fair E s (OCopyFrom false o src) -> op_run E U (OCopyFrom false o src) s = (s', Ok tt) ->
  ~ sealed s o /\ otype s' o = otype s src /\ (forall o', o' <> o -> s_obj s' o' = s_obj s o' /\ forall i m p v, holds s' o' i m p v <-> holds s o' i m p v) /\
  (forall i m q v, holds s src i m q v -> exists p, holds s' o i m p v) /\ (forall i m p v, holds s' o i m p v -> exists q, holds s src i m q v) /\
  (is_nonempty s src -> exists r l, otype s src = Some r /\ mutated E s s' o r (copies_made E s src) (copies_assigned E s src) l) /\
  (~ is_nonempty s src -> exists l, wiped E s s' o l).
Proof. intros E U tr s o src s' A H. by_history A H. exact (from_ok E U A s o src s' I T). Qed.
Print Assumptions C42_copy_from.
Theorem C42_failed : forall E U tr s o src unw s' e, aligned_mixins E -> history E U tr s -> fair E s (OCopyFrom unw o src) -> op_run E U (OCopyFrom unw o src) s = (s', Throw e) ->
  (forall o', s_obj s' o' = s_obj s o') /\ types_kept s s' /\ (forall b, allocation s' b = allocation s b) /\
  (forall j m p v, holds s o j m p v -> exists v', holds s' o j m p v') /\ (forall o' i m p v, o' <> o -> (holds s' o' i m p v <-> holds s o' i m p v)) /\
  match e with
  | ESealed => sealed s o
  | EMissingFunc => exists m, has_some s src m /\ (has_some s o m /\ m_copy_asgn (e_mixin E m) = false \/ ~ has_some s o m /\ m_copy_init (e_mixin E m) = false)
  | EUserFunc _ | EBadAlloc => True
  | _ => False
  end.
Proof. intros E U tr s o src unw s' e A H. by_history A H. exact (from_throw E U A s o src unw s' e I T). Qed.
Print Assumptions C42_failed.
(** Object 4 has the mixins 1 3 5, object 3 the mixins 1 5 0. In the last case the second assignment fails, and mixin 1
    has the new value already and mixin 5 what the failing function left. *)
Example C42_example : forall bad r vs, In (bad, r, vs) [([], Ok tt, [10; 11; 12]%Z); ([22], Throw EBadAlloc, [15; 16; 17]%Z); ([24], Throw (EUserFunc 7), [10; 16; 24]%Z)] ->
  history ob_env (ob_user bad) (ob_trace bad []) (ob_st bad []) /\ fair ob_env (ob_st bad []) (OCopyFrom false 4 3) /\
  op_run ob_env (ob_user bad) (OCopyFrom false 4 3) (ob_st bad []) = (ob_next bad [] (OCopyFrom false 4 3), r) /\ map snd (ob_values (ob_next bad [] (OCopyFrom false 4 3)) 4) = vs.
Proof. intros bad r vs H. cbn [In] in H. repeat (destruct H as [H|H]; [injection H as <- <- <-; split; [ob_hist|split; [ob_can|split; [ob_does|vm_compute; reflexivity]]]|]). destruct H. Qed.

(** C43. Full statement of the second: without the part of [fair] that excludes o = src with the fallback. *)
Theorem C43_copy_matching : forall E U tr s o src s' res, aligned_mixins E -> history E U tr s -> fair E s (OCopyMatching o src) -> op_run E U (OCopyMatching o src) s = (s', res) ->
  match res with
  | Ok _ => only_shared s s' o src false /\ exists l, did s s' l /\
      (forall m p q v w, shares s o src m p q v w -> instance s' p = Some {| i_mixin := m; i_val := w |} /\ calls m l = [EvCall FCopyAsgn m p (Some q) 0%Z]) /\
      (forall m, ~ (has_some s o m /\ has_some s src m) -> calls m l = [])
  | Throw e => only_shared s s' o src false /\
      match e with EMissingFunc => s' = s /\ exists m, has_some s o m /\ has_some s src m /\ m_copy_asgn (e_mixin E m) = false | EUserFunc _ => True | _ => False end
  | Ub _ => False
  end.
Proof. intros E U tr s o src s' res A H. by_history A H. exact (cmatch_spec E U A s o src s' res I T). Qed.
Print Assumptions C43_copy_matching.
Theorem C43_move_matching_partial : forall E U tr s fb o src s' res, aligned_mixins E -> history E U tr s -> fair E s (OMoveMatching fb o src) -> op_run E U (OMoveMatching fb o src) s = (s', res) ->
  match res with
  | Ok _ => only_shared s s' o src true /\ exists l, did s s' l /\
      (forall m p q v w, shares s o src m p q v w -> (o <> src -> instance s' p = Some {| i_mixin := m; i_val := w |}) /\ calls m l = moving E m p q) /\
      (forall m, ~ (has_some s o m /\ has_some s src m) -> calls m l = [])
  | Throw e => s' = s /\ e = EMissingFunc /\ exists m, has_some s o m /\ has_some s src m /\ m_move_asgn (e_mixin E m) = false /\ (fb = true -> m_move_init (e_mixin E m) = false)
  | Ub _ => False
  end.
Proof. intros E U tr s fb o src s' res A H. by_history A H. exact (mmatch_spec E U A s fb o src s' res I T). Qed.
Print Assumptions C43_move_matching_partial.
(** Objects 4 and 3 share the mixins 1 and 5; objects 7 and 8 have type 3 and share the mixins 0, 3 and 4. *)
Definition ob_two : list oop := [ONew false 7 (TReg 3) 7 false; ONew false 8 (TReg 3) 7 false].
Example C43_example : history ob_env (ob_user []) (ob_trace [] ob_two) (ob_st [] ob_two) /\
  fair ob_env (ob_st [] ob_two) (OCopyMatching 4 3) /\ op_run ob_env (ob_user []) (OCopyMatching 4 3) (ob_st [] ob_two) = (ob_next [] ob_two (OCopyMatching 4 3), Ok tt) /\
  map snd (ob_values (ob_next [] ob_two (OCopyMatching 4 3)) 4) = [10; 16; 11]%Z /\
  fair ob_env (ob_st [] ob_two) (OCopyMatching 7 8) /\ snd (op_run ob_env (ob_user []) (OCopyMatching 7 8) (ob_st [] ob_two)) = Throw EMissingFunc /\
  fair ob_env (ob_st [] ob_two) (OMoveMatching true 7 8) /\ snd (op_run ob_env (ob_user []) (OMoveMatching true 7 8) (ob_st [] ob_two)) = Ok tt /\
  length (ob_events [] ob_two (OMoveMatching true 7 8)) = 3 /\ snd (op_run ob_env (ob_user []) (OMoveMatching true 4 3) (ob_st [] ob_two)) = Throw EMissingFunc.
Proof. split; [ob_hist|]. split; [ob_can|]. split; [ob_does|]. split; [vm_compute; reflexivity|]. split; [ob_can|]. split; [vm_compute; reflexivity|]. split; [ob_can|]. vm_compute. auto. Qed.

(** C44. *)
Theorem C44_equals : forall E U tr s a b c, aligned_mixins E -> history E U tr s -> with_type_set s a -> with_type_set s b -> with_type_set s c -> can_equal E s a -> user_equalities E U ->
  equals E U s a a = Ok true /\
  (otype s a <> otype s b -> equals E U s a b = Ok false) /\
  (equals E U s a b = Ok true -> equals E U s b a = Ok true) /\
  (equals E U s a b = Ok true -> equals E U s b c = Ok true -> equals E U s a c = Ok true) /\
  (otype s a = otype s b -> (forall i m p v q w, holds s a i m p v -> holds s b i m q w -> v = w) -> equals E U s a b = Ok true).
Proof. intros E U tr s a b c A H. by_history A H. exact (equals_laws E U s a b c I T). Qed.
Print Assumptions C44_equals.
Theorem C44_compare : forall E U tr s a b c, aligned_mixins E -> history E U tr s -> regular_mixins E -> user_orders E U ->
  with_type_set s a -> with_type_set s b -> with_type_set s c -> can_compare E s a -> can_compare E s b -> can_compare E s c ->
  exists zab zba zbc zac, compare E U s a b = Ok zab /\ compare E U s b a = Ok zba /\ compare E U s b c = Ok zbc /\ compare E U s a c = Ok zac /\
    (Z.sgn zba = - Z.sgn zab)%Z /\ ((zab <= 0 -> zbc <= 0 -> zac <= 0) /\ (zab < 0 -> zbc <= 0 -> zac < 0) /\ (zab <= 0 -> zbc < 0 -> zac < 0))%Z /\
    (zab = 0%Z -> otype s a = otype s b) /\ (user_agrees E U -> (zab = 0%Z <-> equals E U s a b = Ok true)).
Proof. intros E U tr s a b c A H. by_history A H. exact (compare_laws E U s a b c I T). Qed.
Print Assumptions C44_compare.
Lemma ob_begin m : sv_begin (m_name (ob_mixins m)) = if m <? 5 then (100 * (1 + N.of_nat m))%N else (600 + N.of_nat m)%N.
Proof. do 7 (destruct m as [|m]; [reflexivity|]). change (ob_mixins (S (S (S (S (S (S (S m)))))))) with (set_size_alignment (ob_mixin (ex_sv (600 + N.of_nat (S (S (S (S (S (S (S m)))))))) [102; N.of_nat (S (S (S (S (S (S (S m)))))))]%N) true true true true false true None) 8 4). reflexivity. Qed.
Lemma ob_regular : regular_mixins ob_env.
Proof.
  split.
  - intros a. unfold view_wf. cbn [ob_env e_mixin]. rewrite ob_begin. destruct (a <? 5); lia.
  - intros a b. cbn [ob_env e_mixin]. rewrite !ob_begin. intros H. assert (a = b); [|now subst]. destruct (Nat.ltb_spec a 5), (Nat.ltb_spec b 5); lia.
Qed.
(** Values are compared as numbers. Object 6 is a copy of 1; 2 has the same type and other values; 3 has another type. *)
Example C44_example : let s := ob_st [] [] in history ob_env (ob_user []) (ob_trace [] []) s /\ regular_mixins ob_env /\ user_orders ob_env (ob_user []) /\ user_equalities ob_env (ob_user []) /\ user_agrees ob_env (ob_user []) /\
  (forall o, In o [1; 2; 3; 6] -> with_type_set s o /\ can_compare ob_env s o /\ can_equal ob_env s o) /\
  equals ob_env (ob_user []) s 1 6 = Ok true /\ compare ob_env (ob_user []) s 1 6 = Ok 0%Z /\ equals ob_env (ob_user []) s 1 2 = Ok false /\ compare ob_env (ob_user []) s 1 2 = Ok (-4)%Z /\
  compare ob_env (ob_user []) s 1 3 = Ok (-1)%Z.
Proof.
  split; [ob_hist|]. split; [exact ob_regular|].
  split. { intros m _ v w z. cbn. split; [|lia]. rewrite <- Z.sgn_opp. f_equal. lia. }
  split. { intros m Hm v w z. unfold val_eq. cbn in *. destruct (m_equals (ob_mixins m)) eqn:He; [split; [apply Z.eqb_refl|split; intros; apply Z.eqb_eq; repeat match goal with H : (_ =? _)%Z = true |- _ => apply Z.eqb_eq in H end; congruence]|]. assert (Hc : m_compare (ob_mixins m) = true) by (destruct Hm; congruence). repeat split; auto; lia. }
  split. { intros m v w _ _. cbn. rewrite Z.eqb_eq. lia. }
  split; [|vm_compute; auto].
  assert (Hx : forall o, In o [1; 2; 3; 6] -> (exists x, s_obj (ob_st [] []) o = Some x /\ o_type x <> None) /\ exists t, recb (ob_st [] []) o = Some (match o with 3 => TReg 1 | _ => TReg 0 end, t) /\ comparable ob_env t = true).
  { intros o Ho. cbn [In] in Ho. repeat (destruct Ho as [<-|Ho]; [split; [eexists; split; [vm_compute; reflexivity|vm_compute; discriminate]|eexists; split; vm_compute; reflexivity]|]). destruct Ho. }
  intros o Ho. destruct (Hx o Ho) as (H1 & t & H2 & H3). split; [exact H1|]. unfold comparable in H3. rewrite forallb_forall in H3.
  assert (Hc : forall m, has_some (ob_st [] []) o m -> m_compare (e_mixin ob_env m) = true).
  { intros m (i & r & t' & Hto & Hn). rewrite (recb_of _ _ _ _ Hto) in H2. injection H2 as _ ->. apply H3. eapply nth_error_In; eauto. }
  split; [exact Hc|]. intros m Hm. right. auto.
Qed.

(** C45. *)
Theorem C45_num_objects : forall E U tr s r t, aligned_mixins E -> history E U tr s -> w_type (s_w s) r = Some t ->
  exists l, NoDup l /\ length l = t_nobj t /\ forall o, In o l <-> is_nonempty s o /\ exists t', type_of s o r t'.
Proof. intros E U tr s r t A. exact (c45 E U A tr s r t). Qed.
Print Assumptions C45_num_objects.
Example C45_example : history ob_env (ob_user [24]) (ob_trace [24] (firstn 3 ob_end)) (ob_st [24] (firstn 3 ob_end)) /\
  map (fun k => t_nobj (ob_type (ob_st [24] (firstn 3 ob_end)) (TReg k))) [0; 1; 2; 3; 4] = [1; 1; 0; 0; 1] /\ map (fun k => t_nobj (ob_type (ob_st [] []) (TReg k))) [0; 1; 2; 3; 4] = [3; 1; 0; 0; 1].
Proof. split; [ob_hist|]. vm_compute. auto. Qed.

(** C46. *)
Theorem C46_type_valid : forall E U tr s o x r, aligned_mixins E -> history E U tr s -> s_obj s o = Some x -> o_type x = Some r ->
  exists d t, has_type (s_w s) d r t /\ (forall m, In m (t_mixins t) -> w_mdom (s_w s) m = Some d) /\ (o_data x <> None <-> t_mixins t <> []).
Proof. intros E U tr s o x r A. exact (c46 E U A tr s o x r). Qed.
Print Assumptions C46_type_valid.
(** Garbage collection removes the types without objects; mixin 2 is in none and can be unregistered. *)
Definition ob_gc : list oop := [ODom (DGc 0); ODom (DUnregMixin 0 2)].
Example C46_example : let s := ob_st [] ob_gc in history ob_env (ob_user []) (ob_trace [] ob_gc) s /\ d_types (w_dom (s_w s) 0) = [TReg 0; TReg 1; TReg 4] /\
  length (d_types (w_dom (s_w (ob_st [] [])) 0)) = 5 /\ w_mdom (s_w s) 2 = None.
Proof. split; [ob_hist|]. vm_compute. auto. Qed.

(** C47. The functions that reset the type directly: reset_type, mutate_to without ops, and gradual mutation. The
    contracts ([fair]) exclude the others, for which the claim is false (below). *)
Theorem C47_emptied_partial : forall E U tr s op o s' r t, aligned_mixins E -> history E U tr s -> fair E s op -> mutates op = Some (o, false) -> op_run E U op s = (s', Ok tt) ->
  wanted E s op r t -> t_mixins t = [] ->
  otype s' o = Some r /\ ~ is_nonempty s' o /\ (forall m, ~ has_some s' o m) /\
  exists l, did s s' l /\ (forall j m p v, holds s o j m p v -> calls m l = destruction E m p /\ allocation s' (fst p) = None) /\ (forall m, ~ has_some s o m -> calls m l = []) /\
    (forall b, owns E s o b -> allocation s' b = None) /\ (forall b, ~ owns E s o b -> allocation s' b = allocation s b) /\
    (forall b, allocation s b <> None -> ~ owns E s o b -> same_block s s' b).
Proof. intros E U tr s op o s' r t A H. by_history A H. exact (empty_target E U A s op o s' r t I T). Qed.
Print Assumptions C47_emptied_partial.
Theorem C47_clear : forall E U tr s o s' res, aligned_mixins E -> history E U tr s -> fair E s (OClear o) -> op_run E U (OClear o) s = (s', res) ->
  match res with
  | Ok _ => ~ sealed s o /\ (exists l, wiped E s s' o l) /\ exists x d, object_domain s o d /\ s_obj s o = Some x /\ s_obj s' o = Some (with_otype (with_odata x None) (Some (TEmpty d)))
  | Throw e => s' = s /\ e = ESealed /\ sealed s o
  | Ub _ => False
  end.
Proof. intros E U tr s o s' res A H. by_history A H. exact (clear_spec E U A s o s' res I T). Qed.
Print Assumptions C47_clear.
(** The destructor *)
Theorem C47_destroyed : forall E U tr s o s' res, aligned_mixins E -> history E U tr s -> fair E s (ODtor o) -> op_run E U (ODtor o) s = (s', res) ->
  res = Ok tt /\ (exists l, wiped E s s' o l) /\ s_obj s' o = None.
Proof. intros E U tr s o s' res A H. by_history A H. exact (dtor_spec E U A s o s' res I T). Qed.
Print Assumptions C47_destroyed.
Example C47_example : let s := ob_st [] [] in history ob_env (ob_user []) (ob_trace [] []) s /\
  forall op, In op [OReset false 1 (TEmpty 0); OMutateTo false 1 (TEmpty 0) []; OGradual false true 1 [GOp (MRemove 0); GOp (MRemoveName [98]%N)]; OClear 1; ODtor 1] ->
    fair ob_env s op /\ op_run ob_env (ob_user []) op s = (ob_next [] [] op, Ok tt) /\
    ob_events [] [] op = [EvCall FDestroy 1 (1, 8%N) None 0; EvCall FDestroy 0 (0, 40%N) None 0; EvFree (AMix 3) 1 32 8; EvFree (AObj 7) 0 44 8].
Proof.
  split; [ob_hist|]. intros op H. cbn [In] in H. repeat (destruct H as [<-|H]; [split; [ob_can|split; [ob_does|vm_compute; reflexivity]]|]). destruct H.
Qed.
(** Removing the last mixins with mutate, mutate_to the empty type with ops, and both C functions: they report success
    but the object keeps its type and mixins, memory was allocated that nobody owns, and the empty type counts an object.
    (In a debug build an assert fails.) *)
Theorem C47_mutate_refuted : exists E U tr s, aligned_mixins E /\ history E U tr s /\
  forall op, In op [OMutate false true 1 [MRemove 0; MRemove 1]; OMutateTo false 1 (TEmpty 0) [MSimple]; OCMutateTo false 1 (TEmpty 0) [];
      OCMutate false true 1 [{| cp_op := 1%Z; cp_mixin := Some 0; cp_name := []; cp_init := None |}; {| cp_op := 1%Z; cp_mixin := Some 1; cp_name := []; cp_init := None |}]] ->
    exists s' t b, op_run E U op s = (s', Ok tt) /\ wanted E s op (TEmpty 0) t /\ t_mixins t = [] /\
      otype s' 1 = otype s 1 /\ otype s' 1 <> Some (TEmpty 0) /\ (exists p v, holds s' 1 0 0 p v) /\
      allocation s b = None /\ allocation s' b = Some (AObj 7, 0%N, 0%N) /\ (forall o x, s_obj s' o = Some x -> o_data x <> Some b) /\
      (forall o x c i d, s_obj s' o = Some x -> o_data x = Some c -> data_slot s' c i = Some d -> md_buf d <> Some b) /\
      t_nobj (ob_type s (TEmpty 0)) = 0 /\ t_nobj (ob_type s' (TEmpty 0)) = 1.
Proof.
  exists ob_env, (ob_user []), (ob_trace [] []), (ob_st [] []). split; [exact ob_aligned|]. split; [ob_hist|].
  assert (HT : type_of (ob_st [] []) 1 (TReg 0) (ob_type (ob_st [] []) (TReg 0))) by (eexists; split; [vm_compute; reflexivity|]; split; vm_compute; reflexivity).
  assert (HW : exists t, w_type (s_w (ob_st [] [])) (TEmpty 0) = Some t /\ t_mixins t = []) by (eexists; split; vm_compute; reflexivity). destruct HW as (t & HW & Ht).
  intros op H. exists (ob_next [] [] op).
  assert (Hw : exists t, wanted ob_env (ob_st [] []) op (TEmpty 0) t /\ t_mixins t = []).
  { cbn [In] in H. destruct H as [<-|[<-|[<-|[<-|[]]]]].
    - eexists. split; [exists (TReg 0), (ob_type (ob_st [] []) (TReg 0)), []; eexists; split; [exact HT|]; split; [vm_compute; reflexivity|]; split; [vm_compute; reflexivity|vm_compute; reflexivity]|reflexivity].
    - exists t. split; [split; auto|auto].
    - exists t. split; [split; auto|auto].
    - eexists. split; [exists (TReg 0), (ob_type (ob_st [] []) (TReg 0)), []; eexists; split; [exact HT|]; split; [vm_compute; reflexivity|]; split; [vm_compute; reflexivity|vm_compute; reflexivity]|reflexivity]. }
  destruct Hw as (t' & Hw & Ht'). exists t', 10. split; [destruct H as [<-|[<-|[<-|[<-|[]]]]]; ob_does|]. split; [exact Hw|]. split; [exact Ht'|]. clear Hw HW HT Ht Ht' t t'.
  split; [destruct H as [<-|[<-|[<-|[<-|[]]]]]; vm_compute; reflexivity|]. split; [destruct H as [<-|[<-|[<-|[<-|[]]]]]; vm_compute; discriminate|].
  split. { destruct H as [<-|[<-|[<-|[<-|[]]]]]; exists (0, 40%N), 2%Z; (split; [exists (TReg 0); eexists; split; [eexists; split; [vm_compute; reflexivity|]; split; vm_compute; reflexivity|reflexivity]|split; vm_compute; reflexivity]). }
  split; [vm_compute; reflexivity|]. split; [destruct H as [<-|[<-|[<-|[<-|[]]]]]; vm_compute; reflexivity|].
  assert (Ho : forall o x, s_obj (ob_next [] [] op) o = Some x -> o < 7).
  { intros o x Hx. destruct (Nat.lt_ge_cases o 7) as [|Hge]; auto. exfalso. destruct H as [<-|[<-|[<-|[<-|[]]]]]; (do 7 (destruct o as [|o]; [lia|]); vm_compute in Hx; discriminate). }
  assert (Hd : forall o x c, s_obj (ob_next [] [] op) o = Some x -> o_data x = Some c -> In c [0; 2; 4; 6; 8]).
  { intros o x c Hx Hc. pose proof (Ho o x Hx) as Hl. destruct H as [<-|[<-|[<-|[<-|[]]]]]; (do 7 (destruct o as [|o]; [vm_compute in Hx; (discriminate || (injection Hx as <-; vm_compute in Hc; (discriminate || (injection Hc as <-; cbn; tauto))))|]); lia). }
  split. { intros o x Hx Hc. pose proof (Hd o x 10 Hx Hc) as Hin. cbn in Hin. intuition discriminate. }
  split. { intros o x c i d Hx Hc Hs Hb. pose proof (Hd o x c Hx Hc) as Hin. clear Hx Hc Ho Hd. assert (Hi : i < 3 \/ 3 <= i) by lia.
    cbn [In] in Hin. destruct H as [<-|[<-|[<-|[<-|[]]]]]; (destruct Hin as [<-|[<-|[<-|[<-|[<-|[]]]]]]; (destruct i as [|[|[|i]]]; vm_compute in Hs; (discriminate || (injection Hs as <-; vm_compute in Hb; discriminate)))). }
  split; [vm_compute; reflexivity|]. destruct H as [<-|[<-|[<-|[<-|[]]]]]; vm_compute; reflexivity.
Qed.
Print Assumptions C47_mutate_refuted.
