(** Properties of overrides, piecewise mutation, the C functions, and of all calls *)
From Coq Require Import List Arith ZArith NArith Lia Bool.
From Verif Require Import Base Sv Info TypeBuild TypeQuery MixinInfo Domain SpecReg SpecDom SpecOrd SpecLayout SpecList Heap Mutation Object SpecObj SpecMut SpecLog SpecAct
  HonestProofs ObjTheorems ObjTheorems2 ObjTheorems3 ObjTheorems4 ObjTheorems5 ObjTheorems6 ObjTheorems7 ObjTheorems8 ObjTheorems9 ObjTheorems10 ExEnv ExObj PropsObj PropsMut.
Import ListNotations.

(** C48. Each override was given for the mixin ([inits]), which is new, and is the only one called for it. The contracts
    ([ops_fine]) exclude two ops for the same mixin, for which the claim is false (below). *)
Theorem C48_overrides_partial : forall E U tr s op o unw s' res, aligned_mixins E -> history E U tr s -> fair E s op -> mutates op = Some (o, unw) -> op_run E U op s = (s', res) ->
  exists l, did s s' l /\ forall k m p src err, In (EvCall (FOverride k) m p src err) l ->
    inits E s op m k /\ ~ has_some s o m /\ filter (is_override m) l = [EvCall (FOverride k) m p None err] /\ (unw = false -> res = Ok tt -> exists i v, holds s' o i m p v).
Proof. intros E U tr s op o unw s' res A H. by_history A H. exact (overrides E U A s op o unw s' res I T). Qed.
Print Assumptions C48_overrides_partial.
(** On success all new mixins with an override were constructed by it and the others by their init function. *)
Theorem C48_applied_partial : forall E U tr s op o s', aligned_mixins E -> history E U tr s -> fair E s op -> mutates op = Some (o, false) -> op_run E U op s = (s', Ok tt) ->
  exists l, did s s' l /\ forall i m, has_mixin s' o i m -> ~ has_some s o m -> exists p v f, holds s' o i m p v /\ calls m l = [EvCall f m p None 0%Z] /\
    ((exists k, inits E s op m k /\ f = FOverride k) \/ ((forall k, ~ inits E s op m k) /\ f = FInit)).
Proof.
  intros E U tr s op o s' A H. by_history A H. intros F Hm Hr. destruct (mutation_changes E U A s op o s' I T F Hm Hr) as (l & Hl & Hn & _). exists l. split; [exact Hl|].
  intros i m Hi Hno. destruct (Hn i m Hi Hno) as (p & v & f & H1 & _ & H2 & _ & H3). exists p, v, f. split; [exact H1|]. split; [exact H2|]. destruct H3 as [H3|(H3 & H4 & _)]; auto.
Qed.
Print Assumptions C48_applied_partial.
(** Object 1 has the mixins 0 and 1; the override for 1 is not called. *)
Definition ob_mto : oop := OMutateTo false 1 (TReg 4) [MInit 4 1; MInitName 3 [102; 5]%N; MSimple].
Example C48_example : let s := ob_st [] [] in history ob_env (ob_user []) (ob_trace [] []) s /\ fair ob_env s ob_mto /\ op_run ob_env (ob_user []) ob_mto s = (ob_next [] [] ob_mto, Ok tt) /\
  ob_events [] [] ob_mto = [EvAlloc (AObj 7) 10 80 8; EvCall FInit 3 (10, 56%N) None 0; EvCall (FOverride 3) 5 (10, 72%N) None 0; EvCall FDestroy 0 (0, 40%N) None 0; EvFree (AObj 7) 0 44 8].
Proof. split; [ob_hist|]. split; [ob_can|]. split; [ob_does|]. vm_compute. reflexivity. Qed.
(** Two ops for mixin 5 of the type with mixins 1 5 0: the second function constructs a mixin 5 in the buffer of mixin 0,
    and mixin 0 is not constructed. *)
Theorem C48_twice_refuted : exists E U tr s o r t s' p, aligned_mixins E /\ history E U tr s /\ w_type (s_w s) r = Some t /\ t_mixins t = [1; 5; 0] /\
  op_run E U (OMutateTo false o r [MInit 3 5; MInit 4 5]) s = (s', Ok tt) /\ otype s' o = Some r /\
  get s' o (w_mid (s_w s') 0) = Ok (Some p) /\ In (EvCall (FOverride 4) 5 p None 0%Z) (s_log s') /\ option_map i_mixin (instance s' p) = Some 5 /\ times (is_birth 0 p) (s_log s') = 0.
Proof.
  exists ob_env, (ob_user []), (ob_trace [] []), (ob_st [] []), 5, (TReg 1), (ob_type (ob_st [] []) (TReg 1)), (ob_next [] [] (OMutateTo false 5 (TReg 1) [MInit 3 5; MInit 4 5])), (10, 72%N).
  split; [exact ob_aligned|]. split; [ob_hist|]. split; [vm_compute; reflexivity|]. split; [vm_compute; reflexivity|]. split; [ob_does|]. split; [vm_compute; reflexivity|]. split; [vm_compute; reflexivity|].
  split; [|vm_compute; auto]. assert (Hl : s_log (ob_next [] [] (OMutateTo false 5 (TReg 1) [MInit 3 5; MInit 4 5])) = s_log (ob_st [] []) ++ ob_events [] [] (OMutateTo false 5 (TReg 1) [MInit 3 5; MInit 4 5])) by (vm_compute; reflexivity).
  rewrite Hl. apply in_or_app. right. vm_compute. tauto.
Qed.
Print Assumptions C48_twice_refuted.

(** C49. update_at is called for the pairs of index and function in [l]. If no index is the number of mixins (see below),
    success means that the indices were increasing and in range, and each function was used for its mixin. *)
Theorem C49_updates_partial : forall E U tr s o r l s' t, aligned_mixins E -> history E U tr s -> fair E s (OPiecewise false o r (at_calls l)) -> w_type (s_w s) r = Some t ->
  op_run E U (OPiecewise false o r (at_calls l)) s = (s', Ok tt) -> (forall i k, In (i, k) l -> i <> length (t_mixins t)) ->
  increasing 0 (length (t_mixins t)) l /\ exists ev, mutated E s s' o r (made_at E l) (updated_at l) ev /\ all_worked ev.
Proof. intros E U tr s o r l s' t A H. by_history A H. exact (pieces_ok E U A s o r l s' t I T). Qed.
Print Assumptions C49_updates_partial.
(** If it throws the object has the mixins that it had, and increasing indices in range are never refused. *)
Theorem C49_failed : forall E U tr s o r l s' t e, aligned_mixins E -> history E U tr s -> fair E s (OPiecewise false o r (at_calls l)) -> w_type (s_w s) r = Some t ->
  op_run E U (OPiecewise false o r (at_calls l)) s = (s', Throw e) ->
  (exists ev, failed E s s' o (t_mixins t) (maybe_made_at E l) (maybe_updated_at l) ev /\ blames U False s s' ev e) /\
  (e = EBadPiecewise -> ~ increasing 0 (length (t_mixins t)) l).
Proof. intros E U tr s o r l s' t e A H. by_history A H. exact (pieces_throw E U A s o r l s' t e I T). Qed.
Print Assumptions C49_failed.
(** The target has the mixins 1 3 5, the object has 0 1. *)
Example C49_example : let s := ob_st [] [] in history ob_env (ob_user []) (ob_trace [] []) s /\ length (t_mixins (ob_type s (TReg 4))) = 3 /\
  forall l res, In (l, res) [([(0, 5); (2, 6)], Ok tt); ([(2, 6); (1, 5)], Throw EBadPiecewise); ([(1, 5); (1, 6)], Throw EBadPiecewise); ([(4, 5)], Throw EBadPiecewise)] ->
    fair ob_env s (OPiecewise false 1 (TReg 4) (at_calls l)) /\ snd (op_run ob_env (ob_user []) (OPiecewise false 1 (TReg 4) (at_calls l)) s) = res.
Proof.
  split; [ob_hist|]. split; [vm_compute; reflexivity|]. intros l res H. cbn [In] in H. repeat (destruct H as [H|H]; [injection H as <- <-; split; [ob_can|vm_compute; reflexivity]|]). destruct H.
Qed.
Example C49_events : ob_events [] [] (OPiecewise false 1 (TReg 4) (at_calls [(0, 5); (2, 6)])) =
  [EvAlloc (AObj 7) 10 80 8; EvCall (FUpdate 5) 1 (1, 8%N) None 0; EvCall FInit 3 (10, 56%N) None 0; EvCall (FOverride 6) 5 (10, 72%N) None 0; EvCall FDestroy 0 (0, 40%N) None 0; EvFree (AObj 7) 0 44 8].
Proof. vm_compute. reflexivity. Qed.
(** update_at accepts the number of mixins as an index: the functions given are ignored, and all mixins are initialised by
    default. *)
Theorem C49_past_end_refuted : exists E U tr s o r t i k s', aligned_mixins E /\ history E U tr s /\ w_type (s_w s) r = Some t /\ i = length (t_mixins t) /\ t_mixins t <> [] /\
  fair E s (OPiecewise false o r [PAt i k]) /\ op_run E U (OPiecewise false o r [PAt i k]) s = (s', Ok tt) /\ otype s' o = Some r /\
  forall f m p src err, In (EvCall f m p src err) (s_log s') -> f <> FOverride k /\ f <> FUpdate k.
Proof.
  exists ob_env, (ob_user []), (ob_trace [] []), (ob_st [] []), 1, (TReg 4), (ob_type (ob_st [] []) (TReg 4)), 3, 9, (ob_next [] [] (OPiecewise false 1 (TReg 4) [PAt 3 9])).
  split; [exact ob_aligned|]. split; [ob_hist|]. split; [vm_compute; reflexivity|]. split; [vm_compute; reflexivity|]. split; [vm_compute; discriminate|]. split; [ob_can|]. split; [ob_does|]. split; [vm_compute; reflexivity|].
  intros f m p src err Hin. assert (Hb : forallb (fun e => match e with EvCall (FOverride _) _ _ _ _ | EvCall (FUpdate _) _ _ _ _ => false | _ => true end) (s_log (ob_next [] [] (OPiecewise false 1 (TReg 4) [PAt 3 9]))) = true) by (vm_compute; reflexivity).
  rewrite forallb_forall in Hb. specialize (Hb _ Hin). clear Hin. split; intros ->; discriminate Hb.
Qed.
Print Assumptions C49_past_end_refuted.

(** C50. *)
Theorem C50_applied : forall E U tr s o r cs s', aligned_mixins E -> history E U tr s -> fair E s (OCMutateTo false o r cs) -> op_run E U (OCMutateTo false o r cs) s = (s', Ok tt) ->
  otype s' o = Some r /\ exists l, did s s' l /\ all_worked l /\
    (forall i m, has_mixin s' o i m -> ~ has_some s o m -> exists p v f, holds s' o i m p v /\ calls m l = [EvCall f m p None 0%Z] /\
       ((exists k, cover_inits E cs m k /\ f = FOverride k) \/ ((forall k, ~ cover_inits E cs m k) /\ f = FInit))) /\
    (forall j m p v, holds s o j m p v -> has_some s' o m ->
       (forall k, cover_updates E cs m k -> filter (is_update m) l = [EvCall (FUpdate k) m p None 0%Z]) /\
       ((forall k, ~ cover_updates E cs m k) -> filter (is_update m) l = [])) /\
    (forall m k p src err, In (EvCall (FUpdate k) m p src err) l -> has_some s o m /\ has_some s' o m).
Proof. intros E U tr s o r cs s' A H. by_history A H. exact (c_ok E U A s o r cs s' I T). Qed.
Print Assumptions C50_applied.
Theorem C50_failed : forall E U tr s o unw r cs s' e, aligned_mixins E -> history E U tr s -> fair E s (OCMutateTo unw o r cs) -> op_run E U (OCMutateTo unw o r cs) s = (s', Throw e) ->
  (forall o', s_obj s' o' = s_obj s o') /\ types_kept s s' /\ (forall b, allocation s' b = allocation s b) /\
  (forall j m p v, holds s o j m p v -> exists v', holds s' o j m p v') /\ (forall o' i m p v, o' <> o -> (holds s' o' i m p v <-> holds s o' i m p v)) /\
  (exists l, did s s' l /\ blames U False s s' l e) /\ may_throw E s s' o r (cover_inits E cs) e.
Proof. intros E U tr s o unw r cs s' e A H. by_history A H. exact (c_throw E U A s o unw r cs s' e I T). Qed.
Print Assumptions C50_failed.
(** Overrides for mixin 5, and two for mixin 1 (by name and by pointer), of which the first counts *)
Definition ob_covers : list cover := [{| co_mixin := Some 5; co_name := []; co_init := Some 3; co_update := Some 4 |};
  {| co_mixin := None; co_name := [98]%N; co_init := Some 1; co_update := Some 2 |}; {| co_mixin := Some 1; co_name := []; co_init := Some 7; co_update := Some 8 |}].
Example C50_example : forall bad res, In (bad, res) [([], Ok tt); ([23], Throw (EUserFunc 7)); ([25], Throw (EUserFunc 7))] -> let s := ob_st bad [] in
  history ob_env (ob_user bad) (ob_trace bad []) s /\ fair ob_env s (OCMutateTo false 1 (TReg 4) ob_covers) /\ op_run ob_env (ob_user bad) (OCMutateTo false 1 (TReg 4) ob_covers) s = (ob_next bad [] (OCMutateTo false 1 (TReg 4) ob_covers), res).
Proof. intros bad r H. cbn [In] in H. repeat (destruct H as [H|H]; [injection H as <- <-; split; [ob_hist|split; [ob_can|ob_does]]|]). destruct H. Qed.
Example C50_events : ob_events [] [] (OCMutateTo false 1 (TReg 4) ob_covers) =
  [EvAlloc (AObj 7) 10 80 8; EvCall (FUpdate 2) 1 (1, 8%N) None 0; EvCall FInit 3 (10, 56%N) None 0; EvCall (FOverride 3) 5 (10, 72%N) None 0; EvCall FDestroy 0 (0, 40%N) None 0; EvFree (AObj 7) 0 44 8].
Proof. vm_compute. reflexivity. Qed.

(** C51. If no exception is in flight a mutation that reports success was applied. *)
Theorem C51_applied_partial : forall E U tr s op o s', aligned_mixins E -> history E U tr s -> fair E s op -> mutates op = Some (o, false) -> op_run E U op s = (s', Ok tt) ->
  exists r t n l, wanted E s op r t /\ type_of s' o r (set_nobj t n) /\ mutated E s s' o r (made_with E (inits E s op)) (updated_with (upds E op)) l /\ all_worked l.
Proof. intros E U tr s op o s' A H. by_history A H. exact (mutation_ok E U A s op o s' I T). Qed.
Print Assumptions C51_applied_partial.
Theorem C51_created_partial : forall E U tr s o r a sl s', aligned_mixins E -> history E U tr s -> fair E s (ONew false o r a sl) -> op_run E U (ONew false o r a sl) s = (s', Ok tt) ->
  exists l, created E s s' o a sl (Some r) (default_made E) l.
Proof.
  intros E U tr s o r a sl s' A H. by_history A H. intros F Hr. destruct (new_spec E U A s o r a sl false s' (Ok tt) I T F Hr) as [Hc|[Hu _]]; [exact Hc|discriminate].
Qed.
Print Assumptions C51_created_partial.
Example C51_example : let s := ob_st [] [] in history ob_env (ob_user []) (ob_trace [] []) s /\ fair ob_env s (OReset false 1 (TReg 1)) /\
  op_run ob_env (ob_user []) (OReset false 1 (TReg 1)) s = (ob_next [] [] (OReset false 1 (TReg 1)), Ok tt) /\ otype (ob_next [] [] (OReset false 1 (TReg 1))) 1 = Some (TReg 1) /\
  fair ob_env s (ONew false 9 (TReg 0) 7 true) /\ snd (op_run ob_env (ob_user []) (ONew false 9 (TReg 0) 7 true) s) = Ok tt.
Proof. split; [ob_hist|]. split; [ob_can|]. split; [ob_does|]. split; [vm_compute; reflexivity|]. split; [ob_can|]. vm_compute. reflexivity. Qed.
(** While an exception is in flight (for instance in a destructor that is called during unwinding) no error is reported
    but the object keeps its type; a new object gets no type at all, so that asking it for a mixin dereferences null. *)
Theorem C51_unwinding_refuted : exists E U tr s, aligned_mixins E /\ history E U tr s /\
  (forall op, In op [OReset true 1 (TReg 1); OMutateTo true 1 (TReg 1) [MSimple]; OMutate true true 1 [MAdd 5]; OCMutateTo true 1 (TReg 1) []] ->
    exists s' r t, fair E s op /\ mutates op = Some (1, true) /\ op_run E U op s = (s', Ok tt) /\ wanted E s op r t /\ otype s' 1 <> Some r /\ otype s' 1 = otype s 1) /\
  exists s', fair E s (ONew true 9 (TReg 0) 7 false) /\ op_run E U (ONew true 9 (TReg 0) 7 false) s = (s', Ok tt) /\ otype s' 9 = None /\ exists u, get s' 9 (Some 0) = Ub u.
Proof.
  exists ob_env, (ob_user []), (ob_trace [] []), (ob_st [] []). split; [exact ob_aligned|]. split; [ob_hist|]. split.
  - assert (HT : type_of (ob_st [] []) 1 (TReg 0) (ob_type (ob_st [] []) (TReg 0))) by (eexists; split; [vm_compute; reflexivity|]; split; vm_compute; reflexivity).
    intros op H. cbn [In] in H. exists (ob_next [] [] op). destruct H as [<-|[<-|[<-|[<-|[]]]]].
    + exists (TReg 1), (ob_type (ob_st [] []) (TReg 1)). split; [ob_can|]. split; [reflexivity|]. split; [ob_does|]. split; [split; [reflexivity|vm_compute; reflexivity]|]. split; [vm_compute; discriminate|vm_compute; reflexivity].
    + exists (TReg 1), (ob_type (ob_st [] []) (TReg 1)). split; [ob_can|]. split; [reflexivity|]. split; [ob_does|]. split; [split; [reflexivity|vm_compute; reflexivity]|]. split; [vm_compute; discriminate|vm_compute; reflexivity].
    + exists (TReg 5). eexists. split; [ob_can|]. split; [reflexivity|]. split; [ob_does|]. split; [exists (TReg 0), (ob_type (ob_st [] []) (TReg 0)); eexists; eexists; split; [exact HT|]; split; [vm_compute; reflexivity|]; split; [vm_compute; reflexivity|vm_compute; reflexivity]|].
      split; [vm_compute; discriminate|vm_compute; reflexivity].
    + exists (TReg 1), (ob_type (ob_st [] []) (TReg 1)). split; [ob_can|]. split; [reflexivity|]. split; [ob_does|]. split; [split; [reflexivity|vm_compute; reflexivity]|]. split; [vm_compute; discriminate|vm_compute; reflexivity].
  - exists (ob_next [] [] (ONew true 9 (TReg 0) 7 false)). split; [ob_can|]. split; [ob_does|]. split; [vm_compute; reflexivity|]. eexists. vm_compute. reflexivity.
Qed.
Print Assumptions C51_unwinding_refuted.

(** C61. *)
Theorem C61_queries : forall E U tr s o, aligned_mixins E -> history E U tr s -> with_type_set s o ->
  (forall i p, get_at s o i = Ok (Some p) <-> exists m v, holds s o i m p v) /\
  (forall i, get_at s o i = Ok None <-> forall m, ~ has_mixin s o i m) /\
  (forall id p, get s o id = Ok (Some p) <-> exists i m v, holds s o i m p v /\ w_mid (s_w s) m = id) /\
  (forall id, get s o id = Ok None <-> forall m, has_some s o m -> w_mid (s_w s) m <> id) /\
  (forall id, has s o id = Ok true <-> exists m, has_some s o m /\ w_mid (s_w s) m = id) /\
  (forall nm p, get_name E s o nm = Ok (Some p) <-> exists i m v, holds s o i m p v /\ sv_bytes (m_name (e_mixin E m)) = nm /\
     forall j m', j < i -> has_mixin s o j m' -> sv_bytes (m_name (e_mixin E m')) <> nm) /\
  (forall nm, get_name E s o nm = Ok None <-> forall m, has_some s o m -> sv_bytes (m_name (e_mixin E m)) <> nm) /\
  (is_empty s o = Ok true <-> forall m, ~ has_some s o m).
Proof. intros E U tr s o A H. by_history A H. exact (queries_agree E A s o I T). Qed.
Print Assumptions C61_queries.
Example C61_example : let s := ob_st [] [] in history ob_env (ob_user []) (ob_trace [] []) s /\ with_type_set s 3 /\
  get_at s 3 1 = Ok (Some (4, 56%N)) /\ get_at s 3 3 = Ok None /\ get s 3 (w_mid (s_w s) 5) = Ok (Some (4, 56%N)) /\ get s 3 (w_mid (s_w s) 2) = Ok None /\ has s 3 (w_mid (s_w s) 0) = Ok true /\
  get_name ob_env s 3 [98]%N = Ok (Some (5, 8%N)) /\ get_name ob_env s 3 [99]%N = Ok None /\ is_empty s 3 = Ok false /\ is_empty s 5 = Ok true.
Proof. split; [ob_hist|]. split; [eexists; split; [vm_compute; reflexivity|vm_compute; discriminate]|]. vm_compute. auto 12. Qed.

(** C62. *)
Theorem C62_frame : forall E U tr s op s' res o, aligned_mixins E -> history E U tr s -> fair E s op -> op_run E U op s = (s', res) -> ~ In o (may_change op) ->
  s_obj s' o = s_obj s o /\ forall i m p v, holds s' o i m p v <-> holds s o i m p v.
Proof. intros E U tr s op s' res o A H. by_history A H. exact (frame E U A s op s' res o I T). Qed.
Print Assumptions C62_frame.
Example C62_example : let s := ob_st [] [] in history ob_env (ob_user []) (ob_trace [] []) s /\ fair ob_env s (OCopyFrom false 4 3) /\ ~ In 3 (may_change (OCopyFrom false 4 3)) /\
  length (ob_values s 3) = 3 /\ ob_values (ob_next [] [] (OCopyFrom false 4 3)) 3 = ob_values s 3 /\ fair ob_env s (ODom (DGc 0)).
Proof. split; [ob_hist|]. split; [ob_can|]. split; [cbn; intuition discriminate|]. split; [vm_compute; reflexivity|]. split; [vm_compute; reflexivity|]. ob_can. Qed.

(** C63. *)
Theorem C63_honest : forall E U op s s' r, match op with ODom _ => False | _ => True end -> op_run E U op s = (s', r) ->
  exists l, did s s' l /\ s_calls s <= s_calls s' /\ match r with Ok _ => all_worked l | Throw e => blames U (no_type_memory op) s s' l e | Ub _ => True end.
Proof. exact op_honest. Qed.
Print Assumptions C63_honest.
Example C63_example : forall bad r, In (bad, r) [([], Ok tt); ([22], Throw EBadAlloc); ([25], Throw (EUserFunc 7))] ->
  op_run ob_env (ob_user bad) ob_mut (ob_st bad []) = (ob_next bad [] ob_mut, if memb 25 bad then Ok tt else r) /\
  op_run ob_env (ob_user bad) (OCopyFrom false 4 3) (ob_st bad []) = (ob_next bad [] (OCopyFrom false 4 3), r).
Proof. intros bad r H. cbn [In] in H. repeat (destruct H as [H|H]; [injection H as <- <-; split; ob_does|]). destruct H. Qed.

(** C64. *)
Theorem C64_no_ub : forall E U tr s op, aligned_mixins E -> history E U tr s -> fair E s op -> ~ is_ub (snd (op_run E U op s)).
Proof. intros E U tr s op A. exact (ObjTheorems.no_ub E U A tr s op). Qed.
Print Assumptions C64_no_ub.
(** The program of C33: all calls are fair, and none has undefined behaviour. *)
Example C64_example : history ob_env (ob_user [23]) (ob_trace [23] ob_end) (ob_st [23] ob_end) /\ length (ob_trace [23] ob_end) = 25 /\
  history ob_env (ob_user [23]) (ob_trace [23] []) (ob_st [23] []) /\ fair ob_env (ob_st [23] []) (OMoveAssign 1 4).
Proof. split; [ob_hist|]. split; [vm_compute; reflexivity|]. split; [ob_hist|ob_can]. Qed.
