(** Properties of gradual mutations that live while other calls are made *)
From Coq Require Import List Arith ZArith NArith Lia Bool.
From Verif Require Import Base Sv Info TypeBuild TypeQuery MixinInfo Domain SpecReg SpecLayout HistProofs Heap Mutation Object GradMut SpecObj SpecMut SpecAct SpecAbs SpecSend SpecGrad
  ActProofs ActProofs3 ObjProofs ObjTheorems10 AbsProofs3 GradProofs ExEnv ExObj ExGrad.
Import ListNotations.

(** ** C85 *)

(** It begins with the mixins that the object has. *)
Theorem C85_begin : forall o s s' g, gm_new o s = (s', Ok g) ->
  s' = s /\ gm_obj g = o /\ gm_applied g = false /\ exists r t, type_of s o r t /\ gm_dom g = t_dom t /\ gm_mixins g = t_mixins t.
Proof. intros o s s' g H. destruct (new_run o s s' g H) as (A & r & t & B & C & D & F & G). split; auto. split; auto. split; auto. exists r, t. auto. Qed.
Print Assumptions C85_begin.
(** Its calls and cancel change nothing but the mutation itself, and a call that throws not even that. *)
Theorem C85_quiet : forall E U op g s s' g' r, gact_run E U op g s = ((s', g'), r) -> match op with GaCall _ | GaCancel => True | _ => False end ->
  s' = s /\ ~ is_ub r /\ (forall e, r = Throw e -> g' = g).
Proof.
  intros E U op g s s' g' r H Ho. destruct op as [op| | |]; try contradiction; cbn [gact_run] in H.
  - destruct (gm_call E op g s) as [g1 r1] eqn:Hc. injection H as <- <- <-. destruct (call_run E op g s g1 r1 Hc) as (_ & _ & _ & K). split; auto. destruct r1 as [[]|e|u]; [|destruct K as [_ ->]|destruct K]; (split; [intros []|]); auto. discriminate.
  - injection H as <- <- <-. split; auto. split; [intros []|discriminate].
Qed.
Print Assumptions C85_quiet.
(** Whatever other calls are made, the list is the one at the beginning changed by the calls that returned. *)
Theorem C85_list : forall E U ok s g tr s' g', grun E U ok s g tr s' g' -> drafting tr ->
  gm_obj g' = gm_obj g /\ gm_dom g' = gm_dom g /\ gm_applied g' = gm_applied g /\ drafted E U (gm_dom g) tr s (gm_mixins g) s' (gm_mixins g').
Proof. exact draft. Qed.
Print Assumptions C85_list.
(** apply gives the object the type for this list; the mixins that it has before and after keep their values. When it throws,
    no object is changed. *)
Theorem C85_apply : forall E U tr s g unw aok junk d s' g' res, aligned_mixins E -> history E U tr s -> can_apply E s aok g -> object_domain s (gm_obj g) d ->
  gm_apply E U unw aok junk g s = ((s', g'), res) -> gm_applied g' = true /\ applied E s (gm_obj g) d (gm_dom g) unw aok (gm_mixins g) s' res.
Proof. intros E U tr s g unw aok junk d s' g' res A H. by_history A H. exact (applies E U A unw aok junk g s d s' g' res I T). Qed.
Print Assumptions C85_apply.
(** It asks the domain of the object for the type and gives it to the object, and ends as they end. *)
Theorem C85_calls : forall E U tr s g unw aok junk d s' g' res, aligned_mixins E -> history E U tr s -> can_apply E s aok g -> object_domain s (gm_obj g) d ->
  gm_apply E U unw aok junk g s = ((s', g'), res) ->
  let get := ODom (DGetTypeMut d (gm_dom g) (gm_mixins g) aok) in
  (exists e, res = Throw e /\ s' = s /\ history E U (tr ++ [(get, Throw e)]) s') \/
  (exists q w, get_type_mut E aok (s_w s) d (gm_dom g) (gm_mixins g) = (w, Ok q) /\ history E U (tr ++ [(get, Ok tt); (OReset unw (gm_obj g) q, res)]) s').
Proof. intros E U tr s g unw aok junk d s' g' res A H. by_history A H. intros C D R. exact (apply_calls E U A unw aok junk g s d s' g' res tr I T H C D R). Qed.
Print Assumptions C85_calls.
(** When the object has come to another domain since, apply throws and does nothing else. *)
Theorem C85_foreign : forall E U s g unw aok junk d s' g' res, object_domain s (gm_obj g) d ->
  gm_apply E U unw aok junk g s = ((s', g'), res) -> gm_dom g <> d -> s' = s /\ gm_mixins g' = gm_mixins g /\ res = Throw EForeignMutation.
Proof. exact foreign. Qed.
Print Assumptions C85_foreign.
(** After apply, even one that threw, and after cancel the end of the mutation does nothing; nor while an exception is in flight.
    Otherwise it is apply. *)
Theorem C85_end : forall E U ok s g tr s' g' unw aok junk, grun E U ok s g tr s' g' ->
  (unw = true \/ (exists a r, In (a, r) tr /\ match a with GaApply _ _ _ | GaCancel => True | _ => False end) -> gm_end E U unw aok junk g' s' = ((s', g'), Ok tt)) /\
  (unw = false -> gm_applied g = false -> drafting tr -> gm_end E U unw aok junk g' s' = gm_apply E U unw aok junk g' s').
Proof. exact ends. Qed.
Print Assumptions C85_end.
(** A program with a gradual mutation is a history: it makes its other calls and those of the mutation. *)
Theorem C85_history : forall E U tr0 s g tr s' g', aligned_mixins E -> history E U tr0 s -> grun E U (gfair E) s g tr s' g' ->
  exists tr', history E U (tr0 ++ tr') s' /\ mixed (by_mutation (gm_obj g)) (other_calls tr) tr'.
Proof. intros E U tr0 s g tr s' g' A H G. exact (histories E U A s g tr s' g' G tr0 H). Qed.
Print Assumptions C85_history.
(** Without other calls in between it is the gradual mutation of Object.v: mutate(obj).add(...).remove(...). *)
Theorem C85_one_go : forall E U unw aok junk o ops s r t g g' res, type_of s o r t -> gm_new o s = (s, Ok g) -> gm_calls E ops g s = (g', res) ->
  match res with
  | Ok _ => exists g2, gm_end E U unw aok junk g' s = ((fst (op_run E U (OGradual unw aok o ops) s), g2), snd (op_run E U (OGradual unw aok o ops) s))
  | Throw e => op_run E U (OGradual unw aok o ops) s = (s, Throw e)
  | Ub _ => False
  end.
Proof. exact in_one_go. Qed.
Print Assumptions C85_one_go.
(** A mixin that the object has when the mutation is applied, and that the mutation was not told to remove, can be gone
    afterwards: what others did to the object since the beginning is undone. *)
Theorem C85_keeps_refuted : exists E U tr0 s g tr s' g' s2 g2 m, aligned_mixins E /\ history E U tr0 s /\ gm_new 1 s = (s, Ok g) /\
  grun E U (gfair E) s g tr s' g' /\ drafting tr /\ (forall x r, In (GaCall (GOp (MRemove x)), r) tr -> False) /\ (forall x r, In (GaCall (GOp (MRemoveName x)), r) tr -> False) /\
  can_apply E s' true g' /\ gm_end E U false true [] g' s' = ((s2, g2), Ok tt) /\ sees (look s') 1 m /\ ~ sees (look s2) 1 m.
Proof.
  exists ob_env, (ob_user []), (ob_trace [] []), (ob_st [] []), gr_start, (gr_trace gr_acts), (gr_st gr_acts), (gr_mut gr_acts), (gr_st (gr_acts ++ [GaApply false true []])), (gr_mut (gr_acts ++ [GaApply false true []])), 5.
  split; [exact ob_aligned|]. split; [apply ob_history; vm_compute; reflexivity|]. split; [vm_compute; reflexivity|]. split; [apply gr_run; vm_compute; reflexivity|].
  assert (T : gr_trace gr_acts = [(GaCall (GOp (MAdd 3)), Ok tt); (GaOther (OMutate false true 1 [MRemove 0; MAdd 5]), Ok tt); (GaCall (GOp (MAddName [120]%N)), Throw EAddUnknown); (GaCall (GOp (MBack 1)), Ok tt)]) by (vm_compute; reflexivity).
  rewrite T. split; [intros a r H; cbn [In] in H; repeat (destruct H as [[= <- <-]|H]; [exact Logic.I|]); destruct H|]. do 2 (split; [intros x r H; cbn [In] in H; repeat (destruct H as [H|H]; [discriminate H|]); destruct H|]).
  split; [apply gr_can; vm_compute; reflexivity|]. split; [vm_compute; reflexivity|].
  split; [apply (views_see (gr_st gr_acts) 1 false [(1, 3%Z); (5, 23%Z)]); vm_compute; auto|].
  apply (views_lack (gr_st (gr_acts ++ [GaApply false true []])) 1 false [(0, 25%Z); (3, 26%Z); (1, 3%Z)]); [vm_compute; reflexivity|vm_compute; intuition discriminate].
Qed.
Print Assumptions C85_keeps_refuted.

Definition gr_out (acts : list gact) := (map snd (gr_trace acts), option_map v_mixins (look (gr_st acts) 1), (gm_mixins (gr_mut acts), gm_applied (gr_mut acts)), snd (gr_exec acts)).
Example C85_example :
  history ob_env (ob_user []) (ob_trace [] []) (ob_st [] []) /\ gm_new 1 (ob_st [] []) = (ob_st [] [], Ok gr_start) /\
  object_domain (ob_st [] []) 1 0 /\
  grun ob_env (ob_user []) (gfair ob_env) (ob_st [] []) gr_start (gr_trace gr_acts) (gr_st gr_acts) (gr_mut gr_acts) /\ drafting (gr_trace gr_acts) /\
  can_apply ob_env (gr_st gr_acts) true (gr_mut gr_acts) /\
  (* others add mixin 5 and remove 0; the list does not know about it, and a call throws *)
  gr_out gr_acts = ([Ok tt; Ok tt; Throw EAddUnknown; Ok tt], Some (Some [(1, 3%Z); (5, 23%Z)]), ([0; 3; 1], false), true) /\
  (* mixin 1 keeps its value *)
  gr_out (gr_acts ++ [GaApply false true []]) = ([Ok tt; Ok tt; Throw EAddUnknown; Ok tt; Ok tt], Some (Some [(0, 25%Z); (3, 26%Z); (1, 3%Z)]), ([0; 3; 1], true), true) /\
  (* the type cannot be allocated *)
  gr_out (gr_acts ++ [GaApply false false []]) = ([Ok tt; Ok tt; Throw EAddUnknown; Ok tt; Throw EBadAlloc], Some (Some [(1, 3%Z); (5, 23%Z)]), ([0; 3; 1], true), true) /\
  gr_out (gr_acts ++ [GaCancel]) = ([Ok tt; Ok tt; Throw EAddUnknown; Ok tt; Ok tt], Some (Some [(1, 3%Z); (5, 23%Z)]), ([0; 3; 1], true), true) /\
  (* the object gets what another object of another domain is *)
  gr_out [GaCall (GOp (MRemove 0)); GaOther (OEmpty 7 1 7); GaOther (OMoveAssign 1 7); GaApply false true []] = ([Ok tt; Ok tt; Ok tt; Throw EForeignMutation], Some (Some []), ([1], true), true) /\
  (* in one go *)
  gm_calls ob_env [GOp (MRemove 0); GAddIfLacking 5] gr_start (ob_st [] []) = ({| gm_obj := 1; gm_dom := 0; gm_mixins := [1; 5]; gm_applied := false |}, Ok tt).
Proof.
  split; [apply ob_history; vm_compute; reflexivity|]. split; [vm_compute; reflexivity|]. split; [apply (domain_is _ 1 0); vm_compute; reflexivity|]. split; [apply gr_run; vm_compute; reflexivity|].
  split; [apply drafting_is; vm_compute; reflexivity|]. split; [apply gr_can; vm_compute; reflexivity|]. do 5 (split; [vm_compute; reflexivity|]). vm_compute. reflexivity.
Qed.
