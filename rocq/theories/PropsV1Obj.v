(** Properties of the objects and the next bidders of the v1 compatibility layer *)
From Coq Require Import List Arith ZArith NArith Lia Bool Permutation Sorted.
From Verif Require Import Base Sv Info TypeBuild TypeQuery Msg MixinInfo Domain SpecReg SpecDom SpecOrd SpecLayout SpecList SpecMsg HistProofs
  Heap Mutation Object ObjMsg V1Obj SpecObj SpecMut SpecAct SpecAbs SpecSend ActProofs ActProofs3 ObjProofs ObjTheorems10 V1ObjProofs ExEnv ExObj PropsSend.
Import ListNotations.

(** ** C86 *)

(** copy gives a new object with the mixins and values of the source, whatever its domain, not sealed; no other object changes. If it throws there
    is no new object. While an exception is in flight the new object can be empty instead. *)
Theorem C86_copy : forall E U vd va unw tr s o src s' res, aligned_mixins E -> history E U tr s -> s_obj s o = None -> s_obj s src <> None -> v1_copy E U vd va unw o src s = (s', res) ->
  (forall o', o' <> o -> look s' o' = look s o') /\
  match res with
  | Ok _ => (exists y, look s src = Some y /\ look s' o = Some {| v_sealed := false; v_mixins := v_mixins y |}) \/ (unw = true /\ is_view (look s') o false [])
  | Throw _ => s_obj s' o = None
  | Ub _ => False
  end.
Proof. intros E U vd va unw tr s o src s' res A H. by_history A H. exact (copy_view E U A vd va unw o src s s' res I T). Qed.
Print Assumptions C86_copy.
(** The calls it makes continue the history, and it ends as copy_from ends. *)
Theorem C86_history : forall E U vd va unw tr s o src s' res, aligned_mixins E -> history E U tr s -> s_obj s o = None -> s_obj s src <> None -> v1_copy E U vd va unw o src s = (s', res) ->
  history E U (tr ++ [(OEmpty o vd va, Ok tt); (OCopyFrom unw o src, res)] ++ match res with Ok _ => [] | _ => [(ODtor o, Ok tt)] end) s'.
Proof.
  intros E U vd va unw tr s o src s' res A H Ho Hs Hr. destruct (history_inv E U A tr s H) as [I T]. destruct (copy_calls E U A vd va unw o src s s' res I T Ho Hs Hr) as (tr' & C).
  pose proof (copies_history E U vd va unw o src s tr' s' res tr C H) as K. destruct C; exact K.
Qed.
Print Assumptions C86_history.
(** has_next_bidder tells whether a listing of the object has a lower bid than that of the mixin; if so call_next_bidder calls some, and one if the message is no
    multicast; if not it throws and nothing is called. *)
Theorem C86_next_bidder : forall E U accepts tr s o i m p v r t f, aligned_mixins E -> payloads_fit E accepts -> listed_once E -> kept_history E U tr s -> type_of s o r t -> feature_in (s_w s) (t_dom t) f ->
  holds s o i m p v ->
  exists b, v1_has_next_bidder m p f s = (s, Ok b) /\
    (b = true <-> exists x y, In (i, x) (impls E (t_mixins t) f) /\ In y (impls E (t_mixins t) f) /\ (ff_bid (snd y) < ff_bid x)%Z) /\
    (forall multicast s' res, v1_call_next_bidder U accepts multicast m p f s = (s', res) ->
       if b then exists l, l <> [] /\ (forall y, In y l -> In y (impls E (t_mixins t) f)) /\ (multicast = false -> length l = 1) /\ carried_out E U o l s s' res
       else s' = s /\ res = Throw ENotImplemented).
Proof. intros E U accepts tr s o i m p v r t f A P. exact (next_bidder E U A accepts P tr s o i m p v r t f). Qed.
Print Assumptions C86_next_bidder.

Definition vo_copy (bad : list nat) (unw : bool) (src : nat) := let x := v1_copy ob_env (ob_user bad) 9 7 unw 8 src (ob_st bad []) in (option_map (fun y => (v_sealed y, v_mixins y)) (look (fst x) 8), snd x).
Example C86_example :
  history ob_env (ob_user []) (ob_trace [] []) (ob_st [] []) /\ s_obj (ob_st [] []) 8 = None /\ s_obj (ob_st [] []) 3 <> None /\
  (* a sealed object of another domain than that of the layer *)
  vo_copy [] false 3 = (Some (false, Some [(1, 10%Z); (5, 11%Z); (0, 12%Z)]), Ok tt) /\
  (* a mixin that cannot be copied; a function that fails; an exception in flight *)
  vo_copy [] false 4 = (None, Throw EMissingFunc) /\ vo_copy [24] false 3 = (None, Throw (EUserFunc 7)) /\ vo_copy [] true 3 = (Some (false, Some []), Ok tt) /\
  kept_history om_env (ob_user []) (om_trace []) (om_st []) /\ holds (om_st []) 1 2 5 (0, 72%N) 4%Z /\ holds (om_st []) 1 0 0 (0, 56%N) 2%Z /\
  snd (v1_has_next_bidder 5 (0, 72%N) 0 (om_st [])) = Ok true /\ snd (v1_has_next_bidder 0 (0, 56%N) 0 (om_st [])) = Ok false /\
  om_sent [] (v1_call_next_bidder (ob_user []) om_accepts false 5 (0, 72%N) 0) = ([EvCall (FUpdate 10) 0 (0, 56%N) None 0%Z], Ok tt) /\
  om_sent [] (v1_call_next_bidder (ob_user []) om_accepts true 0 (0, 56%N) 0) = ([], Throw ENotImplemented).
Proof.
  split; [apply ob_history; vm_compute; reflexivity|]. split; [vm_compute; reflexivity|]. split; [vm_compute; discriminate|]. do 4 (split; [vm_compute; reflexivity|]).
  split; [apply om_kept; vm_compute; reflexivity|]. split; [apply (om_holds _ 1 2 (TReg 0) [0; 1; 5] 0); vm_compute; reflexivity|]. split; [apply (om_holds _ 1 0 (TReg 0) [0; 1; 5] 0); vm_compute; reflexivity|].
  do 3 (split; [vm_compute; reflexivity|]). vm_compute; reflexivity.
Qed.
