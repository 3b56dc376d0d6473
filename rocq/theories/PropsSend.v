(** Properties of messages sent to objects, and of the domains below objects *)
From Coq Require Import List Arith ZArith NArith Lia Bool Permutation Sorted.
From Verif Require Import Base Sv Info TypeBuild TypeQuery Msg MixinInfo Domain SpecReg SpecDom SpecOrd SpecLayout SpecList SpecMsg HistProofs
  Heap Mutation Object ObjMsg SpecObj SpecMut SpecAct SpecSend WorldSteps ActProofs ActProofs3 ObjProofs ObjTheorems10 SendProofs ExEnv ExObj.
Import ListNotations.

(** ** C83: messages to objects *)

(** A unicast message executes the function of one listing: no other listing of a mixin of the object is preferred to it. *)
Theorem C83_unicast : forall E U accepts tr s o r t f s' res, aligned_mixins E -> payloads_fit E accepts -> kept_history E U tr s -> type_of s o r t -> feature_in (s_w s) (t_dom t) f ->
  impls E (t_mixins t) f <> [] -> send_unicast E U accepts o f s = (s', res) ->
  exists x, In x (impls E (t_mixins t) f) /\ (forall y, In y (impls E (t_mixins t) f) -> ~ preferred y x) /\ carried_out E U o [x] s s' res.
Proof. intros E U accepts tr s o r t f s' res A P. exact (sent_unicast E U A accepts P tr s o r t f s' res). Qed.
Print Assumptions C83_unicast.
(** A multicast message executes those with the highest bid, by priority and by the order of the mixins. *)
Theorem C83_multicast : forall E U accepts tr s o r t f s' res, aligned_mixins E -> payloads_fit E accepts -> kept_history E U tr s -> type_of s o r t -> feature_in (s_w s) (t_dom t) f ->
  impls E (t_mixins t) f <> [] -> send_multicast E U accepts o f s = (s', res) ->
  exists xs, Permutation xs (top_bidders (impls E (t_mixins t) f)) /\ StronglySorted executed_before xs /\ carried_out E U o xs s s' res.
Proof. intros E U accepts tr s o r t f s' res A P. exact (sent_multicast E U A accepts P tr s o r t f s' res). Qed.
Print Assumptions C83_multicast.
(** Without an implementation the default payload is called, or the message throws and nothing happens. *)
Theorem C83_default : forall E U accepts tr s o r t f s' res send, aligned_mixins E -> send = send_unicast E U accepts \/ send = send_multicast E U accepts ->
  kept_history E U tr s -> type_of s o r t -> feature_in (s_w s) (t_dom t) f \/ w_fid (s_w s) f = None -> impls E (t_mixins t) f = [] -> send o f s = (s', res) ->
  match f_default (e_feature E f) with
  | None => s' = s /\ res = Throw ENotImplemented
  | Some _ => unchanged s s' /\ did s s' [] /\ s_w s' = s_w s /\ (res = Ok tt \/ exists err, res = Throw (EUserFunc err))
  end.
Proof. intros E U accepts tr s o r t f s' res send A. exact (sent_default E U A accepts tr s o r t f s' res send). Qed.
Print Assumptions C83_default.
(** A mixin that calls the next implementation from inside: the listings of the feature stand in one row, the preferred first. The call executes the
    one behind that of the mixin, with the mixin of the same object that lists it, or throws if there is none. *)
Theorem C83_next : forall E U accepts tr s o i m p v r t f, aligned_mixins E -> payloads_fit E accepts -> listed_once E -> kept_history E U tr s -> type_of s o r t -> feature_in (s_w s) (t_dom t) f ->
  holds s o i m p v ->
  exists l, Permutation l (impls E (t_mixins t) f) /\ StronglySorted (fun a b => ~ preferred b a) l /\
    (forall k x s' res, nth_error l k = Some x -> fst x = i -> send_next_impl U accepts m p f s = (s', res) ->
       match nth_error l (S k) with
       | Some y => carried_out E U o [y] s s' res
       | None => s' = s /\ res = Throw ENotImplemented
       end) /\
    (forall s' res, ~ In i (map fst l) -> send_next_impl U accepts m p f s = (s', res) -> s' = s /\ res = Throw ENotImplemented).
Proof. intros E U accepts tr s o i m p v r t f A P. exact (sent_next E U A accepts P tr s o i m p v r t f). Qed.
Print Assumptions C83_next.
(** The same for the next bidders *)
Theorem C83_bidders : forall E U accepts tr s o i m p v r t f x, aligned_mixins E -> payloads_fit E accepts -> listed_once E -> kept_history E U tr s -> type_of s o r t -> feature_in (s_w s) (t_dom t) f ->
  holds s o i m p v -> In (i, x) (impls E (t_mixins t) f) ->
  let l := next_bidders (ff_bid x) (impls E (t_mixins t) f) in
  (forall s' res, l = [] -> send_next_bidders U accepts m p f s = (s', res) \/ send_next_top U accepts m p f s = (s', res) -> s' = s /\ res = Throw ENotImplemented) /\
  (l <> [] -> exists xs last, Permutation (xs ++ [last]) l /\ StronglySorted executed_before (xs ++ [last]) /\ (forall y, In y l -> ~ preferred y last) /\
     (forall s' res, send_next_bidders U accepts m p f s = (s', res) -> carried_out E U o (xs ++ [last]) s s' res) /\
     (forall s' res, send_next_top U accepts m p f s = (s', res) -> carried_out E U o [last] s s' res)).
Proof. intros E U accepts tr s o i m p v r t f x A P. exact (sent_bidders E U A accepts P tr s o i m p v r t f x). Qed.
Print Assumptions C83_bidders.
(** What carrying out listings does: calls in order up to the first that fails, each with the address of the mixin; only the values of these mixins change *)
Theorem C83_delivered : forall E U tr s o l s' res, aligned_mixins E -> history E U tr s -> (forall x, In x l -> exists m, has_mixin s o (fst x) m) -> carried_out E U o l s s' res -> delivered s s' o l res.
Proof. intros E U tr s o l s' res A H. by_history A H. exact (deliver_in E U A s o l s' res I T). Qed.
Print Assumptions C83_delivered.
(** and the history goes on: all properties of histories hold after messages *)
Theorem C83_history : forall E U tr s o l s' res, history E U tr s -> carried_out E U o l s s' res -> exists tr', history E U (tr ++ tr') s'.
Proof. intros E U tr s o l s' res H C. exact (carried_history E U l o s s' res C tr H). Qed.
Print Assumptions C83_history.

(** ** C84: objects and domains *)

(** The calls of a program with objects come down to calls of domains: its own, with their outcomes, and in between requests for types and counting of objects.
    So what is proved of sequences of calls of domains holds in programs with objects. *)
Theorem C84_domains : forall E U (ok : world -> dop -> Prop) tr s, (forall w op, by_object op -> ok w op) ->
  orun E U (fun s op => fair E s op /\ forall d, op = ODom d -> ok (s_w s) d) tr s ->
  exists dtr, run_where E ok dtr (s_w s) /\ mixed (fun x => by_object (fst x)) (domain_calls tr) (outcomes dtr).
Proof. intros E U ok tr s. exact (history_world E U ok tr s). Qed.
Print Assumptions C84_domains.
(** A call of the interface of objects leaves all registries as they are and removes no type. *)
Theorem C84_registries : forall E U tr s op s' res, aligned_mixins E -> history E U tr s -> fair E s op -> match op with ODom _ => False | _ => True end -> op_run E U op s = (s', res) ->
  registries_kept (s_w s) (s_w s').
Proof.
  intros E U tr s op s' res A H. by_history A H. intros F N R. destruct (act_any E U A s op I T F) as (s2 & r2 & R2 & Hu & _). rewrite R in R2. injection R2 as <- <-.
  exact (op_registries E U s op s' res (iv_reach E s I) N R Hu).
Qed.
Print Assumptions C84_registries.

(** ** A concrete case *)

(** The environment of the objects with features: feature 0 is listed by mixin 0 (bid 0), 1 (bid 1) and 5 (bid 1, priority -3), feature 1 by 0; feature 5 has a default only. *)
Definition om_mixins (m : mptr) : mixin_desc :=
  let x := ob_mixins m in
  {| m_name := m_name x; m_size := m_size x; m_align := m_align x; m_buf_size := m_buf_size x; m_buf_off := m_buf_off x;
     m_init := m_init x; m_copy_init := m_copy_init x; m_move_init := m_move_init x; m_copy_asgn := m_copy_asgn x; m_move_asgn := m_move_asgn x;
     m_destroy := m_destroy x; m_equals := m_equals x; m_compare := m_compare x; m_allocator := m_allocator x;
     m_features := match m with 0 => [ex_ff 0 10 0 0; ex_ff 1 11 0 0] | 1 => [ex_ff 0 12 1 0; ex_ff 2 13 0 5] | 5 => [ex_ff 0 14 1 (-3); ex_ff 2 15 0 5] | _ => [] end;
     m_order := m_order x; m_force_external := m_force_external x; m_dependency := m_dependency x |}.
Definition om_env : env := {|
  e_mixin := om_mixins; e_feature := ex_features; e_rule := ex_rules;
  e_tc := ex_tc; e_settings := ex_settings; e_canon := fun d => 100 + d |}.
Lemma om_aligned : aligned_mixins om_env.
Proof. intros m. pose proof (ob_aligned m) as H. exact H. Qed.
Definition om_accepts (k : nat) (m : mptr) : bool := match k with 10 | 11 => m =? 0 | 12 | 13 => m =? 1 | 14 | 15 => m =? 5 | _ => false end.
Lemma om_fit : payloads_fit om_env om_accepts.
Proof.
  intros m x H. cbn in H. unfold om_mixins in H. cbn in H.
  destruct m as [|[|[|[|[|[|m]]]]]]; cbn in H; repeat (destruct H as [<-|H]; [reflexivity|]); destruct H.
Qed.
Lemma om_once : listed_once om_env.
Proof. intros m. cbn. destruct m as [|[|[|[|[|[|m]]]]]]; cbn; repeat constructor; cbn; try tauto; intros [H|[]]; discriminate. Qed.
(** Type 0 has the mixins 0 1 5, type 1 the mixin 2 *)
Definition om_ops : list oop := map (fun f => ODom (DRegFeature 0 f)) [0; 1; 2; 3; 5] ++ map (fun m => ODom (DRegMixin 0 m)) [0; 1; 2; 5] ++
  [ODom (DGetType 0 [0; 1; 5] true); ODom (DGetType 0 [3] true); ONew false 1 (TReg 0) 7 false; OCopy false 2 1 7].
Definition om_st (bad : list nat) : st := ostate om_env (ob_user bad) om_ops.
Definition om_trace (bad : list nat) : otrace := otrace_of om_env (ob_user bad) om_ops.
Lemma kept_simple E U tr s : history E U tr s -> (forall d f r, ~ In (ODom (DUnregFeature d f), r) tr) -> kept_history E U tr s.
Proof.
  induction 1 as [|tr s op r s' H IH F Hr Hu]; intros Hn; [constructor|]. eapply or_snoc; eauto.
  - apply IH. intros d f x Hin. apply (Hn d f x), in_or_app. now left.
  - split; auto. intros d ->. destruct d; try exact Logic.I. exfalso. apply (Hn d f r), in_or_app. right. now left.
Qed.
Definition unregs (x : oop * res unit) : bool := match fst x with ODom (DUnregFeature _ _) => true | _ => false end.
Lemma no_unregs tr : existsb unregs tr = false -> forall d f r, ~ In (ODom (DUnregFeature d f), r) tr.
Proof. intros H d f r Hin. rewrite <- not_true_iff_false in H. apply H. apply existsb_exists. eexists. split; [exact Hin|reflexivity]. Qed.
Lemma om_kept bad : ofine om_env (ob_user bad) om_ops = true -> existsb unregs (om_trace bad) = false -> kept_history om_env (ob_user bad) (om_trace bad) (om_st bad).
Proof. intros H Hu. apply kept_simple; [exact (ohistory om_env (ob_user bad) om_aligned om_ops H)|exact (no_unregs (om_trace bad) Hu)]. Qed.
Definition om_sent (bad : list nat) (x : M st unit) : list ev * res unit := let r := x (om_st bad) in (skipn (length (s_log (om_st bad))) (s_log (fst r)), snd r).
Notation om_uni bad := (send_unicast om_env (ob_user bad) om_accepts 1).
Notation om_multi bad := (send_multicast om_env (ob_user bad) om_accepts 1).
Lemma om_type s o q ms d : option_map (fun x => (fst x, t_mixins (snd x), t_dom (snd x))) (recb s o) = Some (q, ms, d) -> exists t, type_of s o q t /\ t_mixins t = ms /\ t_dom t = d.
Proof.
  unfold recb. destruct (s_obj s o) as [x|] eqn:Hx; [|discriminate]. destruct (o_type x) as [r|] eqn:Hr; [|discriminate]. destruct (w_type (s_w s) r) as [t|] eqn:Ht; [|discriminate]. cbn. intros [= <- <- <-].
  exists t. split; [exists x; auto|auto].
Qed.
Definition om_views (s : st) : list (mptr * Z) := map (fun x => (fst (fst x), snd x)) (ob_values s 1).
Lemma om_holds s o i q ms d m p v : option_map (fun x => (fst x, t_mixins (snd x), t_dom (snd x))) (recb s o) = Some (q, ms, d) -> nth_error ms i = Some m -> get_at s o i = Ok (Some p) -> instance s p = Some {| i_mixin := m; i_val := v |} -> holds s o i m p v.
Proof. intros H Hm B C. destruct (om_type s o q ms d H) as (t & HT & <- & _). split; [exists q, t; auto|auto]. Qed.
Example C83_example :
  payloads_fit om_env om_accepts /\ listed_once om_env /\ kept_history om_env (ob_user []) (om_trace []) (om_st []) /\
  (exists t, type_of (om_st []) 1 (TReg 0) t /\ t_mixins t = [0; 1; 5] /\ t_dom t = 0) /\ feature_in (s_w (om_st [])) 0 0 /\
  impls om_env [0; 1; 5] 0 = [(0, ex_ff 0 10 0 0); (1, ex_ff 0 12 1 0); (2, ex_ff 0 14 1 (-3))] /\
  ob_values (om_st []) 1 = [(0, (0, 56%N), 2%Z); (1, (1, 8%N), 3%Z); (5, (0, 72%N), 4%Z)] /\
  om_sent [] (om_uni [] 0) = ([EvCall (FUpdate 14) 5 (0, 72%N) None 0%Z], Ok tt) /\
  om_sent [] (om_multi [] 0) = ([EvCall (FUpdate 12) 1 (1, 8%N) None 0%Z; EvCall (FUpdate 14) 5 (0, 72%N) None 0%Z], Ok tt) /\
  om_views (fst (om_multi [] 0 (om_st []))) = [(0, 2%Z); (1, 10%Z); (5, 11%Z)] /\
  holds (om_st []) 1 2 5 (0, 72%N) 4%Z /\
  (* the first function of a multicast fails *)
  om_sent [10] (om_multi [10] 0) = ([EvCall (FUpdate 12) 1 (1, 8%N) None 7%Z], Throw (EUserFunc 7)) /\
  (* a default and nothing *)
  om_sent [] (om_uni [] 5) = ([], Ok tt) /\ om_sent [] (om_multi [] 3) = ([], Throw ENotImplemented) /\
  (* from mixin 5 to 1 to 0, by implementations and by bids *)
  om_sent [] (send_next_impl (ob_user []) om_accepts 5 (0, 72%N) 0) = ([EvCall (FUpdate 12) 1 (1, 8%N) None 0%Z], Ok tt) /\
  om_sent [] (send_next_impl (ob_user []) om_accepts 1 (1, 8%N) 0) = ([EvCall (FUpdate 10) 0 (0, 56%N) None 0%Z], Ok tt) /\
  om_sent [] (send_next_impl (ob_user []) om_accepts 0 (0, 56%N) 0) = ([], Throw ENotImplemented) /\
  om_sent [] (send_next_impl (ob_user []) om_accepts 0 (0, 56%N) 2) = ([], Throw ENotImplemented) /\
  om_sent [] (send_next_bidders (ob_user []) om_accepts 5 (0, 72%N) 0) = ([EvCall (FUpdate 10) 0 (0, 56%N) None 0%Z], Ok tt) /\
  om_sent [] (send_next_top (ob_user []) om_accepts 1 (1, 8%N) 0) = ([EvCall (FUpdate 10) 0 (0, 56%N) None 0%Z], Ok tt) /\
  om_sent [] (send_next_top (ob_user []) om_accepts 0 (0, 56%N) 0) = ([], Throw ENotImplemented).
Proof.
  split; [exact om_fit|]. split; [exact om_once|]. split; [apply om_kept; vm_compute; reflexivity|]. split; [apply om_type; vm_compute; reflexivity|].
  do 6 (split; [vm_compute; reflexivity|]). split; [apply (om_holds _ 1 2 (TReg 0) [0; 1; 5] 0); vm_compute; reflexivity|].
  do 9 (split; [vm_compute; reflexivity|]). vm_compute; reflexivity.
Qed.
(** A program of two domain calls and mutations: what reaches the domains *)
Example C84_example :
  map fst (domain_calls (om_trace [])) = map (fun f => DRegFeature 0 f) [0; 1; 2; 3; 5] ++ map (fun m => DRegMixin 0 m) [0; 1; 2; 5] ++ [DGetType 0 [0; 1; 5] true; DGetType 0 [3] true] /\
  skipn 10 (map snd (domain_calls (om_trace []))) = [Throw EUnregisteredMixin] /\
  history om_env (ob_user []) (om_trace []) (om_st []) /\
  fair om_env (om_st []) (OMutate false true 1 [MRemove 0]) /\
  snd (op_run om_env (ob_user []) (OMutate false true 1 [MRemove 0]) (om_st [])) = Ok tt /\
  w_next (s_w (om_st [])) = 1 /\ w_next (s_w (fst (op_run om_env (ob_user []) (OMutate false true 1 [MRemove 0]) (om_st [])))) = 2.
Proof.
  split; [vm_compute; reflexivity|]. split; [vm_compute; reflexivity|]. split; [apply (ohistory om_env (ob_user []) om_aligned om_ops); vm_compute; reflexivity|].
  split; [apply (ofair om_env (ob_user []) om_aligned om_ops); vm_compute; reflexivity|]. split; [vm_compute; reflexivity|split; vm_compute; reflexivity].
Qed.
