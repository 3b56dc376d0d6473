(** Properties C56, C57, C58: threads *)
From Coq Require Import List Arith ZArith NArith Lia Bool.
From Verif Require Import Base Sv Info Registry TypeMut Rules TypeBuild TypeQuery Domain SpecReg SpecDom SpecRule ExEnv ExFirst Conc SpecConc ConcProofs ConcTheorems2.
Import ListNotations.

(** C56: however the calls of the threads overlap, what can be seen is what the calls would do one after the other, in an order in which
    a call that returned before another was made comes first; as long as no call changes what another one relies on ([quiet]). *)
Theorem C56_linearizable : forall E w0 h s, reachable E w0 -> crun E quiet w0 h s -> not_unregistering s -> linearizable E w0 h (c_w s).
Proof. exact c56. Qed.
Print Assumptions C56_linearizable.

(** C56: threads that ask for types, at any time, all get what the call would give before they started: the same error, or a type with the
    same mixins; types with the same mixins are the same type. *)
Theorem C56_agree : forall E w0 h s, reachable E w0 -> crun E any_step w0 h s -> only_asks h ->
  (forall o d q r, In (o, r) (answers h) -> o = DGetType d q true \/ o = DGetTypeMut d d q true ->
     (exists e, get_type E true w0 d q = (w0, Throw e) /\ r = Throw e) \/
     (exists w1 r1 t1 r2 t2, get_type E true w0 d q = (w1, Ok r1) /\ has_type w1 d r1 t1 /\
        r = Ok (Some r2) /\ has_type (c_w s) d r2 t2 /\ t_mixins t2 = t_mixins t1)) /\
  (forall d r r' t t', has_type (c_w s) d r t -> has_type (c_w s) d r' t' -> (r = r' <-> t_mixins t = t_mixins t')) /\
  linearizable E w0 h (c_w s).
Proof. exact c56_agree. Qed.
Print Assumptions C56_agree.

(** Two threads find that there is no type with mixins 0 and 1 and both build one, while a third one asks for something that is not possible;
    then a fourth call gets the type from the stored query. *)
Definition ex_start : list dop := [DRegMixin 0 0; DRegMixin 0 1; DRegMixin 0 2; DRegMixin 0 3; DAddRule 0 1; DAddRule 0 3].
Definition ex_w0 : world := ex_after ex_env ex_start.
Definition ex_acts : list act :=
  [ACall 0 (DGetType 0 [0; 1] true); ACall 1 (DGetTypeMut 0 0 [0; 1] true); ACall 2 (DGetType 0 [2] true);
   AStep 0; AStep 0; AStep 1; AStep 2; AStep 1; AStep 0; AStep 2; AStep 1; AStep 0; ARet 0; ARet 2; ARet 1;
   ACall 2 (DGetType 0 [0; 1] true); AStep 2; ARet 2].
Example C56_example : let x := exec ex_env 3 ex_w0 ex_acts in
  reachable ex_env ex_w0 /\ crun ex_env any_step ex_w0 (x_h x) (x_s x) /\ only_asks (x_h x) /\ all_done (x_s x) /\
  answers (x_h x) = [(DGetType 0 [0; 1] true, Ok (Some (TReg 0))); (DGetType 0 [2] true, Throw (ERuleUser 5));
     (DGetTypeMut 0 0 [0; 1] true, Ok (Some (TReg 0))); (DGetType 0 [0; 1] true, Ok (Some (TReg 0)))] /\
  option_map t_mixins (w_type (c_w (x_s x)) (TReg 0)) = Some [0; 1; 3] /\ d_types (w_dom (c_w (x_s x)) 0) = [TReg 0].
Proof.
  set (x := exec ex_env 3 ex_w0 ex_acts). cbv zeta. assert (OK : x_ok x = true) by (vm_compute; reflexivity).
  split; [exists (ex_tr ex_env ex_start); apply ex_run_after; vm_compute; reflexivity|]. split; [apply (exec_ok _ _ _ _ OK)|].
  split; [intros i o K; apply (callsb_ok (fun o => match o with DGetType _ _ _ | DGetTypeMut _ _ _ _ => true | _ => false end)) in K; [destruct o; try discriminate K; exact I|vm_compute; reflexivity]|].
  split; [apply exec_done; [exact OK|vm_compute; reflexivity]|]. vm_compute. auto.
Qed.

(** C57: after calls of threads that were [quiet], get_type gives what it would give if nothing had been stored: what the now active rules say.
    Missing: without [quiet] it is false, see below. *)
Theorem C57_quiet_partial : forall E tr w0 h s d, current_history E tr w0 -> crun E quiet w0 h s -> not_unregistering s ->
  rules_pure E \/ no_registrations h -> current_answers E (c_w s) d.
Proof. exact c57_quiet. Qed.
Print Assumptions C57_quiet_partial.
(** A rule is added to domain 0 while a call of get_type is in the middle in domain 1, and while another one is between its first two sections in domain 0. *)
Definition ex_start2 : list dop := [DRegMixin 0 0; DRegMixin 0 1; DRegMixin 1 8; DRegMixin 1 7].
Definition ex_w02 : world := ex_after ex_env ex_start2.
Definition ex_acts2 : list act :=
  [ACall 0 (DGetType 0 [0; 1] true); ACall 1 (DGetType 1 [8; 7] true); ACall 2 (DAddRule 0 2); AStep 0; AStep 1; AStep 1; AStep 2; AStep 1; AStep 0; AStep 0; AStep 0;
   ARet 2; AStep 1; ARet 1; ARet 0; ACall 2 (DGc 0); AStep 2; ARet 2].
Example C57_example : let x := exec ex_env 3 ex_w02 ex_acts2 in
  current_history ex_env (ex_tr ex_env ex_start2) ex_w02 /\ crun ex_env quiet ex_w02 (x_h x) (x_s x) /\ not_unregistering (x_s x) /\ no_registrations (x_h x) /\
  answers (x_h x) = [(DAddRule 0 2, Ok None); (DGetType 1 [8; 7] true, Ok (Some (TReg 1))); (DGetType 0 [0; 1] true, Ok (Some (TReg 0))); (DGc 0, Ok None)].
Proof.
  set (x := exec ex_env 3 ex_w02 ex_acts2). cbv zeta. assert (OK : x_ok x = true) by (vm_compute; reflexivity).
  split; [right|].
  { pose proof (ex_first ex_env ex_start2 []) as K. rewrite app_nil_r in K. apply K; vm_compute; reflexivity. }
  split; [apply (exec_ok _ _ _ _ OK); vm_compute; reflexivity|].
  split; [apply done_not_unregistering, exec_done; [exact OK|vm_compute; reflexivity]|].
  split; [intros i o K; apply (callsb_ok (fun o => match o with DRegMixin _ _ | DUnregMixin _ _ => false | _ => true end)) in K; [destruct o; try discriminate K; exact I|vm_compute; reflexivity]|]. vm_compute. auto.
Qed.

(** A call of get_type applies the rules under the shared lock; the rule is added before it takes the unique lock; the answer of the old rules is stored
    after the queries were cleared, and stays. *)
Definition ex_quick : env := {|
  e_mixin := ex_mixins; e_feature := ex_features;
  e_rule := fun r => match r with 1 => ex_rule0 1 (rule_basic_dep 0 3) 0 | _ => ex_rule0 r (rule_v1_deprecated r) 1 end;
  e_tc := ex_tc; e_settings := fun _ => {| s_canonicalize := false; s_dup_features := false; s_dup_mixins := false |}; e_canon := fun d => 100 + d |}.
Definition ex_acts3 : list act :=
  [ACall 0 (DGetType 0 [0; 2] true); AStep 0; AStep 0; ACall 1 (DAddRule 0 2); AStep 1; ARet 1; AStep 0; AStep 0; ARet 0].
Theorem C57_stale_refuted : exists E w0 h s d q, rules_pure E /\ reachable E w0 /\ crun E any_step w0 h s /\ all_done s /\
  (forall i o, In (HCall i o) h -> (exists d r, o = DAddRule d r) \/ (exists d q a, o = DGetType d q a)) /\
  exists w1 r1 t1 w2 r2 t2,
    get_type E true (c_w s) d q = (w1, Ok r1) /\ has_type w1 d r1 t1 /\ t_mixins t1 = [0; 2] /\
    get_type E true (forget_queries (c_w s) d) d q = (w2, Ok r2) /\ has_type w2 d r2 t2 /\ t_mixins t2 = [0].
Proof.
  pose (w0 := ex_after ex_quick [DRegMixin 0 0; DRegMixin 0 2]). pose (x := exec ex_quick 2 w0 ex_acts3). assert (OK : x_ok x = true) by (vm_compute; reflexivity).
  exists ex_quick, w0, (x_h x), (x_s x), 0, [0; 2]. split.
  { intros r f H. cbn in H. destruct r as [|[|r]]; injection H as <-; reflexivity. }
  split; [exists (ex_tr ex_quick [DRegMixin 0 0; DRegMixin 0 2]); apply ex_run_after; vm_compute; reflexivity|]. split; [apply (exec_ok _ _ _ _ OK)|].
  split; [apply exec_done; [exact OK|vm_compute; reflexivity]|].
  split; [intros i o K; apply (callsb_ok (fun o => match o with DGetType _ _ _ | DAddRule _ _ => true | _ => false end)) in K; [destruct o; try discriminate K; eauto|vm_compute; reflexivity]|].
  pose (y1 := get_type ex_quick true (c_w (x_s x)) 0 [0; 2]). pose (y2 := get_type ex_quick true (forget_queries (c_w (x_s x)) 0) 0 [0; 2]).
  exists (fst y1), (TReg 0), (match w_type (fst y1) (TReg 0) with Some t => t | None => empty_type 0 end).
  exists (fst y2), (TReg 1), (match w_type (fst y2) (TReg 1) with Some t => t | None => empty_type 0 end).
  split; [vm_compute; reflexivity|]. split; [split; [vm_compute; reflexivity|right; vm_compute; auto]|]. split; [vm_compute; reflexivity|].
  split; [vm_compute; reflexivity|]. split; [split; [vm_compute; reflexivity|right; vm_compute; auto]|]. vm_compute; reflexivity.
Qed.
Print Assumptions C57_stale_refuted.

(** C58: after calls of threads that were [quiet], every stored query leads to a type of the domain. Collections are [quiet] unless they happen after
    get_type found a type without objects and before it stored the query.
    Missing: that moment, see below. *)
Theorem C58_quiet_partial : forall E w0 h s, reachable E w0 -> crun E quiet w0 h s -> not_unregistering s ->
  forall d q r, In (q, r) (d_queries (w_dom (c_w s) d)) -> exists t, has_type (c_w s) d r t.
Proof. exact c58_quiet. Qed.
Print Assumptions C58_quiet_partial.
(** Collections while get_type found a type with an object; the other type of the domain is collected. *)
Definition ex_start4 : list dop := [DRegMixin 0 0; DRegMixin 0 1; DGetType 0 [0] true; DGetType 0 [1] true; DNewObj (TReg 0); DAddRule 0 2].
Definition ex_acts4 : list act :=
  [ACall 0 (DGetType 0 [0] true); AStep 0; AStep 0; ACall 1 (DGetType 0 [0; 2] true); ACall 2 (DGc 0); AStep 1; AStep 2; AStep 0; AStep 1; ARet 2; ACall 2 (DGc 0); AStep 2; AStep 1; ARet 2; ARet 1; ARet 0].
Example C58_example : let w0 := ex_after ex_quick ex_start4 in let x := exec ex_quick 3 w0 ex_acts4 in
  reachable ex_quick w0 /\ crun ex_quick quiet w0 (x_h x) (x_s x) /\ not_unregistering (x_s x) /\ d_queries (w_dom (c_w (x_s x)) 0) = [([0], TReg 0); ([0; 2], TReg 0)] /\
  d_types (w_dom w0 0) = [TReg 0; TReg 1] /\ d_types (w_dom (c_w (x_s x)) 0) = [TReg 0].
Proof.
  set (w0 := ex_after ex_quick ex_start4). set (x := exec ex_quick 3 w0 ex_acts4). cbv zeta. assert (OK : x_ok x = true) by (vm_compute; reflexivity).
  split; [exists (ex_tr ex_quick ex_start4); apply ex_run_after; vm_compute; reflexivity|].
  split; [apply (exec_ok _ _ _ _ OK); vm_compute; reflexivity|].
  split; [apply done_not_unregistering, exec_done; [exact OK|vm_compute; reflexivity]|].
  vm_compute. auto.
Qed.

(** get_type found a type without objects; it is collected; then the query is stored and the type returned. *)
Definition ex_acts5 : list act := [ACall 0 (DGetType 0 [0] true); AStep 0; AStep 0; ACall 1 (DGc 0); AStep 1; ARet 1; AStep 0; ARet 0].
Theorem C58_dangling_refuted : exists E w0 h s d q r, reachable E w0 /\ crun E any_step w0 h s /\ all_done s /\
  (forall i o, In (HCall i o) h -> (exists d, o = DGc d) \/ (exists d q a, o = DGetType d q a)) /\
  In (DGetType d q true, Ok (Some r)) (answers h) /\ In (q, r) (d_queries (w_dom (c_w s) d)) /\ w_type (c_w s) r = None /\
  get_type E true (c_w s) d q = (c_w s, Ok r).
Proof.
  pose (ops := [DRegMixin 0 0; DGetType 0 [0] true; DAddRule 0 2]).
  pose (w0 := ex_after ex_quick ops). pose (x := exec ex_quick 2 w0 ex_acts5). assert (OK : x_ok x = true) by (vm_compute; reflexivity).
  exists ex_quick, w0, (x_h x), (x_s x), 0, [0], (TReg 0).
  split; [exists (ex_tr ex_quick ops); apply ex_run_after; vm_compute; reflexivity|]. split; [apply (exec_ok _ _ _ _ OK)|].
  split; [apply exec_done; [exact OK|vm_compute; reflexivity]|].
  split; [intros i o K; apply (callsb_ok (fun o => match o with DGetType _ _ _ | DGc _ => true | _ => false end)) in K; [destruct o; try discriminate K; eauto|vm_compute; reflexivity]|].
  split; [vm_compute; auto|]. split; [vm_compute; auto|]. split; vm_compute; reflexivity.
Qed.
Print Assumptions C58_dangling_refuted.
(** get_type builds a type; its mixin is unregistered; then the type is inserted: the domain has a type with a mixin that is not registered. *)
Definition ex_acts6 : list act := [ACall 0 (DGetType 0 [0] true); AStep 0; AStep 0; AStep 0; ACall 1 (DUnregMixin 0 0); AStep 1; AStep 1; ARet 1; AStep 0; ARet 0].
Theorem C58_unregister_refuted : exists E w0 h s d r t m, reachable E w0 /\ crun E any_step w0 h s /\ all_done s /\
  (forall i o, In (HCall i o) h -> (exists d m, o = DUnregMixin d m) \/ (exists d q a, o = DGetType d q a)) /\
  has_type (c_w s) d r t /\ In m (t_mixins t) /\ w_mdom (c_w s) m = None.
Proof.
  pose (ops := [DRegMixin 0 0]).
  pose (w0 := ex_after ex_quick ops). pose (x := exec ex_quick 2 w0 ex_acts6). assert (OK : x_ok x = true) by (vm_compute; reflexivity).
  exists ex_quick, w0, (x_h x), (x_s x), 0, (TReg 0), (match w_type (c_w (x_s x)) (TReg 0) with Some t => t | None => empty_type 0 end), 0.
  split; [exists (ex_tr ex_quick ops); apply ex_run_after; vm_compute; reflexivity|]. split; [apply (exec_ok _ _ _ _ OK)|].
  split; [apply exec_done; [exact OK|vm_compute; reflexivity]|].
  split; [intros i o K; apply (callsb_ok (fun o => match o with DGetType _ _ _ | DUnregMixin _ _ => true | _ => false end)) in K; [destruct o; try discriminate K; eauto|vm_compute; reflexivity]|].
  split; [split; [vm_compute; reflexivity|right; vm_compute; auto]|]. split; vm_compute; auto.
Qed.
Print Assumptions C58_unregister_refuted.
