(** Theorems C23 - C29, C52: features and messages. [features_kept] is the contract of unregister_feature. *)
From Coq Require Import List Arith ZArith NArith Lia Bool Permutation Sorted.
From Verif Require Import Base Sv Info TypeBuild TypeQuery Msg Domain SpecReg SpecDom SpecOrd SpecRule SpecMsg ExEnv ExFirst ExKept
  HistProofs MsgProofs MsgProofs2 MsgProofs3 PropsDom.
Import ListNotations.

Ltac ex_typ := split; [vm_compute; reflexivity|right; vm_compute; tauto].
Lemma ex_t0 : has_type ex_mw 0 (TReg 0) (ex_type ex_mw (TReg 0)).
Proof. ex_typ. Qed.
Lemma ex_t1 : has_type ex_mw 0 (TReg 1) (ex_type ex_mw (TReg 1)).
Proof. ex_typ. Qed.

(** C23. *)
Theorem C23_implements : forall E tr w d r t f, run_where E (features_kept E) tr w -> has_type w d r t -> feature_in w d f ->
  (implements_strong (w_fid w) t f = true <-> exists m x, In m (t_mixins t) /\ In x (m_features (e_mixin E m)) /\ ff_info x = f) /\
  match ftable_at t (w_fid w f) with
  | None => impls E (t_mixins t) f = []
  | Some e => exists l, payloads t e = Ok l /\ Permutation (map (fun p => (fp_mixin p, fp_data p)) l) (impls E (t_mixins t) f) /\
      (forall p, In p l -> fp_payload p = ff_payload (fp_data p))
  end.
Proof. exact c23. Qed.
Print Assumptions C23_implements.
Theorem C23_implements_name : forall E tr w d r t nm, run_where E (features_kept E) tr w -> has_type w d r t ->
  exists b, implements_strong_name E t nm = Ok b /\
    (b = true <-> exists m x, In m (t_mixins t) /\ In x (m_features (e_mixin E m)) /\ sv_bytes (f_name (e_feature E (ff_info x))) = nm).
Proof. exact c23_name. Qed.
Print Assumptions C23_implements_name.
Example C23_example : run_where ex_env (features_kept ex_env) ex_mtr ex_mw /\ has_type ex_mw 0 (TReg 0) (ex_type ex_mw (TReg 0)) /\
  feature_in ex_mw 0 0 /\ feature_in ex_mw 0 5 /\ t_mixins (ex_type ex_mw (TReg 0)) = [0; 1; 2] /\
  implements_strong (w_fid ex_mw) (ex_type ex_mw (TReg 0)) 0 = true /\ implements_strong (w_fid ex_mw) (ex_type ex_mw (TReg 0)) 5 = false /\
  implements_strong_name ex_env (ex_type ex_mw (TReg 0)) [102; 2]%N = Ok true /\ implements_strong_name ex_env (ex_type ex_mw (TReg 0)) [102; 3]%N = Ok false.
Proof. split; [exact ex_mrun|]. split; [exact ex_t0|]. vm_compute. auto 10. Qed.
(** If a feature is unregistered while mixins that list it are registered (against the contract), old types implement the next
    feature that gets its id. *)
Theorem C23_id_reuse_refuted : exists E tr w d r t f, run E (init_world E) tr w /\ has_type w d r t /\ feature_in w d f /\
  implements_strong (w_fid w) t f = true /\ forall m x, In m (t_mixins t) -> In x (m_features (e_mixin E m)) -> ff_info x <> f.
Proof.
  pose (ops := [DRegMixin 0 0; DGetType 0 [0] true; DUnregFeature 0 0; DRegFeature 0 5]). pose (w := ex_after ex_env ops).
  exists ex_env, (ex_tr ex_env ops), w, 0, (TReg 0), (ex_type w (TReg 0)), 5. split; [apply ex_run_after; vm_compute; reflexivity|].
  split; [ex_typ|]. split; [vm_compute; reflexivity|]. split; [vm_compute; reflexivity|].
  change (t_mixins (ex_type w (TReg 0))) with [0]. intros m x [<-|[]] Hx. simpl in Hx. destruct Hx as [<-|[<-|[]]]; vm_compute; discriminate.
Qed.
Print Assumptions C23_id_reuse_refuted.
(** A feature of another domain: the type implements it if the id happens to be that of an implemented feature. *)
Theorem C23_foreign_refuted : exists E tr w d d' r t f, run_where E (features_kept E) tr w /\ has_type w d r t /\ feature_in w d' f /\ d <> d' /\
  implements_strong (w_fid w) t f = true /\ forall m x, In m (t_mixins t) -> In x (m_features (e_mixin E m)) -> ff_info x <> f.
Proof.
  pose (ops := [DRegMixin 0 0; DRegFeature 1 5; DGetType 0 [0] true]). pose (w := ex_after ex_env ops).
  exists ex_env, (ex_tr ex_env ops), w, 0, 1, (TReg 0), (ex_type w (TReg 0)), 5. split; [apply ex_kept; vm_compute; reflexivity|].
  split; [ex_typ|]. split; [vm_compute; reflexivity|]. split; [discriminate|]. split; [vm_compute; reflexivity|].
  change (t_mixins (ex_type w (TReg 0))) with [0]. intros m x [<-|[]] Hx. simpl in Hx. destruct Hx as [<-|[<-|[]]]; vm_compute; discriminate.
Qed.
Print Assumptions C23_foreign_refuted.

(** C24. *)
Theorem C24_unicast : forall E tr w d r t f, run_where E (features_kept E) tr w -> has_type w d r t -> feature_in w d f ->
  impls E (t_mixins t) f <> [] ->
  exists x, call_unicast E (w_fid w) t f = Ok (exec_of x) /\ In x (impls E (t_mixins t) f) /\
    forall y, In y (impls E (t_mixins t) f) -> ~ preferred y x.
Proof. exact c24. Qed.
Print Assumptions C24_unicast.
Example C24_example : run_where ex_env (features_kept ex_env) ex_mtr ex_mw /\ has_type ex_mw 0 (TReg 0) (ex_type ex_mw (TReg 0)) /\
  feature_in ex_mw 0 0 /\ feature_in ex_mw 0 2 /\
  map exec_of (impls ex_env [0; 1; 2] 0) = [ExecImpl 0 10; ExecImpl 1 12; ExecImpl 2 14] /\
  call_unicast ex_env (w_fid ex_mw) (ex_type ex_mw (TReg 0)) 0 = Ok (ExecImpl 2 14) /\
  call_unicast ex_env (w_fid ex_mw) (ex_type ex_mw (TReg 0)) 2 = Ok (ExecImpl 2 15) /\
  call_unicast ex_env (w_fid ex_mw) (ex_type ex_mw (TReg 5)) 0 = Ok (ExecImpl 0 12).
Proof. split; [exact ex_mrun|]. split; [exact ex_t0|]. vm_compute. auto 10. Qed.

(** C25. *)
Theorem C25_multicast : forall E tr w d r t f, run_where E (features_kept E) tr w -> has_type w d r t -> feature_in w d f ->
  impls E (t_mixins t) f <> [] ->
  exists xs last, call_multicast E (w_fid w) t f = Ok (map exec_of xs, last) /\
    Permutation xs (top_bidders (impls E (t_mixins t) f)) /\ StronglySorted executed_before xs /\
    (exists l, map exec_of xs = l ++ [last]) /\ call_unicast E (w_fid w) t f = Ok last.
Proof. exact c25. Qed.
Print Assumptions C25_multicast.
Example C25_example : run_where ex_env (features_kept ex_env) ex_mtr ex_mw /\ has_type ex_mw 0 (TReg 0) (ex_type ex_mw (TReg 0)) /\
  feature_in ex_mw 0 0 /\
  call_multicast ex_env (w_fid ex_mw) (ex_type ex_mw (TReg 0)) 0 = Ok ([ExecImpl 1 12; ExecImpl 2 14], ExecImpl 2 14) /\
  call_multicast ex_env (w_fid ex_mw) (ex_type ex_mw (TReg 0)) 2 = Ok ([ExecImpl 1 13; ExecImpl 2 15], ExecImpl 2 15).
Proof. split; [exact ex_mrun|]. split; [exact ex_t0|]. vm_compute. auto 10. Qed.

(** C26. The query is not stored yet, so that get_type creates the type; memory suffices. *)
Theorem C26_clash : forall E tr w d, regular_rules E -> run_where E (features_kept E) tr w ->
  exists rs, active_rules E tr d rs /\ forall q k ms, no_deps E q -> not_stored w d q ->
    k <= Nat.min 5 (length rs) -> passes E (view E w d) rs k q ms -> in_turn E (view E w d) rs ms (RuleOk ms) ->
    NoDup ms -> (forall m, In m ms -> mixin_registered tr m = Some d) ->
    (get_type E true w d q = (w, Throw EFeatureClash) <-> exists f, f_allow_clashes (e_feature E f) = false /\ clash_in (impls E ms f)).
Proof. exact c26_rules. Qed.
Print Assumptions C26_clash.
Theorem C26_clash_no_rules : forall E tr w d q, regular_rules E -> run_where E (features_kept E) tr w -> (forall r, rule_count E tr d r = 0) ->
  no_deps E q -> not_stored w d q -> NoDup q -> (forall m, In m q -> mixin_registered tr m = Some d) ->
  (get_type E true w d q = (w, Throw EFeatureClash) <-> exists f, f_allow_clashes (e_feature E f) = false /\ clash_in (impls E q f)).
Proof. exact c26. Qed.
Print Assumptions C26_clash_no_rules.
Theorem C26_no_clash_in_types : forall E tr w d r t, run_where E (features_kept E) tr w -> has_type w d r t ->
  forall f, f_allow_clashes (e_feature E f) = false -> ~ clash_in (impls E (t_mixins t) f).
Proof. exact c26_types. Qed.
Print Assumptions C26_no_clash_in_types.
(** In this environment mixins 0 and 2 list feature 0 with the same bid and priority. *)
Definition ex_clash : env := {|
  e_mixin := fun m => match m with
    | 0 => ex_mixin (ex_sv 100 [97]%N) 4 4 true [ex_ff 0 10 2 0; ex_ff 1 11 0 0] 0 false
    | 1 => ex_mixin (ex_sv 200 [98]%N) 4 4 true [ex_ff 0 12 2 5] 0 false
    | 2 => ex_mixin (ex_sv 300 [99]%N) 4 4 true [ex_ff 0 13 2 0] 0 false
    | _ => ex_mixin (ex_sv (600 + N.of_nat m) [101; N.of_nat m]%N) 2 2 true [] 0 false end;
  e_feature := ex_features; e_rule := ex_rules; e_tc := ex_tc; e_settings := ex_settings; e_canon := fun d => 100 + d |}.
Example C26_example : let ops := [DRegMixin 0 0; DRegMixin 0 1; DRegMixin 0 2] in
  run_where ex_clash (features_kept ex_clash) (ex_tr ex_clash ops) (ex_after ex_clash ops) /\
  (forall r, rule_count ex_clash (ex_tr ex_clash ops) 0 r = 0) /\ no_deps ex_clash [0; 1; 2] /\ not_stored (ex_after ex_clash ops) 0 [0; 1; 2] /\
  (exists f, f_allow_clashes (e_feature ex_clash f) = false /\ clash_in (impls ex_clash [0; 1; 2] f)) /\
  snd (get_type ex_clash true (ex_after ex_clash ops) 0 [0; 1; 2]) = Throw EFeatureClash /\
  snd (get_type ex_clash true (ex_after ex_clash ops) 0 [0; 1]) = Ok (TReg 0).
Proof.
  cbv zeta. split; [apply ex_where; [intros o w0 H; repeat (destruct H as [<-|H]; [exact I|]); destruct H|vm_compute; reflexivity]|].
  split; [reflexivity|]. split; [intros m [<-|[<-|[<-|[]]]]; reflexivity|]. split; [intros []|]. split.
  - exists 0. split; [reflexivity|]. exists [], (0, ex_ff 0 10 2 0), [(1, ex_ff 0 12 2 5)], (2, ex_ff 0 13 2 0), []. repeat split.
  - vm_compute. auto.
Qed.

(** C27. *)
Theorem C27_next_implementer : forall E tr w d r t f, listed_once E -> run_where E (features_kept E) tr w -> has_type w d r t -> feature_in w d f ->
  exists l, Permutation l (impls E (t_mixins t) f) /\ StronglySorted (fun a b => ~ preferred b a) l /\
    (forall x rest, l = x :: rest -> call_unicast E (w_fid w) t f = Ok (exec_of x)) /\
    (forall k x m, nth_error l k = Some x -> nth_error (t_mixins t) (fst x) = Some m ->
       find_next_implementer (w_fid w) (w_mid w) t f m = Ok (option_map payload_of (nth_error l (S k))) /\
       has_next_impl (w_fid w) (w_mid w) t f m = Ok (S k <? length l) /\
       call_next_impl (w_fid w) (w_mid w) t f m = match nth_error l (S k) with Some y => Ok (exec_of y) | None => Throw ENotImplemented end) /\
    (forall m, not_foreign w d m -> ~ (In m (t_mixins t) /\ exists x, In x (m_features (e_mixin E m)) /\ ff_info x = f) ->
       find_next_implementer (w_fid w) (w_mid w) t f m = Ok None /\ call_next_impl (w_fid w) (w_mid w) t f m = Throw ENotImplemented).
Proof. exact c27. Qed.
Print Assumptions C27_next_implementer.
Lemma ex_listed_once : listed_once ex_env.
Proof. intros m. do 5 (destruct m as [|m]; [repeat constructor; simpl; intuition discriminate|]). constructor. Qed.
Example C27_example : listed_once ex_env /\ run_where ex_env (features_kept ex_env) ex_mtr ex_mw /\ has_type ex_mw 0 (TReg 0) (ex_type ex_mw (TReg 0)) /\
  feature_in ex_mw 0 0 /\
  call_unicast ex_env (w_fid ex_mw) (ex_type ex_mw (TReg 0)) 0 = Ok (ExecImpl 2 14) /\
  call_next_impl (w_fid ex_mw) (w_mid ex_mw) (ex_type ex_mw (TReg 0)) 0 2 = Ok (ExecImpl 1 12) /\
  call_next_impl (w_fid ex_mw) (w_mid ex_mw) (ex_type ex_mw (TReg 0)) 0 1 = Ok (ExecImpl 0 10) /\
  call_next_impl (w_fid ex_mw) (w_mid ex_mw) (ex_type ex_mw (TReg 0)) 0 0 = Throw ENotImplemented /\
  not_foreign ex_mw 0 5 /\ call_next_impl (w_fid ex_mw) (w_mid ex_mw) (ex_type ex_mw (TReg 0)) 0 5 = Throw ENotImplemented.
Proof. split; [exact ex_listed_once|]. split; [exact ex_mrun|]. split; [exact ex_t0|]. vm_compute. auto 10. Qed.
(** A mixin that lists the feature twice is its own next implementer: the chain never ends. *)
Definition ex_twice : env := {|
  e_mixin := fun m => match m with
    | 0 => ex_mixin (ex_sv 100 [97]%N) 4 4 true [ex_ff 0 10 2 0; ex_ff 0 11 1 0] 0 false
    | _ => ex_mixin (ex_sv (600 + N.of_nat m) [101; N.of_nat m]%N) 2 2 true [ex_ff 0 12 0 0] 0 false end;
  e_feature := ex_features; e_rule := ex_rules; e_tc := ex_tc; e_settings := ex_settings; e_canon := fun d => 100 + d |}.
Theorem C27_next_implementer_refuted : exists E tr w d r t f m i p p', run_where E (features_kept E) tr w /\ has_type w d r t /\ feature_in w d f /\
  nth_error (t_mixins t) i = Some m /\ call_unicast E (w_fid w) t f = Ok (ExecImpl i p) /\ call_next_impl (w_fid w) (w_mid w) t f m = Ok (ExecImpl i p') /\
  exists j, j <> i /\ In j (map fst (impls E (t_mixins t) f)).
Proof.
  pose (ops := [DRegMixin 0 0; DRegMixin 0 5; DGetType 0 [5; 0] true]). pose (w := ex_after ex_twice ops).
  exists ex_twice, (ex_tr ex_twice ops), w, 0, (TReg 0), (ex_type w (TReg 0)), 0, 0, 1, 10, 11.
  split; [apply ex_where; [intros o w0 H; repeat (destruct H as [<-|H]; [exact I|]); destruct H|vm_compute; reflexivity]|].
  split; [ex_typ|]. split; [vm_compute; reflexivity|]. split; [vm_compute; reflexivity|]. split; [vm_compute; reflexivity|]. split; [vm_compute; reflexivity|].
  exists 0. split; [discriminate|]. vm_compute. auto.
Qed.
Print Assumptions C27_next_implementer_refuted.

(** C28. *)
Theorem C28_next_bidder_set : forall E tr w d r t f m, listed_once E -> run_where E (features_kept E) tr w -> has_type w d r t -> feature_in w d f -> not_foreign w d m ->
  (forall i x, nth_error (t_mixins t) i = Some m -> In (i, x) (impls E (t_mixins t) f) ->
     exists l, find_next_bidder_set (w_fid w) (w_mid w) t f m = Ok (map payload_of l) /\
       Permutation l (next_bidders (bid_of (i, x)) (impls E (t_mixins t) f)) /\
       has_next_bidder_set (w_fid w) (w_mid w) t f m = Ok (negb (length l =? 0)) /\
       (l = [] -> call_next_bidder_set (w_fid w) (w_mid w) t f m = Throw ENotImplemented /\
                  call_next_bidder_top (w_fid w) (w_mid w) t f m = Throw ENotImplemented) /\
       (l <> [] -> exists xs last, call_next_bidder_set (w_fid w) (w_mid w) t f m = Ok (map exec_of xs, exec_of last) /\
          call_next_bidder_top (w_fid w) (w_mid w) t f m = Ok (exec_of last) /\
          Permutation xs l /\ StronglySorted executed_before xs /\ (exists ys, xs = ys ++ [last]) /\
          (forall y, In y l -> ~ preferred y last))) /\
  (~ (In m (t_mixins t) /\ exists x, In x (m_features (e_mixin E m)) /\ ff_info x = f) ->
     find_next_bidder_set (w_fid w) (w_mid w) t f m = Ok [] /\ has_next_bidder_set (w_fid w) (w_mid w) t f m = Ok false /\
     call_next_bidder_set (w_fid w) (w_mid w) t f m = Throw ENotImplemented).
Proof. exact c28. Qed.
Print Assumptions C28_next_bidder_set.
Example C28_example : listed_once ex_env /\ run_where ex_env (features_kept ex_env) ex_mtr ex_mw /\ has_type ex_mw 0 (TReg 0) (ex_type ex_mw (TReg 0)) /\
  feature_in ex_mw 0 0 /\ not_foreign ex_mw 0 1 /\
  call_next_bidder_set (w_fid ex_mw) (w_mid ex_mw) (ex_type ex_mw (TReg 0)) 0 1 = Ok ([ExecImpl 0 10], ExecImpl 0 10) /\
  call_next_bidder_set (w_fid ex_mw) (w_mid ex_mw) (ex_type ex_mw (TReg 0)) 0 2 = Ok ([ExecImpl 0 10], ExecImpl 0 10) /\
  call_next_bidder_set (w_fid ex_mw) (w_mid ex_mw) (ex_type ex_mw (TReg 0)) 0 0 = Throw ENotImplemented.
Proof. split; [exact ex_listed_once|]. split; [exact ex_mrun|]. split; [exact ex_t0|]. vm_compute. auto 10. Qed.

(** C29. *)
Theorem C29_defaults : forall E tr w d r t f, run_where E (features_kept E) tr w -> has_type w d r t -> feature_in w d f \/ w_fid w f = None ->
  (implements E (w_fid w) t f = true <-> f_default (e_feature E f) <> None \/ impls E (t_mixins t) f <> []) /\
  (impls E (t_mixins t) f = [] ->
     match f_default (e_feature E f) with
     | Some p => call_unicast E (w_fid w) t f = Ok (ExecDefault p) /\ call_multicast E (w_fid w) t f = Ok ([ExecDefault p], ExecDefault p)
     | None => call_unicast E (w_fid w) t f = Throw ENotImplemented /\ call_multicast E (w_fid w) t f = Throw ENotImplemented
     end) /\
  (impls E (t_mixins t) f <> [] ->
     (exists i p, call_unicast E (w_fid w) t f = Ok (ExecImpl i p)) /\
     (exists l i p, call_multicast E (w_fid w) t f = Ok (l, ExecImpl i p) /\ forall x, In x l -> exists i p, x = ExecImpl i p)).
Proof. exact c29. Qed.
Print Assumptions C29_defaults.
Example C29_example : run_where ex_env (features_kept ex_env) ex_mtr ex_mw /\ has_type ex_mw 0 (TReg 1) (ex_type ex_mw (TReg 1)) /\
  has_type ex_mw 0 (TEmpty 0) (ex_type ex_mw (TEmpty 0)) /\ feature_in ex_mw 0 1 /\ feature_in ex_mw 0 0 /\ w_fid ex_mw 6 = None /\
  call_unicast ex_env (w_fid ex_mw) (ex_type ex_mw (TReg 1)) 1 = Ok (ExecDefault 77) /\
  call_unicast ex_env (w_fid ex_mw) (ex_type ex_mw (TReg 0)) 1 = Ok (ExecImpl 0 11) /\
  call_unicast ex_env (w_fid ex_mw) (ex_type ex_mw (TReg 1)) 0 = Throw ENotImplemented /\
  call_unicast ex_env (w_fid ex_mw) (ex_type ex_mw (TEmpty 0)) 5 = Ok (ExecDefault 77).
Proof. split; [exact ex_mrun|]. split; [exact ex_t1|]. split; [split; [vm_compute; reflexivity|now left]|]. vm_compute. auto 10. Qed.

(** C52. [l] is what multicast executes; [ret] is what the functions return. The combinators are fresh (or reset). *)
Theorem C52_combinators : forall E tr w d r t f, run_where E (features_kept E) tr w -> has_type w d r t -> feature_in w d f ->
  forall l last, call_multicast E (w_fid w) t f = Ok (l, last) ->
  (forall ret, call_with_combinator E (w_fid w) comb_and ret t f true = Ok (upto (fun x => negb (ret x)) l, forallb ret l)) /\
  (forall ret, call_with_combinator E (w_fid w) comb_or ret t f false = Ok (upto ret l, existsb ret l)) /\
  (forall ret, call_with_combinator E (w_fid w) comb_sum ret t f 0%Z = Ok (l, total (map ret l))) /\
  (forall ret, exists s, call_with_combinator E (w_fid w) comb_mean ret t f (0%Z, 0) = Ok (l, s) /\
     mean_result s = Z.quot (total (map ret l)) (Z.of_nat (length l))).
Proof. exact c52. Qed.
Print Assumptions C52_combinators.
Example C52_example : run_where ex_env (features_kept ex_env) ex_mtr ex_mw /\ has_type ex_mw 0 (TReg 0) (ex_type ex_mw (TReg 0)) /\ feature_in ex_mw 0 0 /\
  let ret := fun x => match x with ExecImpl _ p => Z.of_nat p | ExecDefault _ => 0%Z end in
  call_with_combinator ex_env (w_fid ex_mw) comb_sum ret (ex_type ex_mw (TReg 0)) 0 0%Z = Ok ([ExecImpl 1 12; ExecImpl 2 14], 26%Z) /\
  call_with_combinator ex_env (w_fid ex_mw) comb_or (fun x => Z.ltb 0 (ret x)) (ex_type ex_mw (TReg 0)) 0 false = Ok ([ExecImpl 1 12], true) /\
  call_with_combinator ex_env (w_fid ex_mw) comb_and (fun x => Z.ltb (ret x) 13) (ex_type ex_mw (TReg 0)) 0 true = Ok ([ExecImpl 1 12; ExecImpl 2 14], false).
Proof. split; [exact ex_mrun|]. split; [exact ex_t0|]. vm_compute. auto 10. Qed.
