(** Theorems C01 - C08: registration *)
From Coq Require Import List Arith ZArith NArith Lia Bool.
From Verif Require Import Base Sv Info Registry TypeMut Rules TypeBuild TypeQuery Domain SpecReg ExEnv
  ElemProofs TypesProofs HistProofs RegTheorems.
Import ListNotations.

(** C01. [mixin_registered tr m] is where the history says [m] is registered (SpecReg). *)
Theorem C01_mixin_ids : forall E tr w, run E (init_world E) tr w ->
  (forall d i m, get_mixin_by_id w d (Some i) = Some m <-> mixin_registered tr m = Some d /\ w_mid w m = Some i) /\
  (forall d m m', mixin_registered tr m = Some d -> mixin_registered tr m' = Some d -> w_mid w m = w_mid w m' -> m = m') /\
  (forall m, mixin_registered tr m = None ->
     w_mid w m = None /\ forall d, (forall i, get_mixin_by_id w d i <> Some m) /\ (forall nm, get_mixin_by_name E w d nm <> Some m)).
Proof. exact c01. Qed.
Print Assumptions C01_mixin_ids.
Example C01_example : run ex_env (init_world ex_env) ex_trace ex_world /\
  map (mixin_registered ex_trace) [0; 1; 2; 3; 4; 5; 7; 9] = [Some 0; Some 0; Some 0; Some 0; None; Some 1; Some 0; None] /\
  map (w_mid ex_world) [0; 1; 2; 3; 4; 5; 7; 9] = [Some 0; Some 4; Some 2; Some 3; None; Some 0; Some 1; None].
Proof. split; [exact ex_run|]. vm_compute. auto. Qed.

(** C02. [cur] is where the history says features are registered. *)
Theorem C02_feature_ids : forall E tr w, run E (init_world E) tr w -> exists cur, features_registered E tr cur /\
  (forall d i f, get_feature_by_id w d (Some i) = Some f <-> cur f = Some d /\ w_fid w f = Some i) /\
  (forall d f f', cur f = Some d -> cur f' = Some d -> w_fid w f = w_fid w f' -> f = f') /\
  (forall f, cur f = None -> w_fid w f = None /\ forall d, (forall i, get_feature_by_id w d i <> Some f) /\ (forall nm, get_feature_by_name E w d nm <> Some f)).
Proof. exact c02. Qed.
Print Assumptions C02_feature_ids.
Example C02_example : run ex_env (init_world ex_env) ex_trace ex_world /\
  map (w_fid ex_world) [0; 1; 2; 3; 8; 9] = [Some 0; Some 1; Some 2; None; Some 0; None] /\
  map (get_feature_by_id ex_world 0) [Some 0; Some 1; Some 2; Some 3; None] = [Some 0; Some 1; Some 2; None; None] /\
  get_feature_by_id ex_world 1 (Some 0) = Some 8.
Proof. split; [exact ex_run|]. vm_compute. auto. Qed.

(** C03. The id given is the least free one; other ids stay; an id only changes by unregistering its info. *)
Theorem C03_least_free_mixin_id : forall E w d m w', reachable E w -> register_mixin E w d m = (w', Ok tt) ->
  (exists id, w_mid w' m = Some id /\ get_mixin_by_id w d (Some id) = None /\
     (forall j, j < id -> get_mixin_by_id w d (Some j) <> None)) /\
  (forall m2, m2 <> m -> w_mid w' m2 = w_mid w m2).
Proof. exact c03_mixin. Qed.
Print Assumptions C03_least_free_mixin_id.
Theorem C03_least_free_feature_id : forall E w d f w', reachable E w -> register_feature E w d f = (w', Ok tt) ->
  (exists id, w_fid w' f = Some id /\ get_feature_by_id w d (Some id) = None /\
     (forall j, j < id -> get_feature_by_id w d (Some j) <> None)) /\
  (forall f2, f2 <> f -> w_fid w' f2 = w_fid w f2).
Proof. exact c03_feature. Qed.
Print Assumptions C03_least_free_feature_id.
Theorem C03_mixin_ids_stable : forall E w o w' r m i, reachable E w -> dstep E w o = (w', r) -> w_mid w m = Some i ->
  w_mid w' m = Some i \/ exists d, o = DUnregMixin d m /\ r = Ok None.
Proof. exact mid_stable. Qed.
Print Assumptions C03_mixin_ids_stable.
Theorem C03_feature_ids_stable : forall E w o w' r f i, reachable E w -> dstep E w o = (w', r) -> w_fid w f = Some i ->
  w_fid w' f = Some i \/ exists d, o = DUnregFeature d f /\ r = Ok None.
Proof. exact fid_stable. Qed.
Print Assumptions C03_feature_ids_stable.
Definition ex_w1 : world := fst (execs ex_env (init_world ex_env) [DRegMixin 0 0; DRegMixin 0 1; DRegMixin 0 2; DUnregMixin 0 1]).
Lemma ex_w1_reachable : reachable ex_env ex_w1.
Proof. eexists. apply execs_run. vm_compute. reflexivity. Qed.
Example C03_example : reachable ex_env ex_w1 /\
  snd (register_mixin ex_env ex_w1 0 7) = Ok tt /\ w_mid (fst (register_mixin ex_env ex_w1 0 7)) 7 = Some 1 /\
  snd (register_feature ex_env ex_w1 0 7) = Ok tt /\ w_fid (fst (register_feature ex_env ex_w1 0 7)) 7 = Some 3.
Proof. split; [exact ex_w1_reachable|]. vm_compute. auto. Qed.

(** C04. *)
Theorem C04_mixin_names : forall E tr w d, run E (init_world E) tr w -> s_dup_mixins (e_settings E d) = false ->
  (forall m, mixin_registered tr m = Some d -> sv_bytes (m_name (e_mixin E m)) <> []) /\
  (forall m m', mixin_registered tr m = Some d -> mixin_registered tr m' = Some d ->
     sv_bytes (m_name (e_mixin E m)) = sv_bytes (m_name (e_mixin E m')) -> m = m') /\
  (forall nm m, get_mixin_by_name E w d nm = Some m <-> mixin_registered tr m = Some d /\ sv_bytes (m_name (e_mixin E m)) = nm) /\
  (forall nm, get_mixin_by_name E w d nm = None <-> forall m, mixin_registered tr m = Some d -> sv_bytes (m_name (e_mixin E m)) <> nm).
Proof. exact c04_mixin. Qed.
Print Assumptions C04_mixin_names.
Theorem C04_feature_names : forall E w d, reachable E w -> s_dup_features (e_settings E d) = false ->
  (forall i f, get_feature_by_id w d (Some i) = Some f -> sv_bytes (f_name (e_feature E f)) <> []) /\
  (forall i i' f f', get_feature_by_id w d (Some i) = Some f -> get_feature_by_id w d (Some i') = Some f' ->
     sv_bytes (f_name (e_feature E f)) = sv_bytes (f_name (e_feature E f')) -> f = f') /\
  (forall nm f, get_feature_by_name E w d nm = Some f <->
     (exists i, get_feature_by_id w d (Some i) = Some f) /\ sv_bytes (f_name (e_feature E f)) = nm) /\
  (forall nm, get_feature_by_name E w d nm = None <->
     forall i f, get_feature_by_id w d (Some i) = Some f -> sv_bytes (f_name (e_feature E f)) <> nm).
Proof. exact c04_feature. Qed.
Print Assumptions C04_feature_names.
Example C04_example : run ex_env (init_world ex_env) ex_trace ex_world /\ s_dup_mixins (e_settings ex_env 0) = false /\
  map (get_mixin_by_name ex_env ex_world 0) [[97]; [98]; [120]; []]%N = [Some 0; Some 1; None; None] /\
  s_dup_features (e_settings ex_env 0) = false /\ get_feature_by_name ex_env ex_world 0 [102; 2]%N = Some 2.
Proof. split; [exact ex_run|]. vm_compute. auto 6. Qed.

(** C05. A throwing register_mixin may have registered features of the mixin (they are not listed below). *)
Theorem C05_failed_register : forall E w d m w' e, reachable E w -> register_mixin E w d m = (w', Throw e) ->
  w_mid w' = w_mid w /\ w_mdom w' = w_mdom w /\ w_type w' = w_type w /\
  forall d2, d_mixins (w_dom w' d2) = d_mixins (w_dom w d2) /\ d_types (w_dom w' d2) = d_types (w_dom w d2) /\
    d_queries (w_dom w' d2) = d_queries (w_dom w d2).
Proof. exact c05_register. Qed.
Print Assumptions C05_failed_register.
Theorem C05_failed_unregister_feature : forall w d f w' e, unregister_feature w d f = (w', Throw e) -> w' = w.
Proof. exact c05_unregister_feature. Qed.
Print Assumptions C05_failed_unregister_feature.
(** Partial: only for a mixin that is registered nowhere. Then nothing but stored queries naming it changes.
    For a mixin of another domain the claim is false, see below. *)
Theorem C05_failed_unregister_partial : forall E w d m w' e, reachable E w -> w_mdom w m = None ->
  unregister_mixin w d m = (w', Throw e) ->
  w_mid w' = w_mid w /\ w_mdom w' = w_mdom w /\ w_fid w' = w_fid w /\ (forall r, w_type w' r = w_type w r) /\
  forall d2, d_mixins (w_dom w' d2) = d_mixins (w_dom w d2) /\ d_features (w_dom w' d2) = d_features (w_dom w d2) /\
    d_types (w_dom w' d2) = d_types (w_dom w d2) /\ d_rules (w_dom w' d2) = d_rules (w_dom w d2) /\
    d_queries (w_dom w' d2) = if d2 =? d then filter (fun q => negb (memb m (fst q))) (d_queries (w_dom w d2)) else d_queries (w_dom w d2).
Proof. exact c05_unregister_mixin. Qed.
Print Assumptions C05_failed_unregister_partial.
(** Unregistering a mixin of another domain throws, but drops types of this domain that do not have it. *)
Definition ex_w2 : world := fst (execs ex_env (init_world ex_env) [DRegMixin 0 0; DRegMixin 1 5; DGetType 0 [0] true]).
Lemma ex_w2_reachable : reachable ex_env ex_w2.
Proof. eexists. apply execs_run. vm_compute. reflexivity. Qed.
Theorem C05_failed_unregister_refuted : exists E w d m w' r t, reachable E w /\
  unregister_mixin w d m = (w', Throw EUnregForeign) /\
  In r (d_types (w_dom w d)) /\ w_type w r = Some t /\ ~ In m (t_mixins t) /\
  w_type w' r = None /\ d_types (w_dom w' d) = [].
Proof.
  exists ex_env, ex_w2, 0, 5. do 3 eexists. split; [exact ex_w2_reachable|].
  split; [vm_compute; reflexivity|]. split; [vm_compute; left; reflexivity|].
  split; [vm_compute; reflexivity|]. split; [vm_compute; intuition discriminate|]. split; reflexivity.
Qed.
Print Assumptions C05_failed_unregister_refuted.
Example C05_example : reachable ex_env ex_world /\
  snd (register_mixin ex_env ex_world 0 4) = Throw EDuplicateName /\
  snd (unregister_feature ex_world 0 8) = Throw EUnregForeign /\
  w_mdom ex_world 9 = None /\ snd (unregister_mixin ex_world 0 9) = Throw EUnregForeign.
Proof. split; [exact ex_reachable|]. vm_compute. auto 6. Qed.

(** C06. *)
Theorem C06_unregister_undoes_register : forall E w d m w1 w2 r, reachable E w ->
  register_mixin E w d m = (w1, Ok tt) -> unregister_mixin w1 d m = (w2, r) ->
  r = Ok tt /\ w_mid w2 m = None /\ w_mdom w2 m = None /\
  (forall d2 i, get_mixin_by_id w2 d2 i = get_mixin_by_id w d2 i) /\
  (forall d2 nm, get_mixin_by_name E w2 d2 nm = get_mixin_by_name E w d2 nm) /\
  (forall m2, w_mid w2 m2 = w_mid w m2) /\
  exists w3, register_mixin E w2 d m = (w3, Ok tt) /\ w_mid w3 m = w_mid w1 m.
Proof. exact c06. Qed.
Print Assumptions C06_unregister_undoes_register.
Example C06_example : reachable ex_env ex_w1 /\ snd (register_mixin ex_env ex_w1 0 7) = Ok tt /\
  reachable ex_env ex_world /\ snd (register_mixin ex_env ex_world 0 8) = Ok tt.
Proof. split; [exact ex_w1_reachable|]. split; [reflexivity|]. split; [exact ex_reachable|]. vm_compute. auto. Qed.

(** C07. Partial: for histories without undefined behaviour. Registering a type class after another one was
    unregistered is undefined behaviour, see below. *)
Theorem C07_type_classes_partial : forall E tr w d, run E (init_world E) tr w ->
  (forall nm c, get_type_class E w d nm = Some c <-> tc_registered tr d c = true /\ sv_bytes (c_name (e_tc E c)) = nm) /\
  (forall nm t, (exists b, is_of E t (get_type_class E w d nm) = Ok b) \/
     (is_of E t (get_type_class E w d nm) = Throw EUnknownTypeClass /\ forall c, tc_registered tr d c = true -> sv_bytes (c_name (e_tc E c)) <> nm)) /\
  (forall nm t b, is_of E t (get_type_class E w d nm) = Ok b ->
     exists c f, tc_registered tr d c = true /\ sv_bytes (c_name (e_tc E c)) = nm /\ c_matches (e_tc E c) = Some f /\ b = f (t_mixins t)).
Proof. exact c07. Qed.
Print Assumptions C07_type_classes_partial.
Definition ex_w3 : world := fst (execs ex_env (init_world ex_env) [DRegTc 0 1; DUnregTc 0 1]).
Lemma ex_w3_reachable : reachable ex_env ex_w3.
Proof. eexists. apply execs_run. vm_compute. reflexivity. Qed.
Theorem C07_register_after_unregister_refuted : exists E w d c, reachable E w /\
  sv_bytes (c_name (e_tc E c)) <> [] /\ c_matches (e_tc E c) <> None /\ (forall nm, get_type_class E w d nm = None) /\
  snd (register_type_class E w d c) = Ub UbDangling.
Proof.
  exists ex_env, ex_w3, 0, 2. split; [exact ex_w3_reachable|]. split; [discriminate|]. split; [discriminate|]. split; reflexivity.
Qed.
Print Assumptions C07_register_after_unregister_refuted.
Example C07_example : run ex_env (init_world ex_env) ex_trace ex_world /\
  map (tc_registered ex_trace 0) [1; 2; 3] = [false; true; false] /\
  get_type_class ex_env ex_world 0 [116; 2]%N = Some 2 /\ get_type_class ex_env ex_world 0 [116; 1]%N = None.
Proof. split; [exact ex_run|]. vm_compute. auto. Qed.

(** C08. *)
Theorem C08_one_domain : forall E tr w, run E (init_world E) tr w ->
  (forall m d d' i i', get_mixin_by_id w d i = Some m -> get_mixin_by_id w d' i' = Some m -> d = d' /\ i = i') /\
  (forall m, w_mdom w m = mixin_registered tr m) /\
  (forall m d0 d, mixin_registered tr m = Some d0 -> ~ is_ok (snd (register_mixin E w d m))) /\
  (forall m d0 d, mixin_registered tr m = Some d0 ->
     (d <> d0 \/ forall x, In x (m_features (e_mixin E m)) -> exists i, get_feature_by_id w d i = Some (ff_info x)) ->
     register_mixin E w d m = (w, Throw (if d =? d0 then EIdRegistered else EInfoHasDomain))).
Proof. exact c08. Qed.
Print Assumptions C08_one_domain.
Example C08_example : run ex_env (init_world ex_env) ex_trace ex_world /\ mixin_registered ex_trace 0 = Some 0 /\
  snd (register_mixin ex_env ex_world 0 0) = Throw EIdRegistered /\ snd (register_mixin ex_env ex_world 1 0) = Throw EInfoHasDomain.
Proof. split; [exact ex_run|]. vm_compute. auto. Qed.
