(** Theorems C20 - C22, C30, C32, C53, C55, C60: types, layout, orders, type mutations and shipped rules *)
From Coq Require Import List Arith ZArith NArith Lia Bool Permutation Sorted.
From Verif Require Import Base Sv Info Registry TypeMut Rules TypeBuild TypeQuery MixinInfo Domain SpecReg SpecDom SpecOrd SpecRule SpecMsg SpecList SpecLayout
  ExEnv ExFirst ExKept TypesProofs HistProofs DomTheorems MsgProofs2 TypeTheorems RuleTheorems2 RuleTheorems3 PropsDom PropsMsg.
Import ListNotations.

(** C20. *)
Theorem C20_index_of : forall E w d r t, reachable E w -> has_type w d r t ->
  (forall id i, index_of t id = Some i <-> exists m k, id = Some k /\ nth_error (t_mixins t) i = Some m /\ w_mid w m = Some k) /\
  (forall id, type_has_id t id = true <-> exists m k, id = Some k /\ In m (t_mixins t) /\ w_mid w m = Some k) /\
  (forall m, not_foreign w d m -> (type_has (w_mid w) t m = true <-> In m (t_mixins t)) /\ (type_lacks (w_mid w) t m = true <-> ~ In m (t_mixins t))).
Proof. exact c20. Qed.
Print Assumptions C20_index_of.
Theorem C20_index_of_name : forall E t nm,
  (forall i, index_of_name E t nm = Some i <-> exists m, nth_error (t_mixins t) i = Some m /\ named E nm m /\
     forall j m', j < i -> nth_error (t_mixins t) j = Some m' -> ~ named E nm m') /\
  (type_has_name E t nm = true <-> exists m, In m (t_mixins t) /\ named E nm m).
Proof. exact c20_name. Qed.
Print Assumptions C20_index_of_name.
Example C20_example : reachable ex_env ex_mw /\ has_type ex_mw 0 (TReg 0) (ex_type ex_mw (TReg 0)) /\ t_mixins (ex_type ex_mw (TReg 0)) = [0; 1; 2] /\
  not_foreign ex_mw 0 2 /\ not_foreign ex_mw 0 5 /\ type_has (w_mid ex_mw) (ex_type ex_mw (TReg 0)) 2 = true /\ type_has (w_mid ex_mw) (ex_type ex_mw (TReg 0)) 5 = false /\
  index_of (ex_type ex_mw (TReg 3)) (w_mid ex_mw 5) = Some 1 /\ index_of_name ex_env (ex_type ex_mw (TReg 3)) [99]%N = Some 0 /\
  index_of (ex_type ex_mw (TReg 3)) (Some 100) = None.
Proof. split; [exact ex_mreach|]. split; [exact ex_t0|]. vm_compute. auto 10. Qed.
(** A mixin of another domain with the same id is found too. *)
Theorem C20_foreign_refuted : exists E w d d' r t m, reachable E w /\ has_type w d r t /\ w_mdom w m = Some d' /\ d' <> d /\
  ~ In m (t_mixins t) /\ type_has (w_mid w) t m = true.
Proof.
  exists ex_env, ex_mw, 0, 1, (TReg 0), (ex_type ex_mw (TReg 0)), 8. split; [exact ex_mreach|]. split; [exact ex_t0|].
  split; [vm_compute; reflexivity|]. split; [discriminate|]. split; [|vm_compute; reflexivity].
  change (t_mixins (ex_type ex_mw (TReg 0))) with [0; 1; 2]. simpl. intuition discriminate.
Qed.
Print Assumptions C20_foreign_refuted.

(** C21. Sizes such that 32 bits suffice. *)
Theorem C21_layout : forall E w d r t, reachable E w -> aligned_mixins E -> has_type w d r t -> (space E (t_mixins t) < 4294967296)%N ->
  sound_layout E (t_mixins t) (t_offsets t) (t_buf_size t) (t_buf_align t).
Proof. exact c21. Qed.
Print Assumptions C21_layout.
Lemma ex_aligned : aligned_mixins ex_env.
Proof.
  intros m. cbn [ex_env e_mixin].
  destruct m as [|m]; [right; exists 2%N; reflexivity|]. destruct m as [|m]; [right; exists 4%N; reflexivity|]. destruct m as [|m]; [right; exists 3%N; reflexivity|].
  destruct m as [|m]; [right; exists 0%N; reflexivity|]. destruct m as [|m]; [right; exists 3%N; reflexivity|]. right. exists 1%N. reflexivity.
Qed.
Example C21_example : reachable ex_env ex_mw /\ aligned_mixins ex_env /\ has_type ex_mw 0 (TReg 0) (ex_type ex_mw (TReg 0)) /\
  (space ex_env (t_mixins (ex_type ex_mw (TReg 0))) = 116)%N /\
  (t_offsets (ex_type ex_mw (TReg 0)), t_buf_size (ex_type ex_mw (TReg 0)), t_buf_align (ex_type ex_mw (TReg 0))) = ([56; 80; 0], 96, 16)%N.
Proof. split; [exact ex_mreach|]. split; [exact ex_aligned|]. split; [exact ex_t0|]. vm_compute. auto. Qed.
(** Two mixins of 2 GiB: the size of the buffer is 48 bytes. *)
Definition ex_huge : env := {|
  e_mixin := fun m => ex_mixin (ex_sv (600 + N.of_nat m) [101; N.of_nat m]%N) 2147483648 8 true [] 0 false;
  e_feature := ex_features; e_rule := ex_rules; e_tc := ex_tc; e_settings := ex_settings; e_canon := fun d => 100 + d |}.
Theorem C21_overflow_refuted : exists E w d r t i m o, reachable E w /\ aligned_mixins E /\ (forall m, (m_size (e_mixin E m) < 4294967296)%N) /\ has_type w d r t /\
  nth_error (t_mixins t) i = Some m /\ nth_error (t_offsets t) i = Some o /\ external (e_mixin E m) = false /\
  (t_buf_size t < o + m_size (e_mixin E m))%N.
Proof.
  pose (ops := [DRegMixin 0 0; DRegMixin 0 1; DGetType 0 [0; 1] true]). pose (w := ex_after ex_huge ops).
  exists ex_huge, w, 0, (TReg 0), (ex_type w (TReg 0)), 1, 1, 2147483696%N.
  split; [exists (ex_tr ex_huge ops); apply ex_run_after; vm_compute; reflexivity|]. split; [intros m; right; exists 3%N; reflexivity|]. split; [intros m; reflexivity|].
  split; [ex_typ|]. vm_compute. auto 10.
Qed.
Print Assumptions C21_overflow_refuted.

(** C22. [buf] is any address aligned as the library asks the allocator for it. *)
Theorem C22_external_buffer : forall d s a, alignment a -> (s + N.max 8 a < 4294967296)%N ->
  let d' := set_size_alignment d s a in
  m_size d' = s /\ m_align d' = a /\
  forall buf, (m_buf_off d' | buf)%N ->
    let mixin := (buf + m_buf_off d')%N in
    aligned_to a mixin /\ (buf <= mixin - 8)%N /\ (8 <= mixin)%N /\ (8 | mixin - 8)%N /\ (mixin + s <= buf + m_buf_size d')%N.
Proof. exact c22. Qed.
Print Assumptions C22_external_buffer.
Example C22_example : alignment 32 /\ alignment 2 /\ alignment 0 /\ let d1 := set_size_alignment make_mixin_info 33 32 in let d2 := set_size_alignment make_mixin_info 6 2 in
  (m_buf_size d1, m_buf_off d1, m_buf_size d2, m_buf_off d2) = (65, 32, 14, 8)%N.
Proof. split; [right; exists 5%N; reflexivity|]. split; [right; exists 1%N; reflexivity|]. split; [now left|]. reflexivity. Qed.
Theorem C22_overflow_refuted : exists d s a, pow2 a /\ (s < 4294967296)%N /\ (m_buf_size (set_size_alignment d s a) < s)%N.
Proof. exists make_mixin_info, 4294967292%N, 8%N. split; [exists 3%N; reflexivity|]. vm_compute. auto. Qed.
Print Assumptions C22_overflow_refuted.

(** C30. References are equal exactly for the same type. *)
Theorem C30_compare : forall E w d1 r1 t1 d2 r2 t2 d3 r3 t3, regular_mixins E -> reachable E w ->
  has_type w d1 r1 t1 -> has_type w d2 r2 t2 -> has_type w d3 r3 t3 ->
  let cmp a ta b tb := type_compare E (w_mid w) (tref_eqb a b) ta tb in
  exists z12 z23, cmp r1 t1 r2 t2 = Ok z12 /\ cmp r2 t2 r3 t3 = Ok z23 /\
    (z12 = 0%Z <-> r1 = r2) /\ cmp r2 t2 r1 t1 = Ok (- z12)%Z /\
    ((z12 < 0)%Z -> (z23 < 0)%Z -> exists z13, cmp r1 t1 r3 t3 = Ok z13 /\ (z13 < 0)%Z).
Proof. exact c30. Qed.
Print Assumptions C30_compare.
Example C30_example : regular_mixins ex_env /\ reachable ex_env ex_mw /\ has_type ex_mw 0 (TReg 0) (ex_type ex_mw (TReg 0)) /\
  has_type ex_mw 0 (TReg 3) (ex_type ex_mw (TReg 3)) /\ has_type ex_mw 2 (TReg 2) (ex_type ex_mw (TReg 2)) /\
  type_compare ex_env (w_mid ex_mw) false (ex_type ex_mw (TReg 0)) (ex_type ex_mw (TReg 3)) = Ok (-1)%Z /\
  type_compare ex_env (w_mid ex_mw) false (ex_type ex_mw (TReg 3)) (ex_type ex_mw (TReg 2)) = Ok (-1)%Z.
Proof.
  split; [exact ex_regular_mixins|]. split; [exact ex_mreach|]. split; [exact ex_t0|]. split; [ex_typ|]. split; [ex_typ|]. vm_compute. auto.
Qed.
(** Names at the same address: "bz" and "b" compare equal, so that the order has a cycle (mixins 0 "bz", 1 "b", 2 "bc"). *)
Definition ex_cycle : env := {|
  e_mixin := fun m => match m with
    | 0 => ex_mixin (ex_sv 90 [98; 122]%N) 4 4 true [] 0 false
    | 1 => ex_mixin (ex_sv 90 [98]%N) 4 4 true [] 0 false
    | _ => ex_mixin (ex_sv 200 [98; 99]%N) 4 4 true [] 0 false end;
  e_feature := ex_features; e_rule := ex_rules; e_tc := ex_tc; e_settings := ex_settings; e_canon := fun d => 100 + d |}.
Theorem C30_compare_refuted : exists E w d r1 t1 r2 t2 r3 t3, (forall m, view_wf (m_name (e_mixin E m))) /\ reachable E w /\
  has_type w d r1 t1 /\ has_type w d r2 t2 /\ has_type w d r3 t3 /\
  let cmp a ta b tb := type_compare E (w_mid w) (tref_eqb a b) ta tb in
  cmp r1 t1 r2 t2 = Ok (-1)%Z /\ cmp r2 t2 r3 t3 = Ok (-1)%Z /\ cmp r3 t3 r1 t1 = Ok (-1)%Z.
Proof.
  pose (ops := [DRegMixin 0 0; DRegMixin 0 1; DRegMixin 0 2; DGetType 0 [2] true; DGetType 0 [0] true; DGetType 0 [1] true]). pose (w := ex_after ex_cycle ops).
  exists ex_cycle, w, 0, (TReg 0), (ex_type w (TReg 0)), (TReg 1), (ex_type w (TReg 1)), (TReg 2), (ex_type w (TReg 2)).
  split; [intros [|[|m]]; intros H; vm_compute in H; discriminate|].
  split; [exists (ex_tr ex_cycle ops); apply ex_run_after; vm_compute; reflexivity|]. split; [ex_typ|]. split; [ex_typ|]. split; [ex_typ|]. vm_compute. auto.
Qed.
Print Assumptions C30_compare_refuted.

(** C32. *)
Theorem C32_add : forall m l, tm_add m l = l ++ [m] /\
  (In m l -> tm_add_if_lacking m l = l) /\ (~ In m l -> tm_add_if_lacking m l = l ++ [m]) /\ (tm_has m l = true <-> In m l).
Proof. exact c32_add. Qed.
Print Assumptions C32_add.
Theorem C32_remove_to_back : forall m l, (~ In m l -> tm_remove m l = (l, false) /\ tm_to_back m l = Throw EToBackMissing) /\
  (forall l1 l2, l = l1 ++ m :: l2 -> ~ In m l1 -> tm_remove m l = (l1 ++ l2, true) /\ tm_to_back m l = Ok (l1 ++ l2 ++ [m])).
Proof. exact c32_remove. Qed.
Print Assumptions C32_remove_to_back.
Theorem C32_by_name : forall E nm l,
  ((forall x, In x l -> ~ named E nm x) -> tm_has_name E nm l = None /\ tm_remove_name E nm l = (l, None) /\ tm_to_back_name E nm l = Throw EToBackMissing) /\
  (forall l1 m l2, l = l1 ++ m :: l2 -> (forall x, In x l1 -> ~ named E nm x) -> named E nm m ->
     tm_has_name E nm l = Some m /\ tm_remove_name E nm l = (l1 ++ l2, Some m) /\ tm_to_back_name E nm l = Ok (l1 ++ l2 ++ [m])).
Proof. exact c32_by_name. Qed.
Print Assumptions C32_by_name.
(** [lk] is the lookup of mixins by name in the domain. *)
Theorem C32_add_by_name : forall E (lk : lookup) nm l,
  (forall m, lk nm = Some m -> tm_add_name lk nm l = Ok (l ++ [m]) /\ tm_safe_add lk nm l = l ++ [m]) /\
  (lk nm = None -> tm_add_name lk nm l = Throw EAddUnknown /\ tm_safe_add lk nm l = l) /\
  ((exists x, In x l /\ named E nm x) -> tm_add_if_lacking_name E lk nm l = Ok l /\ tm_safe_add_if_lacking E lk nm l = l) /\
  ((forall x, In x l -> ~ named E nm x) ->
     tm_add_if_lacking_name E lk nm l = tm_add_name lk nm l /\ tm_safe_add_if_lacking E lk nm l = tm_safe_add lk nm l).
Proof. exact c32_add_by_name. Qed.
Print Assumptions C32_add_by_name.
Theorem C32_dedup : forall l, last_only l (tm_dedup l) /\ NoDup (tm_dedup l) /\ (forall x, In x (tm_dedup l) <-> In x l).
Proof. exact c32_dedup. Qed.
Print Assumptions C32_dedup.
Theorem C32_implements : forall E f nm l,
  (tm_implements_strong E f l = true <-> exists m, In m l /\ lists_feature E m f) /\
  (tm_implements E f l = true <-> f_default (e_feature E f) <> None \/ exists m, In m l /\ lists_feature E m f) /\
  match tm_implements_strong_name E nm l with
  | Some g => sv_bytes (f_name (e_feature E g)) = nm /\ exists m, In m l /\ lists_feature E m g
  | None => forall m g, In m l -> lists_feature E m g -> sv_bytes (f_name (e_feature E g)) <> nm
  end.
Proof. exact c32_implements. Qed.
Print Assumptions C32_implements.
Example C32_example : tm_dedup [3; 1; 3; 2; 1] = [3; 2; 1] /\ tm_to_back 1 [3; 1; 2; 1] = Ok [3; 2; 1; 1] /\ tm_to_back 7 [3] = Throw EToBackMissing /\
  named ex_env [97]%N 4 /\ named ex_env [97]%N 0 /\ ~ named ex_env [97]%N 1 /\ tm_remove_name ex_env [97]%N [1; 4; 0; 4] = ([1; 0; 4], Some 4) /\
  lists_feature ex_env 1 2 /\ tm_implements_strong_name ex_env [102; 2]%N [0; 1] = Some 2.
Proof. repeat split; try (vm_compute; reflexivity); [vm_compute; discriminate|]. vm_compute. auto. Qed.

(** C53. *)
Theorem C53_mutually_exclusive : forall infos v l,
  ((forall x, In x l -> ~ In x infos) -> rule_v1_mutex infos v l = RuleOk l) /\
  (forall l1 m l2, l = l1 ++ m :: l2 -> In m infos -> (forall x, In x l2 -> ~ In x infos) ->
     rule_v1_mutex infos v l = RuleOk (without infos l1 ++ m :: l2)) /\
  (forall l', rule_v1_mutex infos v l = RuleOk l' -> rule_v1_mutex infos v l' = RuleOk l').
Proof. intros infos v l. destruct (c53_mutex infos v l) as [H1 H2]. exact (conj H1 (conj H2 (c53_mutex_idem infos v l))). Qed.
Print Assumptions C53_mutually_exclusive.
Theorem C53_mandatory : forall m v l, rule_v1_mandatory m v l = RuleOk (if in_dec Nat.eq_dec m l then l else l ++ [m]) /\
  forall l', rule_v1_mandatory m v l = RuleOk l' -> rule_v1_mandatory m v l' = RuleOk l'.
Proof. exact c53_mandatory. Qed.
Print Assumptions C53_mandatory.
Theorem C53_deprecated : forall m v l, (~ In m l -> rule_v1_deprecated m v l = RuleOk l) /\
  (forall l1 l2, l = l1 ++ m :: l2 -> ~ In m l1 -> rule_v1_deprecated m v l = RuleOk (l1 ++ l2)) /\
  (NoDup l -> forall l', rule_v1_deprecated m v l = RuleOk l' -> ~ In m l' /\ rule_v1_deprecated m v l' = RuleOk l').
Proof. exact c53_deprecated. Qed.
Print Assumptions C53_deprecated.
Theorem C53_substitute : forall src tgt v l, (~ In src l -> rule_v1_substitute src tgt v l = RuleOk l) /\
  (forall l1 l2, l = l1 ++ src :: l2 -> ~ In src l1 -> rule_v1_substitute src tgt v l = RuleOk (l1 ++ l2 ++ [tgt])) /\
  (NoDup l -> src <> tgt -> forall l', rule_v1_substitute src tgt v l = RuleOk l' -> rule_v1_substitute src tgt v l' = RuleOk l').
Proof. exact c53_substitute. Qed.
Print Assumptions C53_substitute.
Theorem C53_bundled : forall master infos v l, (~ In master l -> rule_v1_oneshot master infos v l = RuleOk l) /\
  (In master l -> exists l', rule_v1_oneshot master infos v l = RuleOk l' /\ completed infos l l') /\
  (forall l', rule_v1_oneshot master infos v l = RuleOk l' -> rule_v1_oneshot master infos v l' = RuleOk l').
Proof. exact c53_oneshot. Qed.
Print Assumptions C53_bundled.
Theorem C53_dependent : forall E master infos v l, (~ In master l -> rule_v1_dep E master infos v l = RuleOk l) /\
  (In master l -> (forall x, In x infos -> m_dependency (e_mixin E x) = true) ->
     exists l', rule_v1_dep E master infos v l = RuleOk l' /\ completed infos l l' /\ forall x, In x infos -> In x l') /\
  (In master l -> (exists x, In x infos /\ m_dependency (e_mixin E x) = false) -> exists z, rule_v1_dep E master infos v l = RuleErr z) /\
  (forall l', rule_v1_dep E master infos v l = RuleOk l' -> rule_v1_dep E master infos v l' = RuleOk l').
Proof. exact c53_dep'. Qed.
Print Assumptions C53_dependent.
Example C53_example : forall v, rule_v1_mutex [1; 2; 3] v [1; 7; 3; 8; 2; 9] = RuleOk [7; 8; 2; 9] /\ rule_v1_substitute 1 2 v [3; 1; 4] = RuleOk [3; 4; 2] /\
  rule_v1_deprecated 4 v [3; 4; 5] = RuleOk [3; 5] /\ rule_v1_mandatory 9 v [3] = RuleOk [3; 9] /\ rule_v1_oneshot 3 [4; 5; 4] v [5; 3] = RuleOk [5; 3; 4] /\
  rule_v1_dep ex_env 1 [3] v [1; 2] = RuleOk [1; 2; 3] /\ rule_v1_dep ex_env 1 [2] v [1] = RuleErr (-1).
Proof. intros v. repeat split. Qed.
(** substitute adds the target even if it is there: get_type for source and target together always fails. *)
Definition ex_subst : env := {|
  e_mixin := ex_mixins; e_feature := ex_features;
  e_rule := fun r => ex_rule0 r (rule_v1_substitute 0 1) 0;
  e_tc := ex_tc; e_settings := fun _ => {| s_canonicalize := false; s_dup_features := false; s_dup_mixins := false |}; e_canon := fun d => 100 + d |}.
Theorem C53_substitute_present_refuted : exists E tr w d src tgt rule, run E (init_world E) tr w /\ src <> tgt /\
  r_apply (e_rule E rule) = Some (rule_v1_substitute src tgt) /\ (forall r, 0 < rule_count E tr d r <-> r = rule) /\
  mixin_registered tr src = Some d /\ mixin_registered tr tgt = Some d /\
  snd (get_type E true w d [src]) = Ok (TReg 0) /\ snd (get_type E true w d [src; tgt]) = Throw EDuplicateMixin.
Proof.
  pose (ops := [DRegMixin 0 0; DRegMixin 0 1; DAddRule 0 1]).
  exists ex_subst, (ex_tr ex_subst ops), (ex_after ex_subst ops), 0, 0, 1, 1. split; [apply ex_run_after; vm_compute; reflexivity|].
  split; [discriminate|]. split; [reflexivity|]. split; [intros r; ex_counts r [0; 1; 2]|]. vm_compute. auto.
Qed.
Print Assumptions C53_substitute_present_refuted.

(** C55. [rule_basic_dep p x] is the rule of attaches_to<p> (of x) and of also_adds<x> (of p). Full statement: without the last
    hypothesis. Other rules that remove p or x are excluded, see below. Queries that name dependencies are excluded if p is one. *)
Theorem C55_attaches_partial : forall E tr w d a q w1 r t rule p x, regular_rules E -> current_history E tr w ->
  (no_deps E q \/ m_dependency (e_mixin E p) = false) ->
  0 < rule_count E tr d rule -> r_apply (e_rule E rule) = Some (rule_basic_dep p x) ->
  (forall r' f, 0 < rule_count E tr d r' -> r_apply (e_rule E r') = Some f -> keeps_mixin f p /\ keeps_mixin f x) ->
  get_type E a w d q = (w1, Ok r) -> w_type w1 r = Some t -> In p (t_mixins t) -> In x (t_mixins t).
Proof. exact c55. Qed.
Print Assumptions C55_attaches_partial.
Theorem C55_attached_only_with_primary : forall E tr w d a q w1 r t x, regular_rules E -> current_history E tr w ->
  (forall r', 0 < rule_count E tr d r' -> exists p y, r_apply (e_rule E r') = Some (rule_basic_dep p y)) ->
  get_type E a w d q = (w1, Ok r) -> w_type w1 r = Some t -> In x (t_mixins t) -> m_dependency (e_mixin E x) = true ->
  exists rule p, 0 < rule_count E tr d rule /\ r_apply (e_rule E rule) = Some (rule_basic_dep p x) /\ In p (t_mixins t).
Proof. exact c55_alone. Qed.
Print Assumptions C55_attached_only_with_primary.
Definition ex_att_ops : list dop := [DRegMixin 0 0; DRegMixin 0 1; DRegMixin 0 3; DAddRule 0 1].
Lemma ex_att_count r : 0 < rule_count ex_env (ex_tr ex_env ex_att_ops) 0 r <-> r = 1.
Proof. ex_counts r [0; 1; 2]. Qed.
Example C55_example : let tr := ex_tr ex_env ex_att_ops in let w := ex_after ex_env ex_att_ops in
  regular_rules ex_env /\ current_history ex_env tr w /\ 0 < rule_count ex_env tr 0 1 /\ r_apply (e_rule ex_env 1) = Some (rule_basic_dep 0 3) /\
  (forall r' f, 0 < rule_count ex_env tr 0 r' -> r_apply (e_rule ex_env r') = Some f -> keeps_mixin f 0 /\ keeps_mixin f 3) /\
  (forall r', 0 < rule_count ex_env tr 0 r' -> exists p y, r_apply (e_rule ex_env r') = Some (rule_basic_dep p y)) /\
  ex_mixins_of (get_type ex_env true w 0 [0; 1]) = Ok [0; 1; 3] /\ ex_mixins_of (get_type ex_env true w 0 [1]) = Ok [1] /\
  ex_mixins_of (get_type ex_env true w 0 [3; 0]) = Ok [0; 3].
Proof.
  cbv zeta. split; [exact ex_regular_rules|]. split; [right; apply (ex_first ex_env ex_att_ops []); vm_compute; reflexivity|].
  split; [apply ex_att_count; reflexivity|]. split; [reflexivity|].
  split; [intros r' f H Hf; apply ex_att_count in H; subst; injection Hf as <-; split; apply basic_dep_keeps|].
  split; [intros r' H; apply ex_att_count in H; subst; exists 0, 3; reflexivity|]. vm_compute. auto.
Qed.
(** A later rule that removes the attached mixin: the type has the primary without it. *)
Definition ex_detach : env := {|
  e_mixin := ex_mixins; e_feature := ex_features;
  e_rule := fun r => match r with 1 => ex_rule0 1 (rule_basic_dep 0 3) 0 | _ => ex_rule0 r (rule_v1_deprecated 3) 1 end;
  e_tc := ex_tc; e_settings := fun _ => {| s_canonicalize := false; s_dup_features := false; s_dup_mixins := false |}; e_canon := fun d => 100 + d |}.
Theorem C55_attaches_refuted : exists E tr w d q w1 r t rule p x, regular_rules E /\ current_history E tr w /\ no_deps E q /\
  0 < rule_count E tr d rule /\ r_apply (e_rule E rule) = Some (rule_basic_dep p x) /\
  get_type E true w d q = (w1, Ok r) /\ w_type w1 r = Some t /\ In p (t_mixins t) /\ ~ In x (t_mixins t).
Proof.
  pose (ops := [DRegMixin 0 0; DRegMixin 0 3; DAddRule 0 1; DAddRule 0 2]). pose (w := ex_after ex_detach ops). pose (w1 := fst (get_type ex_detach true w 0 [0])).
  exists ex_detach, (ex_tr ex_detach ops), w, 0, [0], w1, (TReg 0), (ex_type w1 (TReg 0)), 1, 0, 3.
  split.
  { assert (Hb : forall a, sv_begin (r_name (e_rule ex_detach a)) = (5000 + N.of_nat a)%N) by (intros [|[|a]]; reflexivity).
    split; [intros a H; rewrite Hb in H; lia|]. intros a b H. rewrite !Hb in H. assert (a = b) by lia. now subst. }
  split; [right; apply (ex_first ex_detach ops []); vm_compute; reflexivity|]. split; [intros m [<-|[]]; reflexivity|].
  split; [vm_compute; auto|]. split; [reflexivity|]. split; [vm_compute; reflexivity|]. split; [vm_compute; reflexivity|].
  change (t_mixins (ex_type w1 (TReg 0))) with [0]. simpl. split; [auto|]. intuition discriminate.
Qed.
Print Assumptions C55_attaches_refuted.
(** A query that names a dependency which is a primary itself is answered without the mixin attached to it: mixin 3 attaches to
    0, mixin 5 to 3, and 3 is named in the query. *)
Definition ex_chain : env := {|
  e_mixin := ex_mixins; e_feature := ex_features;
  e_rule := fun r => match r with 1 => ex_rule0 1 (rule_basic_dep 0 3) 1 | _ => ex_rule0 r (rule_basic_dep 3 5) 0 end;
  e_tc := ex_tc; e_settings := fun _ => {| s_canonicalize := false; s_dup_features := false; s_dup_mixins := false |}; e_canon := fun d => 100 + d |}.
Theorem C55_named_dependency_refuted : exists E tr w d q w1 r t rule p x, regular_rules E /\ current_history E tr w /\
  (forall r', 0 < rule_count E tr d r' -> exists p y, r_apply (e_rule E r') = Some (rule_basic_dep p y)) /\
  0 < rule_count E tr d rule /\ r_apply (e_rule E rule) = Some (rule_basic_dep p x) /\
  get_type E true w d q = (w1, Ok r) /\ w_type w1 r = Some t /\ In p (t_mixins t) /\ ~ In x (t_mixins t).
Proof.
  pose (ops := [DRegMixin 0 0; DRegMixin 0 3; DRegMixin 0 5; DAddRule 0 1; DAddRule 0 2]). pose (w := ex_after ex_chain ops). pose (w1 := fst (get_type ex_chain true w 0 [0; 3])).
  exists ex_chain, (ex_tr ex_chain ops), w, 0, [0; 3], w1, (TReg 0), (ex_type w1 (TReg 0)), 2, 3, 5.
  split.
  { assert (Hb : forall a, sv_begin (r_name (e_rule ex_chain a)) = (5000 + N.of_nat a)%N) by (intros [|[|a]]; reflexivity).
    split; [intros a H; rewrite Hb in H; lia|]. intros a b H. rewrite !Hb in H. assert (a = b) by lia. now subst. }
  split; [right; apply (ex_first ex_chain ops []); vm_compute; reflexivity|]. split; [intros [|[|r']] _; simpl; eauto|].
  split; [vm_compute; auto|]. split; [reflexivity|]. split; [vm_compute; reflexivity|]. split; [vm_compute; reflexivity|].
  change (t_mixins (ex_type w1 (TReg 0))) with [0; 3]. simpl. split; [auto|]. intuition discriminate.
Qed.
Print Assumptions C55_named_dependency_refuted.

(** C60. Null views are empty, and views that begin at the same address are the same. *)
Theorem C60_sv_cmp_partial : forall a b, view_wf a -> view_wf b -> (sv_begin a = sv_begin b -> sv_bytes a = sv_bytes b) ->
  ((sv_cmp a b < 0)%Z <-> lex_lt (sv_bytes a) (sv_bytes b)) /\
  (sv_cmp a b = 0%Z <-> sv_bytes a = sv_bytes b) /\
  ((0 < sv_cmp a b)%Z <-> lex_lt (sv_bytes b) (sv_bytes a)).
Proof. exact c60. Qed.
Print Assumptions C60_sv_cmp_partial.
Example C60_example : sv_cmp (ex_sv 5 [1; 2]%N) (ex_sv 9 [1; 2; 0]%N) = (-1)%Z /\ sv_cmp (ex_sv 5 [3]%N) (ex_sv 9 [1; 2; 0]%N) = 1%Z /\
  sv_cmp (ex_sv 0 []) (ex_sv 7 []) = 0%Z /\ sv_cmp (ex_sv 5 [3; 4]%N) (ex_sv 7 [3; 4]%N) = 0%Z.
Proof. vm_compute. auto. Qed.
(** A string and its beginning in the same memory compare equal. *)
Theorem C60_sv_cmp_refuted : exists a b, view_wf a /\ view_wf b /\ lex_lt (sv_bytes a) (sv_bytes b) /\ sv_cmp a b = 0%Z.
Proof.
  exists (ex_sv 5 [97]%N), (ex_sv 5 [97; 98]%N). split; [discriminate|]. split; [discriminate|]. split; [|reflexivity].
  apply lex_tail, lex_nil.
Qed.
Print Assumptions C60_sv_cmp_refuted.
