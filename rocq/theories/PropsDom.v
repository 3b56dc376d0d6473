(** Theorems C09 - C19: rules, stored queries and types of a domain *)
From Coq Require Import List Arith ZArith NArith Lia Bool Permutation Sorted.
From Verif Require Import Base Sv Info Registry TypeMut Rules TypeBuild TypeQuery Domain SpecReg SpecDom SpecOrd SpecRule ExEnv ExFirst
  ElemProofs TypesProofs HistProofs RegTheorems DomTheorems RuleTheorems RuleTheorems2.
Import ListNotations.

(** The example environment is regular. *)
Lemma ex_rule_begin r : sv_begin (r_name (ex_rules r)) = if r =? 7 then 7%N else (5000 + N.of_nat r)%N.
Proof. do 10 (destruct r as [|r]; [reflexivity|]). reflexivity. Qed.
Lemma ex_regular_rules : regular_rules ex_env.
Proof.
  split.
  - intros a. unfold view_wf. cbn [ex_env e_rule]. rewrite ex_rule_begin. destruct (a =? 7); lia.
  - intros a b. cbn [ex_env e_rule]. rewrite !ex_rule_begin. destruct (Nat.eqb_spec a 7), (Nat.eqb_spec b 7); intros H; try lia.
    + now subst.
    + assert (a = b) by lia. now subst.
Qed.
Lemma ex_mixin_begin m : sv_begin (m_name (ex_mixins m)) = (if (m <? 5)%nat then 100 * (N.of_nat m + 1) else 600 + N.of_nat m)%N.
Proof. do 5 (destruct m as [|m]; [reflexivity|]). reflexivity. Qed.
Lemma ex_regular_mixins : regular_mixins ex_env.
Proof.
  split.
  - intros a. unfold view_wf. cbn [ex_env e_mixin]. rewrite ex_mixin_begin. destruct (a <? 5); lia.
  - intros a b. cbn [ex_env e_mixin]. rewrite !ex_mixin_begin. intros H. assert (a = b); [|now subst].
    destruct (Nat.ltb_spec a 5), (Nat.ltb_spec b 5); lia.
Qed.

(** Compute the rule counts of a concrete history. *)
Definition rule_ids (tr : trace) : list rptr := flat_map (fun c => match fst c with DAddRule _ x | DRemRule _ x => [x] | _ => [] end) tr.
Lemma rule_count_absent E tr d y : ~ In y (rule_ids tr) -> rule_count E tr d y = if s_canonicalize (e_settings E d) && (y =? e_canon E d) then 1 else 0.
Proof.
  unfold rule_count.
  change (if s_canonicalize (e_settings E d) && (y =? e_canon E d) then 1 else 0)
    with ((fun y => if s_canonicalize (e_settings E d) && (y =? e_canon E d) then 1 else 0) y).
  generalize (fun y => if s_canonicalize (e_settings E d) && (y =? e_canon E d) then 1 else 0).
  induction tr as [|[o x] tr IH]; intros f H; [auto|]. simpl in *.
  rewrite IH; [|intros Hn; apply H, in_or_app; auto]. destruct o; simpl; auto; destruct x; auto; destruct (_ =? d); auto;
    (destruct (Nat.eqb_spec y r); [subst; destruct H; simpl; auto|auto]).
Qed.
Ltac ex_eval := repeat match goal with |- context [rule_count ?E ?t ?d ?r] =>
  let v := eval vm_compute in (rule_count E t d r) in replace (rule_count E t d r) with v by (vm_compute; reflexivity) end; lia.
Ltac ex_counts r ids := let H := fresh in destruct (in_dec Nat.eq_dec r ids) as [H|H];
  [repeat (destruct H as [<-|H]; [ex_eval|]); destruct H
  |rewrite !rule_count_absent; [cbn -[Nat.eqb]; try (destruct (Nat.eqb_spec r 101)); simpl in *; intuition lia|..];
   intros X; apply H; revert X; vm_compute; tauto].
Theorem C09_rule_counts : forall E tr w d, regular_rules E -> run E (init_world E) tr w ->
  (forall r c, In (r, c) (d_rules (w_dom w d)) <-> c = rule_count E tr d r /\ 0 < c) /\
  (exists rs, NoDup rs /\ (forall r, In r rs <-> 0 < rule_count E tr d r) /\ num_mutation_rules w d = length rs) /\
  (forall r, snd (remove_rule E w d r) = Ok tt).
Proof. intros E tr w d Hr. exact (c09 E Hr tr w d). Qed.
Print Assumptions C09_rule_counts.
Definition ex_rule_ops : list dop :=
  [DRegMixin 0 0; DRegMixin 0 1; DRegMixin 0 2; DRegMixin 0 3; DAddRule 0 2; DAddRule 0 1; DAddRule 0 1; DRemRule 0 8; DAddRule 0 8;
   DRemRule 0 1; DRemRule 0 8; DRemRule 0 8; DAddRule 0 3; DAddRule 0 7; DAddRule 1 1].
Example C09_example : regular_rules ex_env /\ run ex_env (init_world ex_env) (ex_tr ex_env ex_rule_ops) (ex_after ex_env ex_rule_ops) /\
  d_rules (w_dom (ex_after ex_env ex_rule_ops) 0) = [(3, 1); (1, 1); (2, 1)] /\ d_rules (w_dom (ex_after ex_env ex_rule_ops) 1) = [(1, 1); (101, 1)] /\
  map (rule_count ex_env (ex_tr ex_env ex_rule_ops) 0) [0; 1; 2; 3; 7; 8; 100; 101] = [0; 1; 1; 1; 0; 0; 0; 0].
Proof. split; [exact ex_regular_rules|]. split; [apply ex_run_after; vm_compute; reflexivity|]. vm_compute. auto. Qed.

(** C10. *)
Theorem C10_rule_order : forall E tr w d, regular_rules E -> run E (init_world E) tr w ->
  exists rs, active_rules E tr d rs /\ applies E w d rs.
Proof. exact c10. Qed.
Print Assumptions C10_rule_order.
Theorem C10_any_order : forall E tr1 w1 tr2 w2 d, regular_rules E -> run E (init_world E) tr1 w1 -> run E (init_world E) tr2 w2 ->
  (forall r, 0 < rule_count E tr1 d r <-> 0 < rule_count E tr2 d r) ->
  exists rs, active_rules E tr1 d rs /\ active_rules E tr2 d rs /\ applies E w1 d rs /\ applies E w2 d rs.
Proof. exact c10_any_order. Qed.
Print Assumptions C10_any_order.
Definition ex_rule_ops2 : list dop :=
  [DRegMixin 0 0; DRegMixin 0 1; DRegMixin 0 2; DRegMixin 0 3; DAddRule 0 3; DAddRule 0 8; DAddRule 0 1; DRemRule 0 8; DAddRule 0 2].
Example C10_example :
  (forall r, 0 < rule_count ex_env (ex_tr ex_env ex_rule_ops) 0 r <-> 0 < rule_count ex_env (ex_tr ex_env ex_rule_ops2) 0 r) /\
  ex_mixins_of (get_type ex_env true (ex_after ex_env ex_rule_ops) 0 [0; 1]) = Ok [0; 3] /\
  ex_mixins_of (get_type ex_env true (ex_after ex_env ex_rule_ops2) 0 [0; 1]) = Ok [0; 3] /\
  snd (get_type ex_env true (ex_after ex_env ex_rule_ops) 0 [0; 2]) = Throw (ERuleUser 5).
Proof.
  split; [|vm_compute; auto]. intros r. ex_counts r [0; 1; 2; 3; 4; 7; 8].
Qed.
(** Without regular names the order by name fails: names at the same address ("ba" and "b") are taken for equal, and the
    rule at the lower address comes first. *)
Definition ex_overlap : env := {|
  e_mixin := ex_mixins; e_feature := ex_features;
  e_rule := fun r => match r with
    | 1 => {| r_name := ex_sv 90 [98; 97]%N; r_apply := Some (fun _ l => RuleOk (tm_add_if_lacking 0 l)); r_prio := 0 |}
    | _ => {| r_name := ex_sv 90 [98]%N; r_apply := Some (fun _ l => RuleOk (tm_add_if_lacking 1 l)); r_prio := 0 |}
    end;
  e_tc := ex_tc; e_settings := fun _ => {| s_canonicalize := false; s_dup_features := false; s_dup_mixins := false |}; e_canon := fun d => 100 + d |}.
Theorem C10_rule_order_refuted : exists E tr w d, run E (init_world E) tr w /\
  (forall r, view_wf (r_name (e_rule E r))) /\ rule_before E 2 1 /\
  (forall r, 0 < rule_count E tr d r <-> r = 1 \/ r = 2) /\ ~ applies E w d [2; 1] /\ applies E w d [1; 2].
Proof.
  pose (ops := [DRegMixin 0 0; DRegMixin 0 1; DRegMixin 0 2; DAddRule 0 2; DAddRule 0 1]).
  assert (Hrun : run ex_overlap (init_world ex_overlap) (ex_tr ex_overlap ops) (ex_after ex_overlap ops)) by (apply ex_run_after; vm_compute; reflexivity).
  exists ex_overlap, (ex_tr ex_overlap ops), (ex_after ex_overlap ops), 0. split; [exact Hrun|]. split.
  { intros [|[|r]]; intros H; vm_compute in H; discriminate. }
  split. { right. split; [reflexivity|]. cbn. apply lex_tail. apply lex_nil. }
  split. { intros r. ex_counts r [0; 1; 2]. }
  split.
  - intros Ha. set (w := ex_after ex_overlap ops) in *.
    destruct (Ha true [2] (fst (get_type ex_overlap true w 0 [2]))) as [Hok _]. { vm_compute. auto. }
    destruct (Hok (TReg 0) (match w_type (fst (get_type ex_overlap true w 0 [2])) (TReg 0) with Some t => t | None => empty_type 0 end)) as (k & Hk & Hp).
    + vm_compute. reflexivity.
    + vm_compute. reflexivity.
    + assert (Hlast : forall n l l', passes ex_overlap (view ex_overlap w 0) [2; 1] (S n) l l' -> l = [2] -> l' = [2; 1; 0]).
      { induction n as [|n IH]; intros l l' Hps ->; inversion Hps as [|n0 l0 l1 l2 Hp0 Ht]; subst.
        - inversion Hp0; subst. destruct Ht as (f & Hf & Ht). injection Hf as <-. destruct Ht as (f' & Hf & Ht). injection Hf as <-. vm_compute in Ht. now injection Ht as ->.
        - apply IH in Hp0; auto. subst. destruct Ht as (f & Hf & Ht). injection Hf as <-. destruct Ht as (f' & Hf & Ht). injection Hf as <-. vm_compute in Ht. now injection Ht as ->. }
      destruct k as [|k]; [lia|]. apply Hlast in Hp; [|reflexivity]. vm_compute in Hp. discriminate.
  - exact (asked_applies ex_overlap _ 0 (winv_run _ _ _ Hrun)).
Qed.
Print Assumptions C10_rule_order_refuted.

(** C11. [in_turn rs l (RuleOk l)]: one more application of all rules changes nothing. Queries naming dependency mixins may be
    answered by exactly the mixins asked for. *)
Theorem C11_stable_partial : forall E tr w d a q w1 r t, regular_rules E -> current_history E tr w ->
  get_type E a w d q = (w1, Ok r) -> w_type w1 r = Some t ->
  exists rs, active_rules E tr d rs /\
    (in_turn E (view E w d) rs (t_mixins t) (RuleOk (t_mixins t)) \/
     (~ no_deps E q /\ t_mixins t = q /\ in_turn E (view E w d) rs (without_deps E q) (RuleOk q))).
Proof. exact c11. Qed.
Print Assumptions C11_stable_partial.
Definition ex_regs : list dop := [DRegMixin 0 0; DRegMixin 0 1; DRegMixin 0 2; DRegMixin 0 3; DRegMixin 0 5; DRegMixin 1 7; DRegMixin 1 8; DRegMixin 1 4].
Definition ex_uses : list dop :=
  [DAddRule 0 1; DGetType 0 [0; 1] true; DGetType 0 [1; 0] true; DAddRule 0 2; DGetType 0 [0; 1] true; DGetType 0 [2] true; DGetType 0 [] true;
   DGetType 1 [7; 4; 8] true; DGetType 1 [8; 7; 4] true; DNewObj (TReg 2)].
Definition ex_tr1 : trace := ex_tr ex_env (ex_regs ++ ex_uses).
Definition ex_w1 : world := ex_after ex_env (ex_regs ++ ex_uses).
Lemma ex_history1 : current_history ex_env ex_tr1 ex_w1.
Proof. right. apply ex_first; vm_compute; reflexivity. Qed.
Lemma ex_run1 : run ex_env (init_world ex_env) ex_tr1 ex_w1.
Proof. apply ex_run_after. vm_compute. reflexivity. Qed.
Example C11_example : regular_rules ex_env /\ current_history ex_env ex_tr1 ex_w1 /\
  snd (get_type ex_env true ex_w1 0 [0; 1]) = Ok (TReg 2) /\ ex_mixins_of (get_type ex_env true ex_w1 0 [0; 1]) = Ok [0; 3] /\
  no_deps ex_env [0; 1] /\
  snd (get_type ex_env true ex_w1 0 [2; 0]) = Ok (TReg 5) /\ ex_mixins_of (get_type ex_env true ex_w1 0 [2; 0]) = Ok [2; 0; 3].
Proof.
  split; [exact ex_regular_rules|]. split; [exact ex_history1|]. split; [vm_compute; auto|]. split; [vm_compute; auto|]. split; [|vm_compute; auto].
  intros m [<-|[<-|[]]]; reflexivity.
Qed.
(** A query naming a dependency mixin: the rule that adds mixin 3 at the end is not stable on the answer. *)
Definition ex_unstable_ops : list dop := [DRegMixin 0 0; DRegMixin 0 3; DAddRule 0 9].
Theorem C11_stable_refuted : exists E tr w d a q w1 r t rs, regular_rules E /\ current_history E tr w /\ active_rules E tr d rs /\
  get_type E a w d q = (w1, Ok r) /\ w_type w1 r = Some t /\
  exists l, in_turn E (view E w d) rs (t_mixins t) (RuleOk l) /\ l <> t_mixins t.
Proof.
  pose (w := ex_after ex_env ex_unstable_ops). pose (x := get_type ex_env true w 0 [0; 3]).
  exists ex_env, (ex_tr ex_env ex_unstable_ops), w, 0, true, [0; 3], (fst x), (TReg 0),
    (match w_type (fst x) (TReg 0) with Some t => t | None => empty_type 0 end), [9].
  assert (Hrun : run_where ex_env registered_first (ex_tr ex_env ex_unstable_ops) w) by (apply (ex_first ex_env [DRegMixin 0 0; DRegMixin 0 3] [DAddRule 0 9]); vm_compute; reflexivity).
  split; [exact ex_regular_rules|]. split; [right; exact Hrun|].
  split; [exact (active_list ex_env _ _ 0 ex_regular_rules (run_where_run _ _ _ _ Hrun))|].
  split; [vm_compute; reflexivity|]. split; [vm_compute; reflexivity|].
  exists [0; 3; 3]. split; [|vm_compute; discriminate]. simpl. eexists. split; [reflexivity|]. vm_compute. reflexivity.
Qed.
Print Assumptions C11_stable_refuted.

(** C12. [applies] has the bound; the possible errors are the error of a rule, the cyclic error and those of the creation of a type. *)
Theorem C12_bounded : forall E tr w d, regular_rules E -> run E (init_world E) tr w ->
  exists rs, active_rules E tr d rs /\ applies E w d rs /\
  forall a q w1 e, get_type E a w d q = (w1, Throw e) ->
    (exists z, e = ERuleUser z) \/ e = ECyclicRules \/
    In e [EUnregisteredMixin; EForeignMixin; EDuplicateMixin; EFeatureClash; EBadAlloc].
Proof.
  intros E tr w d Hr H. destruct (c10 E tr w d Hr H) as (rs & H1 & H2). exists rs. split; auto. split; auto.
  intros a q w1 e Hg. destruct (c12_errors E tr w d a q w1 e H Hg) as [He|[He|He]]; auto. right. right. unfold create_error in He. simpl. intuition.
Qed.
Print Assumptions C12_bounded.
(** The cyclic error is given only if each of the first min(5, rules) + 1 applications changed the list. *)
Theorem C12_cyclic_partial : forall E tr w d a q w1, regular_rules E -> run E (init_world E) tr w -> no_deps E q ->
  get_type E a w d q = (w1, Throw ECyclicRules) ->
  exists rs, active_rules E tr d rs /\ forall k, k <= Nat.min 5 (length rs) -> exists l l',
    passes E (view E w d) rs k q l /\ in_turn E (view E w d) rs l (RuleOk l') /\ l' <> l.
Proof.
  intros E tr w d a q w1 Hr H Hn Hg. destruct (c12_cyclic E tr w d a q w1 Hr H Hg) as (rs & H1 & H2). exists rs. split; auto.
  intros k Hk. destruct (H2 k Hk) as (l & l' & A & B & C & D). rewrite (without_deps_none E q Hn) in A. exists l, l'. split; auto. split; auto.
  destruct k as [|k]; [|apply D; auto]. inversion A; subst. auto.
Qed.
Print Assumptions C12_cyclic_partial.
Definition ex_cyclic_ops : list dop := [DRegMixin 0 0; DRegMixin 0 5; DAddRule 0 4; DAddRule 0 1].
Example C12_example : regular_rules ex_env /\
  run ex_env (init_world ex_env) (ex_tr ex_env ex_cyclic_ops) (ex_after ex_env ex_cyclic_ops) /\ no_deps ex_env [0] /\
  snd (get_type ex_env true (ex_after ex_env ex_cyclic_ops) 0 [0]) = Throw ECyclicRules /\
  snd (get_type ex_env true (ex_after ex_env [DRegMixin 0 2; DAddRule 0 3; DAddRule 0 1]) 0 [2]) = Throw (ERuleUser 5).
Proof.
  split; [exact ex_regular_rules|]. split; [apply ex_run_after; vm_compute; reflexivity|].
  split; [intros m [<-|[]]; reflexivity|]. vm_compute. auto.
Qed.
(** With no rules at all (nothing can be cyclic) a query naming a dependency mixin gets the cyclic error. *)
Theorem C12_cyclic_refuted : exists E tr w d a q w1, run E (init_world E) tr w /\ (forall r, rule_count E tr d r = 0) /\
  (forall m, In m q -> mixin_registered tr m = Some d) /\ get_type E a w d q = (w1, Throw ECyclicRules).
Proof.
  exists ex_env, (ex_tr ex_env [DRegMixin 0 0; DRegMixin 0 3]), (ex_after ex_env [DRegMixin 0 0; DRegMixin 0 3]), 0, true, [0; 3].
  eexists. split; [apply ex_run_after; vm_compute; reflexivity|]. split; [reflexivity|]. split; [intros m [<-|[<-|[]]]; reflexivity|].
  cbv [get_type]. vm_compute. reflexivity.
Qed.
Print Assumptions C12_cyclic_refuted.

(** C13. [current_answers]: the same call with all stored queries of the domain forgotten gives the same result and types. *)
Theorem C13_cache_partial : forall E tr w d, current_history E tr w -> current_answers E w d.
Proof. exact c13. Qed.
Print Assumptions C13_cache_partial.
Theorem C13_cache_canonical : forall E tr w d, canon_ok E -> regular_mixins E -> regular_rules E -> run E (init_world E) tr w ->
  (forall x, 0 < rule_count E tr d x -> x = e_canon E d) -> current_answers E w d.
Proof. exact c13_canonical. Qed.
Print Assumptions C13_cache_canonical.
Definition ex_pure : env := {|
  e_mixin := ex_mixins; e_feature := ex_features;
  e_rule := fun r => match r with
    | 1 => ex_rule0 1 (rule_basic_dep 0 3) 0 | 2 => ex_rule0 2 (rule_v1_deprecated 1) 0 | _ => ex_rule0 r (rule_v1_mutex [0; 1; r]) 1 end;
  e_tc := ex_tc; e_settings := fun _ => {| s_canonicalize := false; s_dup_features := false; s_dup_mixins := false |}; e_canon := fun d => 100 + d |}.
Definition ex_pure_ops : list dop :=
  [DRegMixin 0 0; DRegMixin 0 1; DAddRule 0 1; DGetType 0 [0] true; DRegMixin 0 3; DGetType 0 [0] true; DRegMixin 0 2; DAddRule 0 5; DGetType 0 [0; 1; 2] true;
   DUnregMixin 0 2; DRegMixin 0 2; DRemRule 0 5; DGetType 0 [0; 1; 2] true].
Example C13_example : current_history ex_env ex_tr1 ex_w1 /\ num_type_queries ex_w1 0 = 3 /\
  current_history ex_pure (ex_tr ex_pure ex_pure_ops) (ex_after ex_pure ex_pure_ops) /\ num_type_queries (ex_after ex_pure ex_pure_ops) 0 = 1.
Proof.
  split; [exact ex_history1|]. split; [vm_compute; reflexivity|]. split; [|vm_compute; reflexivity]. left. split.
  - intros [|[|[|r]]] f; simpl; intros [= <-]; reflexivity.
  - apply ex_run_after. vm_compute. reflexivity.
Qed.
Example C13_example_canonical : canon_ok ex_env /\ regular_mixins ex_env /\ regular_rules ex_env /\ run ex_env (init_world ex_env) ex_tr1 ex_w1 /\
  (forall x, 0 < rule_count ex_env ex_tr1 1 x <-> x = e_canon ex_env 1) /\ num_type_queries ex_w1 1 = 2.
Proof.
  split; [exact ex_canon_ok|]. split; [exact ex_regular_mixins|]. split; [exact ex_regular_rules|]. split; [exact ex_run1|]. split; [|vm_compute; reflexivity].
  intros x. change (e_canon ex_env 1) with 101. ex_counts x [0; 1; 2].
Qed.
(** A rule that looks up a mixin by name: after the registration of that mixin the stored answer is not what the rules give. *)
Theorem C13_cache_refuted : exists E tr w d a q, run E (init_world E) tr w /\
  exists r1 t1 r2 t2, has_type (fst (get_type E a w d q)) d r1 t1 /\ has_type (fst (get_type E a (forget_queries w d) d q)) d r2 t2 /\
    snd (get_type E a w d q) = Ok r1 /\ snd (get_type E a (forget_queries w d) d q) = Ok r2 /\ t_mixins t1 = [0] /\ t_mixins t2 = [0; 1].
Proof.
  pose (ops := [DRegMixin 0 0; DAddRule 0 6; DGetType 0 [0] true; DRegMixin 0 1]).
  exists ex_env, (ex_tr ex_env ops), (ex_after ex_env ops), 0, true, [0]. split; [apply ex_run_after; vm_compute; reflexivity|].
  exists (TReg 0), (match w_type (ex_after ex_env ops) (TReg 0) with Some t => t | None => empty_type 0 end), (TReg 1).
  exists (match w_type (fst (get_type ex_env true (forget_queries (ex_after ex_env ops) 0) 0 [0])) (TReg 1) with Some t => t | None => empty_type 0 end).
  split; [split; [vm_compute; reflexivity|right; vm_compute; auto]|]. split; [split; [vm_compute; reflexivity|right; vm_compute; auto]|].
  vm_compute. auto.
Qed.
Print Assumptions C13_cache_refuted.

(** C14. *)
Theorem C14_one_type_per_list : forall E w d r r' t t', reachable E w -> has_type w d r t -> has_type w d r' t' -> (r = r' <-> t_mixins t = t_mixins t').
Proof. exact has_type_unique. Qed.
Print Assumptions C14_one_type_per_list.
Theorem C14_calls : forall E a a' w d q q' w1 w2 r1 r2, reachable E w ->
  get_type E a w d q = (w1, Ok r1) -> get_type E a' w1 d q' = (w2, Ok r2) ->
  exists t1 t2, has_type w2 d r1 t1 /\ has_type w2 d r2 t2 /\ (r1 = r2 <-> t_mixins t1 = t_mixins t2).
Proof. exact c14_calls. Qed.
Print Assumptions C14_calls.
Example C14_example : reachable ex_env ex_w1 /\ d_types (w_dom ex_w1 0) = [TReg 0; TReg 1; TReg 2; TReg 3] /\
  snd (get_type ex_env true ex_w1 0 [0; 1]) = Ok (TReg 2) /\ snd (get_type ex_env true (fst (get_type ex_env true ex_w1 0 [0; 1])) 0 [0]) = Ok (TReg 2) /\
  snd (get_type ex_env true (fst (get_type ex_env true ex_w1 0 [0; 1])) 0 [2]) = Ok (TReg 3).
Proof. split; [exists ex_tr1; exact ex_run1|]. vm_compute. auto. Qed.

(** C15. *)
Theorem C15_types_valid : forall E tr w d r t, run E (init_world E) tr w -> has_type w d r t ->
  NoDup (t_mixins t) /\ forall m, In m (t_mixins t) -> mixin_registered tr m = Some d.
Proof. exact c15_state. Qed.
Print Assumptions C15_types_valid.
Theorem C15_returned_type_valid : forall E tr w a d q w' r, run E (init_world E) tr w -> get_type E a w d q = (w', Ok r) ->
  exists t, has_type w' d r t /\ NoDup (t_mixins t) /\ forall m, In m (t_mixins t) -> mixin_registered tr m = Some d.
Proof. exact c15_call. Qed.
Print Assumptions C15_returned_type_valid.
Example C15_example : run ex_env (init_world ex_env) ex_tr1 ex_w1 /\
  ex_mixins_of (get_type ex_env true ex_w1 0 [0; 2]) = Ok [0; 2; 3] /\ snd (get_type ex_env true ex_w1 0 [0; 7]) = Throw EForeignMixin /\
  snd (get_type ex_env true ex_w1 0 [0; 9]) = Throw EUnregisteredMixin /\ snd (get_type ex_env true ex_w1 0 [0; 0]) = Throw EDuplicateMixin.
Proof. split; [exact ex_run1|]. vm_compute. auto. Qed.

(** C16. Dependency mixins in the query are left out. *)
Theorem C16_canonical : forall E tr w d a q1 w1 r, canon_ok E -> regular_mixins E -> regular_rules E -> run E (init_world E) tr w ->
  (forall x, 0 < rule_count E tr d x <-> x = e_canon E d) ->
  get_type E a w d q1 = (w1, Ok r) ->
  (exists t, has_type w1 d r t /\ StronglySorted (fun x y => ~ mixin_before E y x) (t_mixins t) /\
     Permutation (t_mixins t) (filter (fun m => negb (m_dependency (e_mixin E m))) q1)) /\
  (forall q2 a2, Permutation q1 q2 -> exists w2, get_type E a2 w1 d q2 = (w2, Ok r)).
Proof. exact c16. Qed.
Print Assumptions C16_canonical.
Example C16_example : canon_ok ex_env /\ regular_mixins ex_env /\ regular_rules ex_env /\ run ex_env (init_world ex_env) ex_tr1 ex_w1 /\
  (forall x, 0 < rule_count ex_env ex_tr1 1 x <-> x = e_canon ex_env 1) /\
  ex_mixins_of (get_type ex_env true ex_w1 1 [8; 4; 7]) = Ok [4; 7; 8] /\ snd (get_type ex_env true ex_w1 1 [8; 4; 7]) = Ok (TReg 4).
Proof.
  destruct C13_example_canonical as (H1 & H2 & H3 & H4 & H5 & _). repeat (split; [assumption|]). vm_compute. auto.
Qed.
(** Names in the same memory: the type is not sorted by name. *)
Definition ex_overlap_mixins : env := {|
  e_mixin := fun m => match m with
    | 0 => ex_mixin (ex_sv 90 [98; 97]%N) 4 4 true [] 0 false
    | _ => ex_mixin (ex_sv 90 [98]%N) 4 4 true [] 0 false end;
  e_feature := ex_features; e_rule := fun r => ex_rule0 r (rule_canonical {|
    e_mixin := fun m => match m with
    | 0 => ex_mixin (ex_sv 90 [98; 97]%N) 4 4 true [] 0 false
    | _ => ex_mixin (ex_sv 90 [98]%N) 4 4 true [] 0 false end;
    e_feature := ex_features; e_rule := fun _ => ex_rule0 0 (rule_v1_mandatory 0) 0; e_tc := ex_tc; e_settings := ex_settings; e_canon := fun d => 100 + d |}) 2147483647;
  e_tc := ex_tc; e_settings := ex_settings; e_canon := fun d => 100 + d |}.
Theorem C16_canonical_refuted : exists E tr w d q w1 r t, canon_ok E /\ regular_rules E /\ run E (init_world E) tr w /\
  (forall x, 0 < rule_count E tr d x <-> x = e_canon E d) /\ get_type E true w d q = (w1, Ok r) /\ w_type w1 r = Some t /\
  t_mixins t = [0; 1] /\ mixin_before E 1 0.
Proof.
  pose (ops := [DRegMixin 1 0; DRegMixin 1 1]). pose (x := get_type ex_overlap_mixins true (ex_after ex_overlap_mixins ops) 1 [0; 1]).
  exists ex_overlap_mixins, (ex_tr ex_overlap_mixins ops), (ex_after ex_overlap_mixins ops), 1, [0; 1], (fst x), (TReg 0),
   (match w_type (fst x) (TReg 0) with Some t => t | None => empty_type 0 end).
  split; [intros d; repeat split|]. split.
  { split; [intros a H; change (5000 + N.of_nat a = 0)%N in H; lia|]. intros a b H. change (5000 + N.of_nat a = 5000 + N.of_nat b)%N in H. assert (a = b) by lia. now subst. }
  split; [apply ex_run_after; vm_compute; reflexivity|]. split; [intros y; change (e_canon ex_overlap_mixins 1) with 101; ex_counts y [0; 1; 2]|].
  split; [vm_compute; reflexivity|]. split; [vm_compute; reflexivity|]. split; [vm_compute; reflexivity|].
  right. split; [reflexivity|]. cbn. apply lex_tail. apply lex_nil.
Qed.
Print Assumptions C16_canonical_refuted.

(** C17. *)
Theorem C17_collection : forall E w d w' x, reachable E w -> gc w d = (w', x) ->
  x = Ok tt /\
  (forall r, In r (d_types (w_dom w' d)) -> In r (d_types (w_dom w d))) /\
  (forall r t, In r (d_types (w_dom w d)) -> w_type w r = Some t ->
     if t_nobj t =? 0 then ~ In r (d_types (w_dom w' d)) /\ w_type w' r = None
     else In r (d_types (w_dom w' d)) /\ w_type w' r = Some t) /\
  (forall q r, In (q, r) (d_queries (w_dom w' d)) <->
     In (q, r) (d_queries (w_dom w d)) /\ (r = TEmpty d \/ exists t, w_type w r = Some t /\ t_nobj t <> 0)) /\
  w_mid w' = w_mid w /\ w_mdom w' = w_mdom w /\ d_mixins (w_dom w' d) = d_mixins (w_dom w d) /\ same_but_types w w' d.
Proof. exact c17. Qed.
Print Assumptions C17_collection.
Example C17_example : reachable ex_env ex_w1 /\ d_types (w_dom (fst (gc ex_w1 0)) 0) = [TReg 2] /\
  d_queries (w_dom ex_w1 0) = [([0; 1], TReg 2); ([2], TReg 3); ([], TEmpty 0)] /\ d_queries (w_dom (fst (gc ex_w1 0)) 0) = [([0; 1], TReg 2); ([], TEmpty 0)].
Proof. split; [exists ex_tr1; exact ex_run1|]. vm_compute. auto. Qed.

(** C18. *)
Theorem C18_unregister_mixin : forall E tr w d m, run E (init_world E) tr w -> mixin_registered tr m = Some d ->
  (forall r t, In r (d_types (w_dom w d)) -> w_type w r = Some t -> In m (t_mixins t) -> t_nobj t = 0) ->
  exists w', unregister_mixin w d m = (w', Ok tt) /\
  (forall r, In r (d_types (w_dom w' d)) -> In r (d_types (w_dom w d))) /\
  (forall r t, In r (d_types (w_dom w d)) -> w_type w r = Some t ->
     (In m (t_mixins t) -> ~ In r (d_types (w_dom w' d)) /\ w_type w' r = None) /\
     (~ In m (t_mixins t) -> In r (d_types (w_dom w' d)) /\ w_type w' r = Some t)) /\
  (forall q r, In (q, r) (d_queries (w_dom w' d)) <->
     In (q, r) (d_queries (w_dom w d)) /\ ~ In m q /\ forall t, w_type w r = Some t -> ~ In m (t_mixins t)) /\
  same_but_types w w' d.
Proof. exact c18. Qed.
Print Assumptions C18_unregister_mixin.
Example C18_example : run ex_env (init_world ex_env) ex_tr1 ex_w1 /\ mixin_registered ex_tr1 1 = Some 0 /\
  (forall r t, In r (d_types (w_dom ex_w1 0)) -> w_type ex_w1 r = Some t -> In 1 (t_mixins t) -> t_nobj t = 0) /\
  d_types (w_dom (fst (unregister_mixin ex_w1 0 1)) 0) = [TReg 2; TReg 3] /\ d_queries (w_dom (fst (unregister_mixin ex_w1 0 1)) 0) = [([2], TReg 3); ([], TEmpty 0)].
Proof.
  split; [exact ex_run1|]. split; [reflexivity|]. split; [|vm_compute; auto]. intros r t Hin. vm_compute in Hin.
  repeat (destruct Hin as [<-|Hin]; [vm_compute; intros [= <-]; simpl; intuition congruence|]). destruct Hin.
Qed.

(** C19. Nothing at all changes. *)
Theorem C19_failed_get_type : forall E a w d q w' e, get_type E a w d q = (w', Throw e) -> w' = w.
Proof. exact c19. Qed.
Print Assumptions C19_failed_get_type.
Theorem C19_failed_get_type_mutation : forall E a w d dm q w' e, get_type_mut E a w d dm q = (w', Throw e) -> w' = w.
Proof. exact c19_mut. Qed.
Print Assumptions C19_failed_get_type_mutation.
Example C19_example : snd (get_type ex_env true ex_w1 0 [9]) = Throw EUnregisteredMixin /\ snd (get_type ex_env false ex_w1 0 [5]) = Throw EBadAlloc /\
  snd (get_type_mut ex_env true ex_w1 0 1 [5]) = Throw EForeignMutation.
Proof. vm_compute. auto. Qed.
