(** Theorems C66 to C68: definitions of mixins *)
From Coq Require Import List Arith ZArith NArith Lia Bool.
From Verif Require Import Base Sv Info Registry TypeMut Rules TypeBuild TypeQuery Domain SpecReg SpecDom SpecOrd SpecRule ExEnv PropsDom
  Define SpecDefine DefineProofs DefineProofs2.
Import ListNotations.

(** C66. While the definitions are the only source of rules, the rules of a domain are those that its open definitions ask for, counted, and
    the canonicalize rule; and the defined mixins that are registered are those of the open definitions. *)
Theorem C66_definitions : forall E data tr w, regular_rules E -> xrun E (tidy data) tr w -> forall d,
  (forall r c, In (r, c) (d_rules (w_dom w d)) <-> c = canon_count E d r + asked (open_defs tr) d r /\ 0 < c) /\
  (forall m rs, data m = Some rs -> (w_mdom w m = Some d <-> In (d, {| md_info := m; md_rules := rs |}) (open_defs tr))).
Proof. intros E data tr w RR. exact (c66 E RR data tr w). Qed.
Print Assumptions C66_definitions.
(** The end of a definition never ends the program by an exception, and it succeeds if no objects with the mixin are left. *)
Theorem C66_end : forall E w md, regular_rules E -> reachable E w ->
  snd (end_definition E w md) <> ETerminates /\ (no_objects_with w (md_info md) -> snd (end_definition E w md) = EReturns).
Proof. intros E w md RR R. split; [exact (end_not_terminates E RR w md R)|exact (end_returns E RR w md R)]. Qed.
Print Assumptions C66_end.

(** The mixins 0 and 1 are defined in domain 1 with the rules 1, 2 and 1, 8; mixin 3 is registered directly; then 0 ends. *)
Definition ex_data (m : mptr) : option (list rptr) := match m with 0 => Some [1; 2] | 1 => Some [1; 8] | _ => None end.
Definition ex_md (m : mptr) : mixin_data := {| md_info := m; md_rules := match ex_data m with Some l => l | None => [] end |}.
Definition ex_def_ops : list xop := [XDefine 1 (ex_md 0); XDom (DRegMixin 1 3); XDefine 1 (ex_md 1); XDom (DGetType 1 [0] true); XEnd (ex_md 0)].
Definition ex_def_world (n : nat) : world :=
  fold_left (fun w o => match o with XDefine d md => fst (register_in ex_env w d md) | XEnd md => fst (end_definition ex_env w md) | XDom o => fst (dstep ex_env w o) end)
    (firstn n ex_def_ops) (init_world ex_env).
Lemma ex_def_run : xrun ex_env (tidy ex_data) ex_def_ops (ex_def_world 5).
Proof.
  change ex_def_ops with (((((([] ++ [XDefine 1 (ex_md 0)]) ++ [XDom (DRegMixin 1 3)]) ++ [XDefine 1 (ex_md 1)]) ++ [XDom (DGetType 1 [0] true)]) ++ [XEnd (ex_md 0)])).
  apply (xr_end ex_env (tidy ex_data) _ (ex_def_world 4)); [|reflexivity|vm_compute; reflexivity].
  apply (xr_dom ex_env (tidy ex_data) _ (ex_def_world 3) _ _ (Ok (Some (TReg 0)))); [|exact I|vm_compute; reflexivity|exact (fun H => H)].
  apply (xr_define ex_env (tidy ex_data) _ (ex_def_world 2)); [|reflexivity|vm_compute; reflexivity].
  apply (xr_dom ex_env (tidy ex_data) _ (ex_def_world 1) _ _ (Ok None)); [|reflexivity|vm_compute; reflexivity|exact (fun H => H)].
  apply (xr_define ex_env (tidy ex_data) _ (ex_def_world 0)); [|reflexivity|vm_compute; reflexivity]. constructor.
Qed.
Example C66_example : xrun ex_env (tidy ex_data) ex_def_ops (ex_def_world 5) /\
  d_rules (w_dom (ex_def_world 4) 1) = [(8, 1); (1, 2); (2, 1); (101, 1)] /\ map (w_mdom (ex_def_world 4)) [0; 1; 3] = [Some 1; Some 1; Some 1] /\
  d_rules (w_dom (ex_def_world 5) 1) = [(8, 1); (1, 1); (101, 1)] /\ map (w_mdom (ex_def_world 5)) [0; 1; 3] = [None; Some 1; Some 1] /\
  open_defs ex_def_ops = [(1, ex_md 1)].
Proof. split; [exact ex_def_run|]. vm_compute. auto. Qed.

(** Why the histories have only definitions that succeed: register_in that throws leaves its rules in the domain. Here the name of mixin 4 is
    taken, and its rule 1 stays active. *)
Definition ex_w_taken : world := fst (execs ex_env (init_world ex_env) [DRegMixin 0 0]).
Theorem C66_failed_refuted : exists E w d md w' e, regular_rules E /\ reachable E w /\ register_in E w d md = (w', Throw e) /\
  w_mdom w' (md_info md) = None /\ d_rules (w_dom w d) = [] /\ d_rules (w_dom w' d) = map (fun r => (r, 1)) (md_rules md) /\ md_rules md <> [].
Proof.
  exists ex_env, ex_w_taken, 0, {| md_info := 4; md_rules := [1] |}. do 2 eexists. split; [exact ex_regular_rules|].
  split; [eexists; apply execs_run; vm_compute; reflexivity|]. split; [vm_compute; reflexivity|]. split; [reflexivity|]. split; [reflexivity|]. split; [reflexivity|discriminate].
Qed.
Print Assumptions C66_failed_refuted.
(** unregister_from on its own, for a mixin that is not registered there, ends the program: unregister_mixin throws and unregister_from is noexcept. *)
Theorem C66_noexcept_refuted : exists E w d md, regular_rules E /\ reachable E w /\ w_mdom w (md_info md) = None /\ snd (unregister_from E w d md) = ETerminates.
Proof.
  exists ex_env, ex_w_taken, 0, {| md_info := 1; md_rules := [1] |}. split; [exact ex_regular_rules|].
  split; [eexists; apply execs_run; vm_compute; reflexivity|]. split; vm_compute; reflexivity.
Qed.
Print Assumptions C66_noexcept_refuted.

(** C67. Whatever calls are made to the builder and whenever its containers move their elements, the finished info shows what the calls said,
    and nothing in it refers to memory that was left. *)
Theorem C67_built : forall grows name l, exists d, built grows name l = Some d /\
  seen_name d = Some (last_name name l) /\ seen_features d = Some (features_told l) /\ seen_rules d = map Some (rules_told name 0 l) /\
  bd_dep d = last_dep l /\ bd_alloc d = last_allocator l.
Proof. exact c67. Qed.
Print Assumptions C67_built.
(** The names that the builder generates for the rules of a mixin are different, also when the mixin is renamed in between. *)
Theorem C67_names : forall name l i j r1 r2, names_generated l -> nth_error (rules_told name 0 l) i = Some r1 -> nth_error (rules_told name 0 l) j = Some r2 ->
  rule_name_of r1 = rule_name_of r2 -> i = j.
Proof. exact c67_names. Qed.
Print Assumptions C67_names.
(** C68, partial: rules of the same priority are applied by name; up to ten generated names of the plain kind are in the order of the calls. *)
Theorem C68_order_partial : forall name l i j r1 r2 n1 n2, auto_named l -> nth_error (rules_told name 0 l) i = Some r1 -> nth_error (rules_told name 0 l) j = Some r2 ->
  i < j -> j < 10 -> rule_name_of r1 = Some n1 -> rule_name_of r2 = Some n2 -> lex_lt n1 n2.
Proof. exact c67_order. Qed.
Print Assumptions C68_order_partial.
(** With eleven rules the last one comes before the third one. *)
Theorem C68_order_refuted : exists name l i j r1 r2 n1 n2, auto_named l /\ nth_error (rules_told name 0 l) i = Some r1 /\ nth_error (rules_told name 0 l) j = Some r2 /\
  i < j /\ rule_name_of r1 = Some n1 /\ rule_name_of r2 = Some n2 /\ lex_lt n2 n1.
Proof.
  exists [97%N], (map (fun a => BRuleAuto a no_perks) (seq 0 11)), 2, 10. do 4 eexists. split.
  - intros c Hc. apply in_map_iff in Hc as (a & <- & _). exact I.
  - split; [reflexivity|]. split; [reflexivity|]. split; [lia|]. split; [reflexivity|]. split; [reflexivity|]. vm_compute. repeat (apply lex_tail || apply lex_head); lia.
Qed.
Print Assumptions C68_order_refuted.

Definition ex_calls : list bcall := [BStoreName [98; 99]%N; BImplements 3 30 {| pk_bid := Some 2%Z; pk_prio := None |} {| pk_bid := Some 5%Z; pk_prio := Some 7%Z |};
  BRuleAuto 1 no_perks; BImplements 4 40 no_perks no_perks; BOnMutation [120%N] false 2 {| pk_bid := None; pk_prio := Some (-1)%Z |}; BDependency false; BStoreName [100%N];
  BRuleAuto 3 no_perks].
Example C67_example :
  names_generated ex_calls /\
  option_map (fun d => (seen_name d, seen_features d, bd_dep d)) (built (fun n => n =? 1) [97%N] ex_calls) =
    Some (Some [100%N], Some [{| ff_info := 3; ff_payload := 30; ff_bid := 2; ff_prio := 7 |}; {| ff_info := 4; ff_payload := 40; ff_bid := 0; ff_prio := 0 |}], true) /\
  option_map seen_rules (built (fun _ => true) [97%N] ex_calls) =
    Some [Some (SOwn [98; 99; 32; 114; 117; 108; 101; 32; 48]%N 1 0); Some (SOwn [98; 99; 32; 120; 60; 49; 62]%N 2 (-1)); Some (SOwn [100; 32; 114; 117; 108; 101; 32; 50]%N 3 0)] /\
  auto_named [BRuleAuto 1 no_perks; BRuleAuto 2 no_perks].
Proof. split; [|split; [vm_compute; reflexivity|split; [vm_compute; reflexivity|]]]; intros c Hc; cbn in Hc; intuition (subst; exact I). Qed.
