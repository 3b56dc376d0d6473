(** Properties of objects: seals and allocators, and moving an object to itself *)
From Coq Require Import List Arith ZArith NArith Lia Bool.
From Verif Require Import Base Sv Info TypeBuild TypeQuery MixinInfo Domain SpecReg SpecDom SpecOrd SpecLayout SpecList Heap Mutation Object SpecObj SpecMut SpecLog SpecAct SpecSeal
  SealProofs ExEnv ExObj PropsObj PropsMut.
Import ListNotations.

(** C65. This holds for any program and any state. Nothing removes a seal or changes an allocator; an object becomes sealed by seal and by
    taking over a sealed object. *)
Theorem C65_seal : forall E U op s s' res o x x', op_run E U op s = (s', res) -> ~ is_ub res -> s_obj s o = Some x -> s_obj s' o = Some x' ->
  o_alloc x' = o_alloc x /\
  (o_sealed x' = true <-> o_sealed x = true \/ op = OSeal o \/ exists src y, op = OMoveAssign o src /\ res = Ok tt /\ s_obj s src = Some y /\ o_sealed y = true).
Proof. exact seal_state. Qed.
Print Assumptions C65_seal.
Theorem C65_created : forall E U op s s' o a sl, op_run E U op s = (s', Ok tt) -> seal_given s op o a sl -> exists x, s_obj s' o = Some x /\ o_alloc x = a /\ o_sealed x = sl.
Proof. exact seal_new. Qed.
Print Assumptions C65_created.
(** An object is there until its destructor is called. *)
Theorem C65_there : forall E U op s s' res o x, op_run E U op s = (s', res) -> ~ is_ub res -> s_obj s o = Some x -> (s_obj s' o = None <-> op = ODtor o).
Proof. exact still_there. Qed.
Print Assumptions C65_there.
(** Object 3 is sealed: 1 takes it over, and 3 stays sealed although it is empty now; then a new object is made from 1, and 2 is sealed. *)
Definition ob_seals (s : st) : list (option (nat * bool)) := map (fun o => option_map (fun x => (o_alloc x, o_sealed x)) (s_obj s o)) [1; 2; 3; 9].
Example C65_example :
  ob_seals (ob_st [] []) = [Some (7, false); Some (8, false); Some (7, true); None] /\
  ob_seals (ob_st [] [OMoveAssign 1 3]) = [Some (7, true); Some (8, false); Some (7, true); None] /\
  ob_seals (ob_st [] [OMoveAssign 1 3; OMoved 9 1; OSeal 2]) = [Some (7, true); Some (8, true); Some (7, true); Some (7, true)] /\
  ob_fine [] [OMoveAssign 1 3; OMoved 9 1; OSeal 2] = true.
Proof. vm_compute. auto 10. Qed.

(** C43. The contracts exclude move_matching_from of an object to itself with the fallback to destruction and construction: its mixins are destroyed
    and then constructed from themselves. Here the mixins can be moved by construction only. *)
Definition self_env : env := {|
  e_mixin := fun m => let d := ob_mixins m in {| m_name := m_name d; m_size := m_size d; m_align := m_align d; m_buf_size := m_buf_size d; m_buf_off := m_buf_off d;
     m_init := m_init d; m_copy_init := m_copy_init d; m_move_init := true; m_copy_asgn := m_copy_asgn d; m_move_asgn := false; m_destroy := m_destroy d; m_equals := m_equals d;
     m_compare := m_compare d; m_allocator := m_allocator d; m_features := m_features d; m_order := m_order d; m_force_external := m_force_external d; m_dependency := m_dependency d |};
  e_feature := ex_features; e_rule := ex_rules; e_tc := ex_tc; e_settings := ex_settings; e_canon := fun d => 100 + d |}.
Lemma self_aligned : aligned_mixins self_env.
Proof. intros m. exact (ob_aligned m). Qed.
Theorem C43_self_refuted : exists E U tr s o, aligned_mixins E /\ history E U tr s /\ with_type_set s o /\ ~ sealed s o /\
  snd (op_run E U (OMoveMatching true o o) s) = Ub UbLifetime /\ snd (op_run E U (OMoveMatching false o o) s) = Throw EMissingFunc.
Proof.
  exists self_env, (ob_user []), (otrace_of self_env (ob_user []) ob_ops), (ostate self_env (ob_user []) ob_ops), 1.
  split; [exact self_aligned|]. split; [apply (ohistory self_env (ob_user []) self_aligned); vm_compute; reflexivity|]. split; [apply typedb_ok; vm_compute; reflexivity|]. split.
  - intros (x & A & B). vm_compute in A. injection A as <-. vm_compute in B. discriminate.
  - split; vm_compute; reflexivity.
Qed.
Print Assumptions C43_self_refuted.
