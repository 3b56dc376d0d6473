(** A concrete environment and concrete runs, used by the examples beside the theorems. Not part of the model. *)
From Coq Require Import List Arith ZArith NArith Lia Bool.
From Verif Require Import Base Sv Info Registry TypeMut Rules TypeBuild TypeQuery Domain SpecReg.
Import ListNotations.

Definition ex_sv (addr : N) (bytes : list N) : sv := {| sv_begin := addr; sv_bytes := bytes |}.
Definition ex_ff (f pl : nat) (bid prio : Z) : ffm := {| ff_info := f; ff_payload := pl; ff_bid := bid; ff_prio := prio |}.
Definition ex_mixin (name : sv) (size align : N) (movable : bool) (fs : list ffm) (order : Z) (dep : bool) : mixin_desc := {|
  m_name := name; m_size := size; m_align := align; m_buf_size := 0; m_buf_off := 0;
  m_init := true; m_copy_init := true; m_move_init := movable; m_copy_asgn := true; m_move_asgn := true;
  m_destroy := true; m_equals := true; m_compare := true; m_allocator := None; m_features := fs;
  m_order := order; m_force_external := false; m_dependency := dep |}.

(** mixins 0..5; 4 has the name of 0 *)
Definition ex_mixins (m : mptr) : mixin_desc :=
  match m with
  | 0 => ex_mixin (ex_sv 100 [97]%N) 4 4 true [ex_ff 0 10 0 0; ex_ff 1 11 0 0] 0 false
  | 1 => ex_mixin (ex_sv 200 [98]%N) 16 16 true [ex_ff 0 12 1 0; ex_ff 2 13 0 5] 0 false
  | 2 => ex_mixin (ex_sv 300 [99]%N) 24 8 false [ex_ff 0 14 1 (-3); ex_ff 2 15 0 5] 0 false
  | 3 => ex_mixin (ex_sv 400 [100]%N) 1 1 true [] (-1) true
  | 4 => ex_mixin (ex_sv 500 [97]%N) 8 8 true [ex_ff 3 16 0 0] 0 false
  | _ => ex_mixin (ex_sv (600 + N.of_nat m) [101; N.of_nat m]%N) 2 2 true [] 0 false
  end.
(** feature 1 has a default, feature 2 allows clashes *)
Definition ex_features (f : fptr) : feature_desc := {|
  f_name := ex_sv (1000 + N.of_nat f) [102; N.of_nat f]%N;
  f_allow_clashes := f =? 2;
  f_default := if (f =? 1) || (f =? 5) then Some 77 else None |}.
Definition ex_tc (c : cptr) : tc_desc := {|
  c_name := ex_sv (3000 + N.of_nat c) [116; N.of_nat c]%N;
  c_matches := if c =? 9 then None else Some (fun l => memb c l) |}.
Definition ex_settings (d : dptr) : settings := {|
  s_canonicalize := d =? 1; s_dup_features := false; s_dup_mixins := d =? 2 |}.
(** rules 100+d canonicalize; 1: mixin 3 attaches to mixin 0; 2: remove mixin 1; 3: fails if mixin 2 is there;
    4: adds mixin 5 for ever; 6: looks up a name; 8: mixin 3 is mandatory; 9: adds mixin 3 at the end *)
Definition ex_rule0 (r : rptr) (apply : rview -> list mptr -> rule_res) (prio : Z) : rule_desc := {|
  r_name := ex_sv (5000 + N.of_nat r) [114; N.of_nat r]%N; r_apply := Some apply; r_prio := prio |}.
Definition ex_env0 : env := {|
  e_mixin := ex_mixins; e_feature := ex_features;
  e_rule := fun r => {| r_name := ex_sv 0 []; r_apply := None; r_prio := 0 |};
  e_tc := ex_tc; e_settings := ex_settings; e_canon := fun d => 100 + d |}.
Definition ex_rules (r : rptr) : rule_desc :=
  match r with
  | 1 => ex_rule0 1 (rule_basic_dep 0 3) 0
  | 2 => ex_rule0 2 (rule_v1_deprecated 1) 0
  | 3 => ex_rule0 3 (fun _ l => if memb 2 l then RuleErr 5 else RuleOk l) (-1)
  | 4 => ex_rule0 4 (fun _ l => RuleOk (l ++ [5])) 0
  | 6 => ex_rule0 6 (fun v l => match rv_lookup v [98]%N with Some m => RuleOk (tm_add_if_lacking m l) | None => RuleOk l end) 0
  | 7 => {| r_name := ex_sv 7 [1]%N; r_apply := None; r_prio := 0 |}
  | 8 => ex_rule0 8 (rule_v1_mandatory 3) (-2)
  | 9 => ex_rule0 9 (fun _ l => RuleOk (l ++ [3])) 0
  | _ => ex_rule0 r (rule_canonical ex_env0) 2147483647
  end.
Definition ex_env : env := {|
  e_mixin := ex_mixins; e_feature := ex_features; e_rule := ex_rules;
  e_tc := ex_tc; e_settings := ex_settings; e_canon := fun d => 100 + d |}.

Lemma ex_canon_ok : canon_ok ex_env.
Proof.
  intros d. cbn [e_canon ex_env e_rule].
  change (ex_rules (100 + d)) with (ex_rule0 (100 + d) (rule_canonical ex_env0) 2147483647). repeat split.
Qed.

(** Run a list of calls. *)
Fixpoint execs (E : env) (w : world) (ops : list dop) : world * trace :=
  match ops with
  | [] => (w, [])
  | o :: r => let (w1, x) := dstep E w o in let (w2, tr) := execs E w1 r in (w2, (o, x) :: tr)
  end.
Definition no_ub (tr : trace) : bool := forallb (fun c => match snd c with Ub _ => false | _ => true end) tr.

Lemma run_app E w tr1 w1 tr2 w2 : run E w tr1 w1 -> run E w1 tr2 w2 -> run E w (tr1 ++ tr2) w2.
Proof.
  intros H1 H2. induction H2 as [|w1 tr2 w2 o r w3 H2 IH Hs Hu]; [now rewrite app_nil_r|].
  rewrite app_assoc. econstructor; eauto.
Qed.
Lemma execs_run E ops : forall w, no_ub (snd (execs E w ops)) = true -> run E w (snd (execs E w ops)) (fst (execs E w ops)).
Proof.
  induction ops as [|o ops IH]; intros w; simpl; [constructor|].
  destruct (dstep E w o) as [w1 x] eqn:Hs. specialize (IH w1). destruct (execs E w1 ops) as [w2 tr]. simpl in *.
  intros H. apply andb_true_iff in H. destruct H as [Hx Ht]. apply (run_app E w [(o, x)] w1 tr w2).
  - apply (run_snoc E w [] w o x w1); [constructor|auto|]. destruct x; simpl; try discriminate; auto.
  - apply IH. auto.
Qed.

(** A run with registrations, types, rules, failures. *)
Definition ex_ops : list dop :=
  [DRegMixin 0 0; DRegMixin 0 1; DRegMixin 0 2; DRegMixin 0 4; DRegMixin 0 3; DRegMixin 1 5; DRegMixin 0 5;
   DUnregMixin 0 1; DRegMixin 0 7; DRegMixin 0 1; DRegFeature 1 8; DUnregFeature 0 3; DRegTc 0 1; DRegTc 0 2; DUnregTc 0 1;
   DGetType 0 [0; 1] true; DGetType 0 [0; 1; 2] true; DAddRule 0 1; DGetType 0 [0; 1] true; DGetType 0 [9] true;
   DNewObj (TReg 0); DGc 0; DGetType 0 [7; 2] true; DGetType 0 [] true].
Definition ex_world : world := fst (execs ex_env (init_world ex_env) ex_ops).
Definition ex_trace : trace := snd (execs ex_env (init_world ex_env) ex_ops).
Lemma ex_no_ub : no_ub ex_trace = true.
Proof. vm_compute. reflexivity. Qed.
Lemma ex_run : run ex_env (init_world ex_env) ex_trace ex_world.
Proof. apply execs_run. exact ex_no_ub. Qed.
Lemma ex_reachable : reachable ex_env ex_world.
Proof. exists ex_trace. exact ex_run. Qed.

(** Calls on the empty registries, and the result of a get_type after them. *)
Definition ex_after (E : env) (ops : list dop) : world := fst (execs E (init_world E) ops).
Definition ex_tr (E : env) (ops : list dop) : trace := snd (execs E (init_world E) ops).
Lemma ex_run_after E ops : no_ub (ex_tr E ops) = true -> run E (init_world E) (ex_tr E ops) (ex_after E ops).
Proof. apply execs_run. Qed.

(** The mixins of the type a query gives. *)
Definition ex_mixins_of (x : world * res tref) : res (list mptr) :=
  match snd x with
  | Ok r => match w_type (fst x) r with Some t => Ok (t_mixins t) | None => Ub UbDangling end
  | Throw e => Throw e
  | Ub u => Ub u
  end.
