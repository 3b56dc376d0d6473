(** A concrete environment with objects, and a checker of the contracts, used by the examples beside the theorems. Not
    part of the model. *)
From Coq Require Import List Arith ZArith NArith Lia Bool.
From Verif Require Import Base Sv BaseLemmas Info Registry TypeMut Rules TypeBuild TypeQuery MixinInfo Domain SpecReg SpecLayout HistProofs TypesProofs Heap Mutation Object SpecObj SpecMut SpecAct
  WorldProofs ObjProofs StableProofs ActProofs3 ObjTheorems4 ObjTheorems7 ExEnv.
Import ListNotations.

(** Mixins: 0 has all functions; 1 cannot be moved and has its own allocator; 2 has no init function; 3 cannot be copied
    and needs no destruction; 4 has no comparison; 5 can only be compared; 6 has no data *)
Definition ob_mixin (name : sv) (ini copy mov des eq cmp : bool) (al : option nat) : mixin_desc := {|
  m_name := name; m_size := 0; m_align := 1; m_buf_size := 0; m_buf_off := 0;
  m_init := ini; m_copy_init := copy; m_move_init := mov; m_copy_asgn := copy; m_move_asgn := mov;
  m_destroy := des; m_equals := eq; m_compare := cmp; m_allocator := al; m_features := [];
  m_order := 0; m_force_external := false; m_dependency := false |}.
Definition ob_mixins (m : mptr) : mixin_desc :=
  match m with
  | 0 => set_size_alignment (ob_mixin (ex_sv 100 [97]%N) true true true true true true None) 4 4
  | 1 => set_size_alignment (ob_mixin (ex_sv 200 [98]%N) true true false true true true (Some 3)) 24 8
  | 2 => set_size_alignment (ob_mixin (ex_sv 300 [99]%N) false true true true true true None) 16 16
  | 3 => set_size_alignment (ob_mixin (ex_sv 400 [100]%N) true false true false true true None) 1 1
  | 4 => set_size_alignment (ob_mixin (ex_sv 500 [101]%N) true true true true false false None) 8 8
  | 6 => set_size_alignment (ob_mixin (ex_sv 606 [103]%N) true true true false false true None) 0 0
  | _ => set_size_alignment (ob_mixin (ex_sv (600 + N.of_nat m) [102; N.of_nat m]%N) true true true true false true None) 8 4
  end.
Definition ob_env : env := {|
  e_mixin := ob_mixins; e_feature := ex_features; e_rule := ex_rules;
  e_tc := ex_tc; e_settings := ex_settings; e_canon := fun d => 100 + d |}.
Lemma ob_aligned : aligned_mixins ob_env.
Proof.
  intros m. cbn [ob_env e_mixin].
  destruct m as [|m]; [right; exists 2%N; reflexivity|]. destruct m as [|m]; [right; exists 3%N; reflexivity|]. destruct m as [|m]; [right; exists 4%N; reflexivity|].
  destruct m as [|m]; [right; exists 0%N; reflexivity|]. destruct m as [|m]; [right; exists 3%N; reflexivity|]. destruct m as [|m]; [right; exists 2%N; reflexivity|].
  destruct m as [|m]; [now left|]. right. exists 2%N. reflexivity.
Qed.
(** A program whose functions and allocators fail at the calls in [bad]; constructors give the number of the call. *)
Definition ob_user (bad : list nat) : user := {|
  u_ans := fun n => {| an_err := if memb n bad then 7 else 0; an_val := Z.of_nat n |};
  u_equals := fun _ a b => (a =? b)%Z; u_compare := fun _ a b => (a - b)%Z |}.

(** ** The contracts, computed *)
Section Fairb.
Variable E : env.
Definition typedb (s : st) (o : nat) : bool := match s_obj s o with Some x => match o_type x with Some _ => true | None => false end | None => false end.
Definition isobj (s : st) (o : nat) : bool := match s_obj s o with Some _ => true | None => false end.
Definition recb (s : st) (o : nat) : option (tref * type_rec) :=
  match s_obj s o with Some x => match o_type x with Some q => match w_type (s_w s) q with Some t => Some (q, t) | None => None end | None => None end | None => None end.
Definition nilb {A} (l : list A) : bool := match l with [] => true | _ => false end.
Definition becomeb (s : st) (o : nat) (r : tref) : bool :=
  match s_obj s o, w_type (s_w s) r with
  | Some x, Some t => match o_data x, recb s o with Some _, Some (_, t0) => t_dom t0 =? t_dom t | Some _, None => false | None, _ => true end
  | _, _ => false
  end.
Definition nonemptyb (s : st) (o : nat) (r : tref) : bool :=
  match w_type (s_w s) r with Some t => negb (nilb (t_mixins t)) | None => false end ||
  match s_obj s o with Some x => match o_type x with Some q => tref_eqb q r | None => false end | None => false end.
Definition same_domb (s : st) (o o' : nat) : bool :=
  match recb s o, recb s o' with Some (_, t), Some (_, t') => nilb (t_mixins t) || nilb (t_mixins t') || (t_dom t =? t_dom t') | _, _ => false end.
Definition opt_eqb (a b : option nat) : bool := match a, b with Some x, Some y => x =? y | None, None => true | _, _ => false end.
Definition ops_fineb (w : world) (d dt : dptr) (ops : list mop) : bool :=
  forallb (fun op => match op with MInitName _ nm => match get_mixin_by_name E w d nm with Some _ => true | None => false end | _ => true end) ops &&
  forallb (fun op => match op_mixin E w d op with Some m => match w_mdom w m with None => true | Some d' => d' =? dt end | None => true end) ops &&
  forallb (fun ia => forallb (fun jb => match op_mixin E w d (snd ia), op_mixin E w d (snd jb) with Some m, Some m' => negb (m =? m') || (fst ia =? fst jb) | _, _ => true end) (enumerate 0 ops)) (enumerate 0 ops).
Definition smallb (w : world) : bool :=
  forallb (fun k => match w_type w (TReg k) with Some t => (space E (t_mixins t) <? 4294967296)%N | None => true end) (seq 0 (w_next w)).
Definition notub {A} (r : res A) : bool := match r with Ub _ => false | _ => true end.
Definition mutateb (s : st) (o : nat) (aok empty_ok : bool) (f : lookup -> list mptr -> res (list mptr)) : bool :=
  match recb s o with
  | None => true
  | Some (_, t) => let (s1, x) := mutated_type E aok t f s in notub x && smallb (s_w s1) && (empty_ok || match x with Ok q => nonemptyb s1 o q | _ => true end)
  end.
Definition fairb (s : st) (op : oop) : bool :=
  match op with
  | OEmpty o d a => negb (isobj s o)
  | ONew unw o r a sl => negb (isobj s o) && match w_type (s_w s) r with Some _ => true | None => false end
  | OMoved o src => negb (isobj s o) && typedb s src
  | ODtor o | OSeal o => isobj s o
  | OClear o | OUse o _ _ => typedb s o
  | OMoveAssign o src => typedb s o && typedb s src
  | OCopy unw o src a => negb (isobj s o) && isobj s src
  | OCopyFrom unw o src => typedb s o && isobj s src && same_domb s o src
  | OCopyMatching o src => typedb s o && typedb s src && same_domb s o src
  | OMoveMatching fb o src => typedb s o && typedb s src && same_domb s o src && negb (o =? src)
  | OReset unw o r => typedb s o && becomeb s o r
  | OMutateTo unw o r ops => typedb s o && becomeb s o r && (nilb ops || nonemptyb s o r && match recb s o, w_type (s_w s) r with Some (_, t0), Some t => ops_fineb (s_w s) (t_dom t0) (t_dom t) ops | _, _ => false end)
  | OMutate unw aok o ops => typedb s o && negb (nilb ops) && mutateb s o aok false (fun lk => apply_mutops E lk ops) &&
      match recb s o with Some (_, t0) => ops_fineb (s_w s) (t_dom t0) (t_dom t0) (map mop_of ops) | None => false end
  | OGradual unw aok o ops => typedb s o && mutateb s o aok true (fun lk => apply_gops E lk ops)
  | OCMutateTo unw o r cs => typedb s o && becomeb s o r && nonemptyb s o r
  | OCMutate unw aok o cs => typedb s o && mutateb s o aok false (fun lk => apply_cops E lk cs)
  | OPiecewise unw o r ps => typedb s o && becomeb s o r && nonemptyb s o r && match w_type (s_w s) r with Some t =>
      forallb (fun p => match p with PFinalize | PRollback => false | PAt _ _ | PNext _ => negb (nilb (t_mixins t)) | _ => true end) ps | None => false end
  | ODom op => match op with DNewObj _ | DDelObj _ => false | _ => true end && notub (snd (dstep E (s_w s) op)) && smallb (fst (dstep E (s_w s) op))
  end.

Lemma typedb_ok s o : typedb s o = true -> with_type_set s o.
Proof. unfold typedb, with_type_set. destruct (s_obj s o) as [x|]; [|discriminate]. destruct (o_type x) eqn:H; [|discriminate]. exists x. split; congruence. Qed.
Lemma isobj_ok s o : isobj s o = true -> s_obj s o <> None.
Proof. unfold isobj. destruct (s_obj s o); congruence. Qed.
Lemma notobj_ok s o : negb (isobj s o) = true -> s_obj s o = None.
Proof. unfold isobj. destruct (s_obj s o); [discriminate|auto]. Qed.
Lemma recb_of s o q t : type_of s o q t -> recb s o = Some (q, t).
Proof. intros (x & A & B & C). unfold recb. now rewrite A, B, C. Qed.
Lemma nilb_ok {A} (l : list A) : negb (nilb l) = true -> l <> [].
Proof. now destruct l. Qed.
Lemma becomeb_ok s o r : becomeb s o r = true -> may_become s o r.
Proof.
  unfold becomeb, may_become. destruct (s_obj s o) as [x|] eqn:Hx; [|discriminate]. destruct (w_type (s_w s) r) as [t|] eqn:Ht; [|discriminate]. intros H. exists x, t. split; auto. split; auto.
  intros Hd q t0 Hq Ht0. destruct (o_data x); [|congruence]. assert (HT : type_of s o q t0) by (exists x; auto). rewrite (recb_of _ _ _ _ HT) in H. now apply Nat.eqb_eq.
Qed.
Lemma nonemptyb_ok s o r : nonemptyb s o r = true -> not_to_empty s o r.
Proof.
  unfold nonemptyb, not_to_empty. intros H. apply orb_true_iff in H. destruct H as [H|H].
  - left. destruct (w_type (s_w s) r) as [t|]; [|discriminate]. exists t. split; auto. now apply nilb_ok.
  - right. destruct (s_obj s o) as [x|]; [|discriminate]. exists x. split; auto. destruct (o_type x) as [q|]; [|discriminate]. destruct (tref_eqb_spec q r); congruence.
Qed.
Lemma same_domb_ok s o o' : same_domb s o o' = true -> same_domain s o o'.
Proof.
  intros H x y r r' t t' A1 A2 A3 A4 A5 A6 N1 N2. unfold same_domb in H. rewrite (recb_of s o r t), (recb_of s o' r' t') in H by (eexists; eauto). destruct (t_mixins t); [congruence|]. destruct (t_mixins t'); [congruence|]. cbn in H. now apply Nat.eqb_eq.
Qed.
Lemma enum_nth_from {A} (l : list A) : forall k i x, nth_error l i = Some x -> In (k + i, x) (enumerate k l).
Proof. induction l as [|y l IH]; intros k [|i] x H; try discriminate; cbn in *; [left; injection H as ->; f_equal; lia|right; rewrite Nat.add_succ_r; now apply (IH (S k))]. Qed.
Lemma enum_nth {A} (l : list A) i x : nth_error l i = Some x -> In (i, x) (enumerate 0 l).
Proof. apply (enum_nth_from l 0). Qed.
Lemma ops_fineb_ok w d dt ops : ops_fineb w d dt ops = true -> ops_fine E w d dt ops.
Proof.
  unfold ops_fineb. rewrite !andb_true_iff, !forallb_forall. intros [[H1 H2] H3]. split; [|split].
  - intros k nm Hin. specialize (H1 _ Hin). cbn in H1. destruct (get_mixin_by_name E w d nm); congruence.
  - intros op m Hin Hm. specialize (H2 _ Hin). rewrite Hm in H2. destruct (w_mdom w m) as [d'|]; auto. apply Nat.eqb_eq in H2. subst. auto.
  - intros i j a b m Hi Hj Ha Hb. apply (enum_nth ops) in Hi. apply (enum_nth ops) in Hj. specialize (H3 _ Hi). rewrite forallb_forall in H3. specialize (H3 _ Hj). cbn in H3. rewrite Ha, Hb, Nat.eqb_refl in H3. now apply Nat.eqb_eq.
Qed.
Definition nil_empties (w : world) : Prop := forall d t, w_type w (TEmpty d) = Some t -> t_mixins t = [].
Lemma smallb_ok w : bounded w -> nil_empties w -> smallb w = true -> types_small E w.
Proof.
  intros B NE H r t Ht. destruct r as [d|k]; [rewrite (NE _ _ Ht); reflexivity|]. unfold smallb in H. rewrite forallb_forall in H. assert (Hk : k < w_next w). { destruct (Nat.lt_ge_cases k (w_next w)) as [|Hge]; auto. rewrite (B k Hge) in Ht. discriminate. }
  specialize (H k). rewrite Ht in H. apply N.ltb_lt. apply H. apply in_seq. lia.
Qed.
Lemma empties_reach w : reachable E w -> nil_empties w.
Proof. intros H d t Ht. destruct (winv_reachable _ _ H) as [_ T]. destruct (ti_empty _ _ T d) as (k & Hk). rewrite Hk in Ht. injection Ht as <-. reflexivity. Qed.
Lemma bounded_reach w : reachable E w -> bounded w.
Proof. intros H k Hk. destruct (winv_reachable _ _ H) as [_ T]. eapply tinv_fresh; eauto. Qed.
Lemma mutateb_ok s o aok b f : reachable E (s_w s) -> mutateb s o aok b f = true -> can_mutate E s o aok b f.
Proof.
  intros R H r t s1 x HT Hm. unfold mutateb in H. rewrite (recb_of _ _ _ _ HT), Hm in H. rewrite !andb_true_iff in H. destruct H as [[H1 H2] H3].
  destruct (k_mutated_type E aok t f s s1 x Hm (bounded_reach _ R)) as (B & G & _). split; [destruct x; [auto|auto|discriminate]|]. split.
  - apply smallb_ok; auto. intros d t' Ht'. destruct (winv_reachable _ _ R) as [_ T]. destruct (ti_empty _ _ T d) as (k & Hk). destruct (G _ _ Hk) as (n & Hn). rewrite Hn in Ht'. injection Ht' as <-. reflexivity.
  - intros -> q ->. now apply nonemptyb_ok.
Qed.
Lemma fairb_ok s op : reachable E (s_w s) -> fairb s op = true -> fair E s op.
Proof.
  intros R H. destruct op; cbn [fairb fair] in *; rewrite ?andb_true_iff in H; repeat match goal with H : _ /\ _ |- _ => destruct H end;
    repeat match goal with |- _ /\ _ => split end; eauto using typedb_ok, isobj_ok, notobj_ok, becomeb_ok, nonemptyb_ok, same_domb_ok, nilb_ok, mutateb_ok.
  - destruct (w_type (s_w s) r); congruence.
  - intros _. apply negb_true_iff in H0. now apply Nat.eqb_neq.
  - intros Hne. split.
    + apply orb_true_iff in H0. destruct H0 as [H0|H0]; [destruct ops; [congruence|discriminate]|]. apply andb_true_iff in H0. destruct H0 as [H0 _]. now apply nonemptyb_ok.
    + intros d t (q & t0 & HT & <-) Ht. apply orb_true_iff in H0. destruct H0 as [H0|H0]; [destruct ops; [congruence|discriminate]|]. apply andb_true_iff in H0. destruct H0 as [_ H0]. rewrite (recb_of _ _ _ _ HT), Ht in H0. now apply ops_fineb_ok.
  - intros d (q & t0 & HT & <-). rewrite (recb_of _ _ _ _ HT) in H0. now apply ops_fineb_ok.
  - intros t Ht p Hp. rewrite Ht in H0. rewrite forallb_forall in H0. specialize (H0 p Hp). destruct p; auto; try discriminate; apply nilb_ok in H0; destruct (t_mixins t); [congruence|discriminate|congruence|discriminate].
  - destruct op; auto; discriminate.
  - intros Hu. destruct (snd (dstep E (s_w s) op)); [destruct Hu|destruct Hu|discriminate].
  - assert (R' : reachable E (fst (dstep E (s_w s) op))).
    { destruct R as (tr & Hr). destruct (dstep E (s_w s) op) as [w1 x] eqn:Hd. cbn in *. exists (tr ++ [(op, x)]). eapply run_snoc; eauto. intros Hu. destruct x; [destruct Hu|destruct Hu|discriminate]. }
    apply smallb_ok; auto; [now apply bounded_reach|now apply empties_reach].
Qed.

(** Run a list of calls, and check that all is fair. *)
Variable U : user.
Fixpoint oexec (s : st) (ops : list oop) : st * otrace * bool :=
  match ops with
  | [] => (s, [], true)
  | op :: r => let (s1, x) := op_run E U op s in let '(s2, tr, ok) := oexec s1 r in (s2, (op, x) :: tr, fairb s op && notub x && ok)
  end.
Definition ostate (ops : list oop) : st := fst (fst (oexec (init_st E) ops)).
Definition otrace_of (ops : list oop) : otrace := snd (fst (oexec (init_st E) ops)).
Definition ofine (ops : list oop) : bool := snd (oexec (init_st E) ops).
Hypothesis AM : aligned_mixins E.
Lemma oexec_run ops : forall tr s, history E U tr s -> snd (oexec s ops) = true -> history E U (tr ++ snd (fst (oexec s ops))) (fst (fst (oexec s ops))).
Proof.
  induction ops as [|op ops IH]; intros tr s H Hok; cbn [oexec] in *.
  - cbn. now rewrite app_nil_r.
  - destruct (op_run E U op s) as [s1 x] eqn:Hr. specialize (IH (tr ++ [(op, x)]) s1). destruct (oexec s1 ops) as [[s2 tr2] ok]. cbn in *. rewrite !andb_true_iff in Hok. destruct Hok as [[Hf Hu] Hok].
    rewrite <- app_assoc in IH. apply IH; auto. eapply or_snoc; eauto; [|destruct x; [auto|auto|discriminate]]. apply fairb_ok; auto. apply (iv_reach _ _ (proj1 (history_inv E U AM tr s H))).
Qed.
Lemma ohistory ops : ofine ops = true -> history E U (otrace_of ops) (ostate ops).
Proof. intros H. apply (oexec_run ops [] (init_st E)); auto. constructor. Qed.
Lemma ofair ops op : ofine ops = true -> fairb (ostate ops) op = true -> fair E (ostate ops) op.
Proof. intros H. apply fairb_ok. apply (iv_reach _ _ (proj1 (history_inv E U AM _ _ (ohistory ops H)))). Qed.
End Fairb.

(** The types: 0 has the mixins 0 1, 1 has 1 5 0, 2 has 0 2, 3 has 0 3 4, 4 has 1 3 5 *)
Definition ob_setup : list oop := map (fun m => ODom (DRegMixin 0 m)) [0; 1; 2; 3; 4; 5] ++
  map (fun q => ODom (DGetType 0 q true)) [[0; 1]; [1; 5; 0]; [0; 2]; [0; 3; 4]; [1; 3; 5]].
(** Objects: 1 and 2 of type 0, 3 of type 1 and sealed, 4 of type 4, 5 empty, 6 a copy of 1 *)
Definition ob_ops : list oop := ob_setup ++
  [ONew false 1 (TReg 0) 7 false; ONew false 2 (TReg 0) 8 false; ONew false 3 (TReg 1) 7 true; ONew false 4 (TReg 4) 7 false; OEmpty 5 0 7; OCopy false 6 1 7].
Definition ob_trace (bad : list nat) (ops : list oop) : otrace := otrace_of ob_env (ob_user bad) (ob_ops ++ ops).
Definition ob_st (bad : list nat) (ops : list oop) : st := ostate ob_env (ob_user bad) (ob_ops ++ ops).
Definition ob_fine (bad : list nat) (ops : list oop) : bool := ofine ob_env (ob_user bad) (ob_ops ++ ops).
Lemma ob_history bad ops : ob_fine bad ops = true -> history ob_env (ob_user bad) (ob_trace bad ops) (ob_st bad ops).
Proof. apply (ohistory ob_env (ob_user bad) ob_aligned). Qed.
Lemma ob_fair bad ops op : ob_fine bad ops = true -> fairb ob_env (ob_st bad ops) op = true -> fair ob_env (ob_st bad ops) op.
Proof. apply (ofair ob_env (ob_user bad) ob_aligned). Qed.
(** What a call does in this state *)
Definition ob_next (bad : list nat) (ops : list oop) (op : oop) : st := fst (op_run ob_env (ob_user bad) op (ob_st bad ops)).
Lemma ob_run bad ops op r : snd (op_run ob_env (ob_user bad) op (ob_st bad ops)) = r -> op_run ob_env (ob_user bad) op (ob_st bad ops) = (ob_next bad ops op, r).
Proof. intros <-. apply surjective_pairing. Qed.
(** The events of that call, and the mixins of an object with their values *)
Definition ob_events (bad : list nat) (ops : list oop) (op : oop) : list ev := skipn (length (s_log (ob_st bad ops))) (s_log (ob_next bad ops op)).
Definition ob_values (s : st) (o : nat) : list (mptr * addr * Z) :=
  match recb s o with
  | Some (_, t) => flat_map (fun im => match get_at s o (fst im) with Ok (Some p) => match instance s p with Some n => [(i_mixin n, p, i_val n)] | None => [] end | _ => [] end) (enumerate 0 (t_mixins t))
  | None => []
  end.
