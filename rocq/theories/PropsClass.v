(** Properties of mixins that are C++ classes *)
From Coq Require Import List Arith ZArith NArith Lia Bool.
From Verif Require Import Base Sv BaseLemmas Info MixinInfo TypeBuild TypeQuery Domain SpecLayout Heap Mutation Object SpecObj SpecMut SpecLog SpecAct SpecPlace Common SpecCommon
  Class SpecClass CommonProofs CommonProofs2 ObjTheorems7 ClassProofs ExEnv ExObj PropsCommon.
Import ListNotations.

(** C80. The info made from a class has the functions that the class has, and pointers for just these; size and alignment of the class; and
    mixins of the class are part of the buffer of their object if and only if they can be moved without exceptions. *)
Theorem C80_functions : forall c,
  (forall f, has_fn (fst (class_info c)) f = true <-> can c f) /\
  (forall f, code_at (snd (class_info c)) f <> None <-> can c f) /\
  (forall k, c = Some k -> m_size (fst (class_info c)) = cl_size k /\ m_align (fst (class_info c)) = cl_align k) /\
  (external (fst (class_info c)) = true <-> ~ can c FMoveInit).
Proof.
  intros c. split; [exact (class_fn c)|]. split; [|split].
  - intros f. rewrite <- class_fn, <- class_ptr. destruct (code_at _ f); cbn; split; congruence.
  - intros k ->. exact (class_size (Some k)).
  - rewrite <- class_fn. unfold external. assert (A : m_allocator (fst (class_info c)) = None /\ m_force_external (fst (class_info c)) = false).
    { destruct c as [k|]; cbn; auto. unfold set_size_alignment. destruct (cl_align k <? _)%N; cbn; auto. }
    destruct A as [-> ->]. cbn [has_fn]. destruct (m_move_init _); cbn; split; congruence.
Qed.
Print Assumptions C80_functions.
(** The macros for C make what classes with only trivial members and void get. *)
Theorem C80_c_macros : forall size align,
  c_common_init size align = class_info (Some {| cl_size := size; cl_align := align; cl_default := Trivial; cl_copy_ctor := Trivial; cl_copy_asgn := Trivial;
    cl_move_ctor := Trivial; cl_move_asgn := Trivial; cl_dtor_trivial := true |}) /\ c_common_init_empty = class_info None.
Proof. intros size align. split; [exact (c_macro size align)|exact c_macro_empty]. Qed.
Print Assumptions C80_c_macros.
(** A type can do what all its classes can do. Classes are never compared unless the program adds a comparison. *)
Theorem C80_types : forall E codes cls t, classes E codes cls ->
  (default_constructible E t = true <-> forall m, In m (t_mixins t) -> can (cls m) FInit) /\
  (copy_constructible E t = true <-> forall m, In m (t_mixins t) -> can (cls m) FCopyInit) /\
  (copy_assignable E t = true <-> forall m, In m (t_mixins t) -> can (cls m) FCopyAsgn) /\
  (equality_comparable E t = true <-> forall m, In m (t_mixins t) -> cls m = None) /\
  (comparable E t = true <-> forall m, In m (t_mixins t) -> cls m = None).
Proof. intros E codes cls t CL. exact (class_traits E codes cls CL t). Qed.
Print Assumptions C80_types.
(** Whatever the program does, with or without the contracts, no member that a class does not have is called, and no move that can throw. *)
Theorem C80_calls : forall E U codes cls ok tr s f m p src err, classes E codes cls -> orun E U ok tr s ->
  In (EvCall f m p src err) (s_log s) -> can (cls m) f.
Proof. intros E U codes cls ok tr s f m p src err CL. exact (class_calls E codes cls CL U ok tr s f m p src err). Qed.
Print Assumptions C80_calls.
(** What classes with trivial constructors have for bytes: a new mixin is zero... *)
Theorem C80_new : forall E U codes cls tr s o r a sl s' M M' i m k, classes E codes cls -> sized_mixins E -> aligned_mixins E -> history E U tr s ->
  fair E s (ONew false o r a sl) -> op_run E U (ONew false o r a sl) s = (s', Ok tt) -> memory_step E codes s s' M M' ->
  has_mixin s' o i m -> cls m = Some k -> cl_default k = Trivial ->
  exists p v, holds s' o i m p v /\ bytes M' p (cl_size k) = repeat 0%N (N.to_nat (cl_size k)).
Proof.
  intros E U codes cls tr s o r a sl s' M M' i m k CL SZ AM H HF HR HM Hi Hc Hk.
  assert (S1 : m_size (e_mixin E m) = cl_size k) by (destruct (CL m) as (-> & _); rewrite Hc; exact (proj1 (class_size (Some k)))).
  rewrite <- S1. exact (proj1 (new_bytes E U codes SZ AM tr s o r a sl s' M M' H HF HR HM) i m Hi (code_default E codes cls CL k m Hc Hk)).
Qed.
Print Assumptions C80_new.
(** ... a copy has the bytes of the original... *)
Theorem C80_copy : forall E U codes cls tr s o src a s' M M' i m k q v, classes E codes cls -> sized_mixins E -> aligned_mixins E -> history E U tr s ->
  fair E s (OCopy false o src a) -> op_run E U (OCopy false o src a) s = (s', Ok tt) -> memory_step E codes s s' M M' ->
  holds s src i m q v -> cls m = Some k -> cl_copy_ctor k = Trivial ->
  exists p, holds s' o i m p v /\ bytes M' p (cl_size k) = bytes M q (cl_size k) /\ bytes M' q (cl_size k) = bytes M q (cl_size k).
Proof.
  intros E U codes cls tr s o src a s' M M' i m k q v CL SZ AM H HF HR HM Hi Hc Hk.
  assert (S1 : m_size (e_mixin E m) = cl_size k) by (destruct (CL m) as (-> & _); rewrite Hc; exact (proj1 (class_size (Some k)))).
  rewrite <- S1. exact (proj1 (copy_bytes E U codes SZ AM tr s o src a s' M M' H HF HR HM) i m q v Hi (code_copy E codes cls CL k m Hc Hk)).
Qed.
Print Assumptions C80_copy.
(** ... and in a mutation mixins that the object keeps have the same bytes if their move constructor is trivial or can throw (these are not
    moved), and new ones with a trivial default constructor are zero. *)
Theorem C80_mutation : forall E U codes cls tr s op o s' M M', classes E codes cls -> sized_mixins E -> aligned_mixins E -> history E U tr s ->
  fair E s op -> mutates op = Some (o, false) -> op_run E U op s = (s', Ok tt) -> memory_step E codes s s' M M' ->
  (forall i j m p v k, has_mixin s' o i m -> holds s o j m p v -> (forall x, ~ upds E op m x) -> cls m = Some k -> cl_move_ctor k <> NoThrow ->
    exists p', holds s' o i m p' v /\ bytes M' p' (cl_size k) = bytes M p (cl_size k)) /\
  (forall i m k, has_mixin s' o i m -> ~ has_some s o m -> (forall x, ~ inits E s op m x) -> cls m = Some k -> cl_default k = Trivial ->
    exists p v, holds s' o i m p v /\ bytes M' p (cl_size k) = repeat 0%N (N.to_nat (cl_size k))).
Proof.
  intros E U codes cls tr s op o s' M M' CL SZ AM H HF HO HR HM. destruct (mutation_bytes E U codes SZ AM tr s op o s' M M' H HF HO HR HM) as (A & B & _).
  assert (S1 : forall m k, cls m = Some k -> m_size (e_mixin E m) = cl_size k) by (intros m k Hc; destruct (CL m) as (-> & _); rewrite Hc; exact (proj1 (class_size (Some k)))).
  split.
  - intros i j m p v k Hi Hj Hu Hc Hk. rewrite <- (S1 m k Hc). apply (A i j m p v Hi Hj Hu).
    destruct (cl_move_ctor k) eqn:Hm; [left|left|congruence|right; rewrite (code_move E codes cls CL k m Hc Hm); reflexivity];
      (unfold external; replace (m_move_init (e_mixin E m)) with false; [reflexivity|]; symmetry; apply not_true_is_false; intros X;
       apply (info_fn E codes cls CL m FMoveInit) in X; rewrite Hc in X; cbn in X; rewrite Hm in X; destruct X; discriminate).
  - intros i m k Hi Hn Hx Hc Hk. rewrite <- (S1 m k Hc). exact (B i m Hi Hn Hx (code_default E codes cls CL k m Hc Hk)).
Qed.
Print Assumptions C80_mutation.
(** Mixins of a class with a destructor are changed by members of the class only. Full statement: without the exception for trivial
    assignments, which is refuted below for moves. *)
Theorem C80_own_partial : forall E U codes cls ok tr s f m p src err k, classes E codes cls -> orun E U ok tr s ->
  In (EvCall f m p src err) (s_log s) -> cls m = Some k -> cpp_class k -> cl_dtor_trivial k = false ->
  runs codes m f = COwn \/ (f = FCopyAsgn /\ cl_copy_asgn k = Trivial /\ runs codes m f = CCopy) \/ (f = FMoveAsgn /\ cl_move_asgn k = Trivial /\ runs codes m f = CMove).
Proof. intros E U codes cls ok tr s f m p src err k CL. exact (class_own E codes cls CL U ok tr s f m p src err k). Qed.
Print Assumptions C80_own_partial.

(** Classes: 0 is a number; 1 has its own members, as a string; 2 can only be default constructed, as a mutex; 3 has a destructor and trivial
    assignments; 4 is void; 5 and the others as 0. Members of classes write bytes 7. *)
Definition plain (size align : N) : cclass := {| cl_size := size; cl_align := align; cl_default := Trivial; cl_copy_ctor := Trivial; cl_copy_asgn := Trivial;
  cl_move_ctor := Trivial; cl_move_asgn := Trivial; cl_dtor_trivial := true |}.
Definition cl_classes (m : mptr) : option cclass :=
  match m with
  | 1 => Some {| cl_size := 32; cl_align := 8; cl_default := NoThrow; cl_copy_ctor := Throws; cl_copy_asgn := Throws; cl_move_ctor := NoThrow; cl_move_asgn := NoThrow; cl_dtor_trivial := false |}
  | 2 => Some {| cl_size := 40; cl_align := 8; cl_default := NoThrow; cl_copy_ctor := No; cl_copy_asgn := No; cl_move_ctor := No; cl_move_asgn := No; cl_dtor_trivial := true |}
  | 3 => Some {| cl_size := 8; cl_align := 8; cl_default := Throws; cl_copy_ctor := NoThrow; cl_copy_asgn := Trivial; cl_move_ctor := NoThrow; cl_move_asgn := Trivial; cl_dtor_trivial := false |}
  | 4 => None
  | _ => Some (plain 4 4)
  end.
Definition cl_mixin (m : mptr) : mixin_desc := let d := fst (class_info (cl_classes m)) in {|
  m_name := ex_sv (1000 + 10 * N.of_nat m) [97; N.of_nat m]%N; m_size := m_size d; m_align := m_align d; m_buf_size := m_buf_size d; m_buf_off := m_buf_off d;
  m_init := m_init d; m_copy_init := m_copy_init d; m_move_init := m_move_init d; m_copy_asgn := m_copy_asgn d; m_move_asgn := m_move_asgn d; m_destroy := m_destroy d;
  m_equals := m_equals d; m_compare := m_compare d; m_allocator := m_allocator d; m_features := m_features d; m_order := m_order d; m_force_external := m_force_external d;
  m_dependency := m_dependency d |}.
Definition cl_env : env := {| e_mixin := cl_mixin; e_feature := ex_features; e_rule := ex_rules; e_tc := ex_tc; e_settings := ex_settings; e_canon := fun d => 100 + d |}.
Definition cl_codes (m : mptr) (f : fn) : code := match code_at (snd (class_info (cl_classes m))) f with Some x => x | None => COwn end.
Lemma cl_made : classes cl_env cl_codes cl_classes.
Proof. intros m. do 4 (split; [reflexivity|]). split; [intros f; destruct f; reflexivity|]. do 2 (split; [reflexivity|]). intros f x H. unfold cl_codes. now rewrite H. Qed.
Lemma cl_aligned : aligned_mixins cl_env.
Proof.
  intros m. cbn [cl_env e_mixin cl_mixin m_align]. unfold cl_classes. destruct m as [|m]; [right; exists 2%N; reflexivity|]. do 3 (destruct m as [|m]; [right; exists 3%N; reflexivity|]).
  destruct m as [|m]; [now left|]. right. exists 2%N. reflexivity.
Qed.
Lemma cl_sized : sized_mixins cl_env.
Proof. intros m d. subst d. cbn [cl_env e_mixin]. do 5 (destruct m as [|m]; [split; reflexivity|]). split; reflexivity. Qed.
Lemma cl_cpp m k : cl_classes m = Some k -> cpp_class k.
Proof. do 5 (destruct m as [|m]; [intros H; cbn in H; try discriminate H; injection H as <-; unfold cpp_class; cbn; intuition discriminate|]). intros H. injection H as <-. intros _. reflexivity. Qed.

(** Types: 0 has the mixins 0 1 3, and 1 has 0 1 2 4 5; objects 1 and 2 are of type 0, 3 of type 1. *)
Definition cl_ops : list oop := map (fun m => ODom (DRegMixin 0 m)) [0; 1; 2; 3; 4; 5] ++ map (fun q => ODom (DGetType 0 q true)) [[0; 1; 3]; [0; 1; 2; 4; 5]] ++
  [ONew false 1 (TReg 0) 7 false; ONew false 2 (TReg 0) 7 false; ONew false 3 (TReg 1) 7 false].
Definition cl_st (ops : list oop) : st := ostate cl_env (ob_user []) (cl_ops ++ ops).
Definition cl_trace (ops : list oop) : otrace := otrace_of cl_env (ob_user []) (cl_ops ++ ops).
Definition cl_next (ops : list oop) (op : oop) : st := fst (op_run cl_env (ob_user []) op (cl_st ops)).
Lemma cl_history ops : ofine cl_env (ob_user []) (cl_ops ++ ops) = true -> history cl_env (ob_user []) (cl_trace ops) (cl_st ops).
Proof. apply (ohistory cl_env (ob_user []) cl_aligned). Qed.
Lemma cl_fair ops op : ofine cl_env (ob_user []) (cl_ops ++ ops) = true -> fairb cl_env (cl_st ops) op = true -> fair cl_env (cl_st ops) op.
Proof. apply (ofair cl_env (ob_user []) cl_aligned). Qed.
Lemma cl_run ops op r : snd (op_run cl_env (ob_user []) op (cl_st ops)) = r -> op_run cl_env (ob_user []) op (cl_st ops) = (cl_next ops op, r).
Proof. intros <-. apply surjective_pairing. Qed.
Definition cl_act (e : ev) : act :=
  match e with EvCall _ m _ _ _ => let z := repeat 7%N (N.to_nat (m_size (e_mixin cl_env m))) in BEv e (z, z) | _ => BEv e ([], []) end.
Definition cl_srcb (e : ev) : bool :=
  match e with EvCall f m p src _ => match src with Some q => negb (same_addr q p) | None => negb (reads_source (runs cl_codes m f)) end | _ => true end.
Lemma cl_acts_events l : events (map cl_act l) = l.
Proof. induction l as [|[a b z n|a b z n|f m p src err] l IH]; cbn; auto; now rewrite IH. Qed.
Lemma cl_acts_proper L l : forallb cl_srcb l = true -> Forall (proper cl_env cl_codes L) (map cl_act l).
Proof.
  induction l as [|e l IH]; intros H; [constructor|]. cbn [forallb] in H. apply andb_true_iff in H. destruct H as [H1 H2]. cbn [map]. constructor; [|auto].
  destruct e as [a b z n|a b z n|f m p src err]; cbn [cl_act proper]; auto. cbn [fst snd]. rewrite repeat_length. split; auto. intros R. cbn [cl_srcb] in H1. destruct src as [q|]; [|rewrite R in H1; discriminate H1].
  exists q. split; auto. intros ->. assert (X : same_addr p p = true) by now apply same_addr_true. rewrite X in H1. discriminate H1.
Qed.
Lemma cl_hands_off l : hands_off (map cl_act l).
Proof. intros a Ha. apply in_map_iff in Ha. destruct Ha as (e & <- & _). destruct e; exact Logic.I. Qed.
(** Memory after all events of a state *)
Definition cl_mem (s : st) : mem := ob_mem (do_acts cl_env cl_codes (fun _ _ => 9%N) (map cl_act (s_log s))).
Lemma cl_step s s' : s_log s' = s_log s ++ skipn (length (s_log s)) (s_log s') -> forallb cl_srcb (s_log s') = true ->
  (if do_acts cl_env cl_codes (fun _ _ => 9%N) (map cl_act (s_log s)) then true else false) = true ->
  (if do_acts cl_env cl_codes (fun _ _ => 9%N) (map cl_act (s_log s')) then true else false) = true ->
  memory_step cl_env cl_codes s s' (cl_mem s) (cl_mem s').
Proof.
  set (l := skipn _ _). intros L H A B. apply ob_mem_some in A, B. exists (fun _ _ => 9%N), (map cl_act (s_log s)), (map cl_act l). split; [apply cl_acts_events|]. split; [exact A|]. split; [|apply cl_hands_off].
  rewrite <- map_app, <- L. split; [apply cl_acts_events|]. split; [now apply cl_acts_proper|exact B].
Qed.
Example C80_example : classes cl_env cl_codes cl_classes /\ sized_mixins cl_env /\ aligned_mixins cl_env /\ (forall m k, cl_classes m = Some k -> cpp_class k) /\
  history cl_env (ob_user []) (cl_trace []) (cl_st []) /\ map (fun m => external (cl_mixin m)) [0; 1; 2; 3; 4; 5] = [false; false; true; false; false; false].
Proof. split; [exact cl_made|]. split; [exact cl_sized|]. split; [exact cl_aligned|]. split; [exact cl_cpp|]. split; [apply cl_history; vm_compute; reflexivity|vm_compute; reflexivity]. Qed.
(** A new object of type 0, a copy of object 1, and a mutation of object 1 to type 1 *)
Example C80_example2 : forall op, In op [ONew false 9 (TReg 0) 7 true; OCopy false 9 1 7; OReset false 1 (TReg 1)] -> let s := cl_st [] in let s' := cl_next [] op in
  fair cl_env s op /\ op_run cl_env (ob_user []) op s = (s', Ok tt) /\ memory_step cl_env cl_codes s s' (cl_mem s) (cl_mem s').
Proof.
  intros op H. cbn [In] in H. repeat (destruct H as [<-|H]; [cbv zeta; split; [apply cl_fair; vm_compute; reflexivity|split; [apply cl_run; vm_compute; reflexivity|
    apply cl_step; vm_compute; reflexivity]]|]). destruct H.
Qed.
(** Object 1 keeps mixins 0 and 1 and gets 2, 4 and 5. *)
Example C80_example3 : let op := OReset false 1 (TReg 1) in let s' := cl_next [] op in
  mutates op = Some (1, false) /\ (exists v, holds (cl_st []) 1 0 0 (0, 56%N) v) /\ has_mixin s' 1 0 0 /\ has_mixin s' 1 4 5 /\ (forall m x, ~ upds cl_env op m x) /\
  bytes (cl_mem (cl_st [])) (0, 56%N) 4 = repeat 0%N 4 /\ bytes (cl_mem s') (4, 88%N) 4 = repeat 0%N 4 /\ bytes (cl_mem s') (4, 152%N) 4 = repeat 0%N 4.
Proof.
  cbv zeta. split; [reflexivity|].
  split; [eexists; split; [eexists (TReg 0), _; split; [eexists; vm_compute; eauto|vm_compute; reflexivity]|split; vm_compute; reflexivity]|].
  split; [eexists (TReg 1), _; split; [eexists; vm_compute; eauto|vm_compute; reflexivity]|]. split; [eexists (TReg 1), _; split; [eexists; vm_compute; eauto|vm_compute; reflexivity]|].
  split; [intros m x H; exact H|]. split; [vm_compute; reflexivity|]. split; vm_compute; reflexivity.
Qed.
Lemma run_pair A B (x : A * B) r : snd x = r -> x = (fst x, r).
Proof. intros <-. apply surjective_pairing. Qed.
(** The exception is real: move_matching_from assigns mixin 3 of object 2 to object 1. Trivial move assignment of a C++ class copies bytes
    and leaves the source as it is, but the library writes zeros to the source, and the destructor of the class runs on them later. *)
Theorem C80_own_refuted : exists E U codes cls tr s op s' M M' m k o i p v v', classes E codes cls /\ sized_mixins E /\ aligned_mixins E /\
  history E U tr s /\ fair E s op /\ op_run E U op s = (s', Ok tt) /\ memory_step E codes s s' M M' /\
  cls m = Some k /\ cpp_class k /\ cl_dtor_trivial k = false /\ holds s o i m p v /\ holds s' o i m p v' /\
  bytes M p (cl_size k) = repeat 7%N (N.to_nat (cl_size k)) /\ bytes M' p (cl_size k) = repeat 0%N (N.to_nat (cl_size k)) /\ (0 < cl_size k)%N /\
  exists s'' l, op_run E U (ODtor o) s' = (s'', Ok tt) /\ did s' s'' l /\ In (EvCall FDestroy m p None 0) l.
Proof.
  exists cl_env, (ob_user []), cl_codes, cl_classes, (cl_trace []), (cl_st []), (OMoveMatching false 1 2), (cl_next [] (OMoveMatching false 1 2)), (cl_mem (cl_st [])), (cl_mem (cl_next [] (OMoveMatching false 1 2))), 3.
  eexists _, 2, 2, (1, 112%N), 7%Z, 17%Z.
  split; [exact cl_made|]. split; [exact cl_sized|]. split; [exact cl_aligned|]. split; [apply cl_history; vm_compute; reflexivity|]. split; [apply cl_fair; vm_compute; reflexivity|].
  split; [apply cl_run; vm_compute; reflexivity|]. split; [apply cl_step; vm_compute; reflexivity|]. split; [reflexivity|]. split; [apply (cl_cpp 3); reflexivity|]. split; [reflexivity|].
  split; [split; [eexists (TReg 0), _; split; [eexists; vm_compute; eauto|vm_compute; reflexivity]|split; vm_compute; reflexivity]|].
  split; [split; [eexists (TReg 0), _; split; [eexists; vm_compute; eauto|vm_compute; reflexivity]|split; vm_compute; reflexivity]|].
  split; [vm_compute; reflexivity|]. split; [vm_compute; reflexivity|]. split; [reflexivity|].
  exists (fst (op_run cl_env (ob_user []) (ODtor 2) (cl_next [] (OMoveMatching false 1 2)))), (skipn (length (s_log (cl_next [] (OMoveMatching false 1 2)))) (s_log (fst (op_run cl_env (ob_user []) (ODtor 2) (cl_next [] (OMoveMatching false 1 2)))))).
  split; [apply run_pair; vm_compute; reflexivity|]. split; vm_compute; [reflexivity|tauto].
Qed.
Print Assumptions C80_own_refuted.
