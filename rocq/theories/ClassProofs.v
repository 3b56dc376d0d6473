(** Proofs about mixin infos made from C++ classes *)
From Coq Require Import List Arith ZArith NArith Lia Bool.
From Verif Require Import Base Sv Info TypeMut TypeBuild TypeQuery Domain MixinInfo Heap Mutation Object SpecObj SpecMut SpecLayout SpecPlace Common SpecCommon Class SpecClass CalledProofs
  ObjTheorems8.
Import ListNotations.

Lemma able_cases (a : able) : (is_able a = true <-> a <> No) /\ (is_nothrow a = true <-> a = NoThrow \/ a = Trivial).
Proof. destruct a; cbn; repeat split; intros; try congruence; auto; destruct H; discriminate. Qed.

Lemma class_fn c f : has_fn (fst (class_info c)) f = true <-> can c f.
Proof.
  destruct c as [k|]; [|destruct f; cbn; repeat split; intros; try congruence; auto].
  destruct k as [sz al de cc ca mc ma dt]. destruct f; cbn; try tauto.
  - destruct de; cbn; split; intros; congruence.
  - destruct cc; cbn; split; intros; congruence.
  - destruct mc; cbn; split; auto; intros; try discriminate; destruct H; discriminate.
  - destruct ca; cbn; split; intros; congruence.
  - destruct ma; cbn; split; auto; intros; try discriminate; destruct H; discriminate.
  - destruct dt; cbn; split; intros; congruence.
Qed.

Lemma class_ptr c f : is_set (code_at (snd (class_info c)) f) = has_fn (fst (class_info c)) f.
Proof. destruct c as [k|]; destruct f; reflexivity. Qed.

Lemma class_size c : let d := fst (class_info c) in
  match c with Some k => m_size d = cl_size k /\ m_align d = cl_align k | None => m_size d = 0%N /\ m_align d = 0%N end.
Proof. destruct c as [k|]; cbn; auto. unfold set_size_alignment. destruct (cl_align k <? _)%N; cbn; auto. Qed.

Lemma class_cmp c : m_equals (fst (class_info c)) = false /\ (m_compare (fst (class_info c)) = true <-> c = None).
Proof. destruct c as [k|]; cbn; repeat split; intros; congruence. Qed.

Section WithE.
Variable E : env.
Variable codes : mptr -> fn -> code.
Variable cls : mptr -> option cclass.
Hypothesis CL : classes E codes cls.

Lemma info_fn m f : has_fn (e_mixin E m) f = true <-> can (cls m) f.
Proof. destruct (CL m) as (_ & _ & _ & _ & H & _). rewrite H. apply class_fn. Qed.
Lemma info_code m f x : code_at (snd (class_info (cls m))) f = Some x -> codes m f = x.
Proof. destruct (CL m) as (_ & _ & _ & _ & _ & _ & _ & H). apply H. Qed.

Lemma info_external m : m_allocator (e_mixin E m) = None -> m_force_external (e_mixin E m) = false -> external (e_mixin E m) = true <-> ~ can (cls m) FMoveInit.
Proof.
  intros A F. rewrite <- (info_fn m FMoveInit). unfold external. rewrite A, F. cbn [has_fn]. destruct (m_move_init (e_mixin E m)); cbn; split; intros; try congruence.
Qed.

Lemma all_fn t f : (forall m, In m (t_mixins t) -> has_fn (e_mixin E m) f = true) <-> (forall m, In m (t_mixins t) -> can (cls m) f).
Proof. split; intros H m Hm; apply info_fn; auto. Qed.
Lemma class_traits t :
  (default_constructible E t = true <-> forall m, In m (t_mixins t) -> can (cls m) FInit) /\
  (copy_constructible E t = true <-> forall m, In m (t_mixins t) -> can (cls m) FCopyInit) /\
  (copy_assignable E t = true <-> forall m, In m (t_mixins t) -> can (cls m) FCopyAsgn) /\
  (equality_comparable E t = true <-> forall m, In m (t_mixins t) -> cls m = None) /\
  (comparable E t = true <-> forall m, In m (t_mixins t) -> cls m = None).
Proof.
  destruct (traits E t) as (A & B & C & D & F).
  split; [rewrite A; apply (all_fn t FInit)|]. split; [rewrite B; apply (all_fn t FCopyInit)|]. split; [rewrite C; apply (all_fn t FCopyAsgn)|].
  assert (K : forall m, m_equals (e_mixin E m) = false /\ (m_compare (e_mixin E m) = true <-> cls m = None)).
  { intros m. destruct (CL m) as (_ & _ & _ & _ & _ & He & Hc & _). rewrite He, Hc. apply class_cmp. }
  split.
  - rewrite D. split; intros H m Hm; specialize (H m Hm); destruct (K m) as [K1 K2]; [destruct H as [H|H]; [congruence|now apply K2]|right; now apply K2].
  - rewrite F. split; intros H m Hm; specialize (H m Hm); destruct (K m) as [_ K2]; now apply K2.
Qed.

Lemma code_default k m : cls m = Some k -> cl_default k = Trivial -> codes m FInit = CInit.
Proof. intros Hc Hk. apply info_code. rewrite Hc. cbn. now rewrite Hk. Qed.
Lemma code_copy k m : cls m = Some k -> cl_copy_ctor k = Trivial -> codes m FCopyInit = CCopy.
Proof. intros Hc Hk. apply info_code. rewrite Hc. cbn. now rewrite Hk. Qed.
Lemma code_move k m : cls m = Some k -> cl_move_ctor k = Trivial -> codes m FMoveInit = CMove.
Proof. intros Hc Hk. apply info_code. rewrite Hc. cbn. now rewrite Hk. Qed.

Variable U : user.
Lemma class_calls ok tr s f m p src err : orun E U ok tr s -> In (EvCall f m p src err) (s_log s) -> can (cls m) f.
Proof. intros H Hi. apply info_fn. eapply orun_given; eauto. Qed.

Definition trait (k : cclass) (f : fn) : able :=
  match f with FInit => cl_default k | FCopyInit => cl_copy_ctor k | FMoveInit => cl_move_ctor k | FCopyAsgn => cl_copy_asgn k | FMoveAsgn => cl_move_asgn k | _ => NoThrow end.
Lemma own_code k m f : cls m = Some k -> can (cls m) f -> trait k f <> Trivial -> runs codes m f = COwn.
Proof.
  intros Hc. rewrite Hc. intros Hf Ht. destruct f; cbn [runs]; auto; apply info_code; rewrite Hc; cbn in *; destruct k as [sz al de cc ca mc ma dt]; cbn in *.
  - destruct de; cbn; congruence.
  - destruct cc; cbn; congruence.
  - destruct mc; cbn; destruct Hf; congruence.
  - destruct ca; cbn; congruence.
  - destruct ma; cbn; destruct Hf; congruence.
  - destruct dt; cbn; congruence.
Qed.

Lemma class_own ok tr s f m p src err k : orun E U ok tr s -> In (EvCall f m p src err) (s_log s) -> cls m = Some k -> cpp_class k -> cl_dtor_trivial k = false ->
  runs codes m f = COwn \/ (f = FCopyAsgn /\ cl_copy_asgn k = Trivial /\ runs codes m f = CCopy) \/ (f = FMoveAsgn /\ cl_move_asgn k = Trivial /\ runs codes m f = CMove).
Proof.
  intros H Hi Hc Hk Hd. pose proof (class_calls _ _ _ _ _ _ _ _ H Hi) as Hf.
  assert (K : cl_default k <> Trivial /\ cl_copy_ctor k <> Trivial /\ cl_move_ctor k <> Trivial) by (unfold cpp_class in Hk; repeat split; intros X; rewrite Hk in Hd by tauto; discriminate).
  destruct K as (K1 & K2 & K3).
  destruct f; try (left; eapply own_code; eauto; cbn; congruence).
  - destruct (cl_copy_asgn k) eqn:Ha; try (left; eapply own_code; eauto; cbn; congruence). right; left. repeat split; auto. cbn [runs]. apply info_code. rewrite Hc. cbn. now rewrite Ha.
  - destruct (cl_move_asgn k) eqn:Ha; try (left; eapply own_code; eauto; cbn; congruence). right; right. repeat split; auto. cbn [runs]. apply info_code. rewrite Hc. cbn. now rewrite Ha.
Qed.
End WithE.

Lemma c_macro size align : c_common_init size align = class_info (Some {| cl_size := size; cl_align := align;
  cl_default := Trivial; cl_copy_ctor := Trivial; cl_copy_asgn := Trivial; cl_move_ctor := Trivial; cl_move_asgn := Trivial; cl_dtor_trivial := true |}).
Proof. reflexivity. Qed.
Lemma c_macro_empty : c_common_init_empty = class_info None.
Proof. reflexivity. Qed.
