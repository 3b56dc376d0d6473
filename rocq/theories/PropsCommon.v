(** Properties of the bytes of mixins and of the functions that the library offers for mixins that are only bytes *)
From Coq Require Import List Arith ZArith NArith Lia Bool.
From Verif Require Import Base Sv Info MixinInfo TypeBuild TypeQuery Domain SpecLayout Heap Mutation Object SpecObj SpecMut SpecAct SpecLog SpecPlace Common SpecCommon
  CommonProofs CommonProofs2 CommonProofs3 ObjTheorems7 ExEnv ExObj PropsObj PropsPlace.
Import ListNotations.

(** C75. Memory is defined after all that happened, and has for every mixin what the specification says: bytes that change only by
    calls on this mixin and when the program writes to it. *)
Theorem C75_bytes : forall E U codes tr s M0 acts, sized_mixins E -> aligned_mixins E -> history E U tr s ->
  events acts = s_log s -> Forall (proper E codes (s_log s)) acts ->
  exists M, do_acts E codes M0 acts = Some M /\
    forall e m p, In e (s_log s) -> touches e m p ->
      bytes M p (m_size (e_mixin E m)) = acts_value E codes (fun m p => bytes M0 p (m_size (e_mixin E m))) acts m p.
Proof. intros E U codes tr s M0 acts SZ AM. exact (bytes_history E U codes SZ AM tr s M0 acts). Qed.
Print Assumptions C75_bytes.
(** A new object: mixins with the common init function are zero, and no other object changes. *)
Theorem C75_new : forall E U codes tr s o r a sl s' M M', sized_mixins E -> aligned_mixins E -> history E U tr s ->
  fair E s (ONew false o r a sl) -> op_run E U (ONew false o r a sl) s = (s', Ok tt) -> memory_step E codes s s' M M' ->
  (forall i m, has_mixin s' o i m -> codes m FInit = CInit ->
    exists p v, holds s' o i m p v /\ bytes M' p (m_size (e_mixin E m)) = repeat 0%N (N.to_nat (m_size (e_mixin E m)))) /\
  (forall o' i m p v, o' <> o -> holds s o' i m p v -> bytes M' p (m_size (e_mixin E m)) = bytes M p (m_size (e_mixin E m))).
Proof. intros E U codes tr s o r a sl s' M M' SZ AM. exact (new_bytes E U codes SZ AM tr s o r a sl s' M M'). Qed.
Print Assumptions C75_new.
(** A copy has the bytes of the original, which are not changed. *)
Theorem C75_copy : forall E U codes tr s o src a s' M M', sized_mixins E -> aligned_mixins E -> history E U tr s ->
  fair E s (OCopy false o src a) -> op_run E U (OCopy false o src a) s = (s', Ok tt) -> memory_step E codes s s' M M' ->
  (forall i m q v, holds s src i m q v -> codes m FCopyInit = CCopy ->
    exists p, holds s' o i m p v /\ bytes M' p (m_size (e_mixin E m)) = bytes M q (m_size (e_mixin E m)) /\ bytes M' q (m_size (e_mixin E m)) = bytes M q (m_size (e_mixin E m))) /\
  (forall o' i m p v, o' <> o -> o' <> src -> holds s o' i m p v -> bytes M' p (m_size (e_mixin E m)) = bytes M p (m_size (e_mixin E m))).
Proof. intros E U codes tr s o src a s' M M' SZ AM. exact (copy_bytes E U codes SZ AM tr s o src a s' M M'). Qed.
Print Assumptions C75_copy.
(** A mutation: what the object keeps has the same bytes, moved or not; new mixins are zero; no other object changes. *)
Theorem C75_mutation : forall E U codes tr s op o s' M M', sized_mixins E -> aligned_mixins E -> history E U tr s ->
  fair E s op -> mutates op = Some (o, false) -> op_run E U op s = (s', Ok tt) -> memory_step E codes s s' M M' ->
  (forall i j m p v, has_mixin s' o i m -> holds s o j m p v -> (forall k, ~ upds E op m k) -> external (e_mixin E m) = true \/ reads_source (codes m FMoveInit) = true ->
    exists p', holds s' o i m p' v /\ bytes M' p' (m_size (e_mixin E m)) = bytes M p (m_size (e_mixin E m))) /\
  (forall i m, has_mixin s' o i m -> ~ has_some s o m -> (forall k, ~ inits E s op m k) -> codes m FInit = CInit ->
    exists p v, holds s' o i m p v /\ bytes M' p (m_size (e_mixin E m)) = repeat 0%N (N.to_nat (m_size (e_mixin E m)))) /\
  (forall o' i m p v, o' <> o -> holds s o' i m p v -> bytes M' p (m_size (e_mixin E m)) = bytes M p (m_size (e_mixin E m))).
Proof. intros E U codes tr s op o s' M M' SZ AM. exact (mutation_bytes E U codes SZ AM tr s op o s' M M'). Qed.
Print Assumptions C75_mutation.
(** The common comparisons: the first different byte decides, equal means the same bytes, and it is a total order. *)
Theorem C75_compare : forall E M m p q, lex (bytes M p (m_size (e_mixin E m))) (bytes M q (m_size (e_mixin E m))) (common_cmp E M m p q) /\
  (common_eq E M m p q = true <-> bytes M p (m_size (e_mixin E m)) = bytes M q (m_size (e_mixin E m))) /\
  (common_eq E M m p q = true <-> common_cmp E M m p q = 0%Z) /\
  (Z.sgn (common_cmp E M m q p) = - Z.sgn (common_cmp E M m p q))%Z /\
  (forall r, common_cmp E M m p q <= 0 -> common_cmp E M m q r <= 0 -> common_cmp E M m p r <= 0)%Z.
Proof.
  intros E M m p q. pose proof (cmp_spec E M m p q) as L. split; [exact L|]. split; [exact (eq_spec E M m p q)|].
  split; [unfold common_eq, common_cmp; apply Z.eqb_eq|]. split; [exact (lex_swap _ _ _ L _ (cmp_spec E M m q p))|].
  intros r H1 H2. exact (lex_trans _ _ _ L H1 _ _ _ (cmp_spec E M m q r) H2 (cmp_spec E M m p r)).
Qed.
Print Assumptions C75_compare.

(** All mixins are plain bytes. Objects as in ExObj; the program writes to mixin 0 of object 1, and then copies the object. *)
Definition ob_codes (m : mptr) (f : fn) : code :=
  match f with FInit => CInit | FCopyInit | FCopyAsgn => CCopy | FMoveInit | FMoveAsgn => CMove | FDestroy => CDestroy | _ => COwn end.
Definition ob_act (e : ev) : act :=
  match e with EvCall _ m _ _ _ => let z := repeat 7%N (N.to_nat (m_size (e_mixin ob_env m))) in BEv e (z, z) | _ => BEv e ([], []) end.
Definition srcb (e : ev) : bool :=
  match e with EvCall f m p src _ => match src with Some q => negb (same_addr q p) | None => negb (reads_source (runs ob_codes m f)) end | _ => true end.
Lemma ob_acts_events l : events (map ob_act l) = l.
Proof. induction l as [|[a b z n|a b z n|f m p src err] l IH]; cbn; auto; now rewrite IH. Qed.
Lemma ob_acts_proper L l : forallb srcb l = true -> Forall (proper ob_env ob_codes L) (map ob_act l).
Proof.
  induction l as [|e l IH]; intros H; [constructor|]. cbn [forallb] in H. apply andb_true_iff in H. destruct H as [H1 H2]. cbn [map]. constructor; [|auto].
  destruct e as [a b z n|a b z n|f m p src err]; cbn [ob_act proper]; auto. cbn [fst snd]. rewrite repeat_length. split; auto. intros R. cbn [srcb] in H1. destruct src as [q|]; [|rewrite R in H1; discriminate H1].
  exists q. split; auto. intros ->. assert (X : same_addr p p = true) by now apply same_addr_true. rewrite X in H1. discriminate H1.
Qed.
Lemma ob_hands_off l : hands_off (map ob_act l).
Proof. intros a Ha. apply in_map_iff in Ha. destruct Ha as (e & <- & _). destruct e; exact Logic.I. Qed.
Definition ob_written (l : list ev) : list act := map ob_act l ++ [BWrite 0 (0, 40%N) [1; 2; 3; 4]%N].
Definition ob_mem (M : option mem) : mem := match M with Some M' => M' | None => fun _ _ => 0%N end.
Definition ob_before : mem := ob_mem (do_acts ob_env ob_codes (fun _ _ => 9%N) (ob_written (s_log (ob_st [] [])))).
Definition ob_copy_op : oop := OCopy false 9 1 7.
Definition ob_after : mem := ob_mem (do_acts ob_env ob_codes ob_before (map ob_act (ob_events [] [] ob_copy_op))).
Lemma ob_mem_some (M : option mem) : (if M then true else false) = true -> M = Some (ob_mem M).
Proof. now destruct M. Qed.
Lemma ob_step op : forallb srcb (s_log (ob_next [] [] op)) = true -> s_log (ob_next [] [] op) = s_log (ob_st [] []) ++ ob_events [] [] op ->
  (if do_acts ob_env ob_codes ob_before (map ob_act (ob_events [] [] op)) then true else false) = true ->
  memory_step ob_env ob_codes (ob_st [] []) (ob_next [] [] op) ob_before (ob_mem (do_acts ob_env ob_codes ob_before (map ob_act (ob_events [] [] op)))).
Proof.
  intros H L HM. apply ob_mem_some in HM. exists (fun _ _ => 9%N), (ob_written (s_log (ob_st [] []))), (map ob_act (ob_events [] [] op)).
  assert (HB : do_acts ob_env ob_codes (fun _ _ => 9%N) (ob_written (s_log (ob_st [] []))) = Some ob_before) by (apply ob_mem_some; vm_compute; reflexivity).
  split; [unfold ob_written; rewrite events_app, ob_acts_events; apply app_nil_r|]. split; [exact HB|]. split.
  - split; [|split].
    + unfold ob_written. rewrite !events_app, !ob_acts_events, app_nil_r. now rewrite L.
    + pose proof H as H'. rewrite L, forallb_app in H'. apply andb_true_iff in H'. destruct H' as [H1 H2]. unfold ob_written. apply Forall_app. split; [|now apply ob_acts_proper].
      apply Forall_app. split; [now apply ob_acts_proper|]. constructor; [|constructor]. split; [|reflexivity].
      exists (EvCall FInit 0 (0, 40%N) None 0). split; [rewrite L; apply in_or_app; left; vm_compute; tauto|split; auto].
    + rewrite do_acts_app, HB. exact HM.
  - apply ob_hands_off.
Qed.
Example C75_example : sized_mixins ob_env /\ aligned_mixins ob_env /\ history ob_env (ob_user []) (ob_trace [] []) (ob_st [] []) /\
  fair ob_env (ob_st [] []) ob_copy_op /\ op_run ob_env (ob_user []) ob_copy_op (ob_st [] []) = (ob_next [] [] ob_copy_op, Ok tt) /\
  memory_step ob_env ob_codes (ob_st [] []) (ob_next [] [] ob_copy_op) ob_before ob_after /\
  (exists i v, holds (ob_st [] []) 1 i 0 (0, 40%N) v) /\ bytes ob_before (0, 40%N) 4 = [1; 2; 3; 4]%N.
Proof.
  split; [exact ob_sized|]. split; [exact ob_aligned|]. split; [apply ob_history; vm_compute; reflexivity|]. split; [apply ob_fair; vm_compute; reflexivity|].
  split; [apply ob_run; vm_compute; reflexivity|]. split; [apply ob_step; [vm_compute; reflexivity|vm_compute; reflexivity|vm_compute; reflexivity]|].
  split; [|vm_compute; reflexivity].
  eexists 0, _; split; [eexists (TReg 0), _; split; [eexists; vm_compute; eauto|vm_compute; reflexivity]|split; vm_compute; reflexivity].
Qed.
(** The same for a new object and for a mutation that moves mixin 0, keeps the external mixin 1, and adds mixin 5 *)
Example C75_example2 : forall op, In op [ONew false 9 (TReg 0) 7 true; OReset false 1 (TReg 1)] -> let s := ob_st [] [] in let s' := ob_next [] [] op in
  fair ob_env s op /\ op_run ob_env (ob_user []) op s = (s', Ok tt) /\ memory_step ob_env ob_codes s s' ob_before (ob_mem (do_acts ob_env ob_codes ob_before (map ob_act (ob_events [] [] op)))).
Proof.
  intros op H. cbn [In] in H. repeat (destruct H as [<-|H]; [cbv zeta; split; [apply ob_fair; vm_compute; reflexivity|split; [apply ob_run; vm_compute; reflexivity|apply ob_step; vm_compute; reflexivity]]|]). destruct H.
Qed.
Example C75_example3 : let op := OReset false 1 (TReg 1) in let M' := ob_mem (do_acts ob_env ob_codes ob_before (map ob_act (ob_events [] [] op))) in
  (forall k, ~ upds ob_env op 0 k) /\ reads_source (ob_codes 0 FMoveInit) = true /\ bytes M' (10, 72%N) 4 = [1; 2; 3; 4]%N /\ bytes M' (10, 56%N) 8 = repeat 0%N 8 /\
  bytes ob_before (10, 56%N) 8 = repeat 9%N 8 /\ bytes M' (0, 40%N) 4 = repeat 254%N 4.
Proof. cbv zeta. split; [intros k H; exact H|]. repeat split; vm_compute; reflexivity. Qed.

(** If a mixin with a common copy or move function is its own source, memcpy is called with overlapping bytes: nothing is
    defined any more. *)
Theorem C75_self : forall E codes M acts f m p err, In (EvCall f m p (Some p) err) (events acts) -> reads_source (runs codes m f) = true -> m_size (e_mixin E m) <> 0%N ->
  do_acts E codes M acts = None.
Proof. intros E codes M acts f m p err. exact (self_undefined E codes acts M f m p err). Qed.
Print Assumptions C75_self.
(** And the library does that when an object is copied to itself: neither copy_from nor copy_matching_from looks whether
    it is the same object. *)
Theorem C75_self_refuted : exists E U codes tr s, sized_mixins E /\ aligned_mixins E /\ history E U tr s /\
  forall op, In op [OCopyFrom false 1 1; OCopyMatching 1 1] -> exists s', fair E s op /\ op_run E U op s = (s', Ok tt) /\
    forall M acts, events acts = s_log s' -> do_acts E codes M acts = None.
Proof.
  exists ob_env, (ob_user []), ob_codes, (ob_trace [] []), (ob_st [] []). split; [exact ob_sized|]. split; [exact ob_aligned|]. split; [apply ob_history; vm_compute; reflexivity|].
  intros op H. exists (ob_next [] [] op).
  assert (K : fair ob_env (ob_st [] []) op /\ op_run ob_env (ob_user []) op (ob_st [] []) = (ob_next [] [] op, Ok tt) /\ In (EvCall FCopyAsgn 0 (0, 40%N) (Some (0, 40%N)) 0) (s_log (ob_next [] [] op))).
  { cbn [In] in H. destruct H as [<-|[<-|[]]]; (split; [apply ob_fair; vm_compute; reflexivity|split; [apply ob_run; vm_compute; reflexivity|vm_compute; tauto]]). }
  destruct K as (K1 & K2 & K3). split; [exact K1|]. split; [exact K2|]. intros M acts He. rewrite <- He in K3. refine (self_undefined _ _ _ _ _ _ _ _ K3 _ _); [reflexivity|discriminate].
Qed.
Print Assumptions C75_self_refuted.
