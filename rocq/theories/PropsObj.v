(** Properties of objects. [history E U tr s]: state [s] is reached from the initial state by the calls [tr] of a program
    that respects the contracts ([fair]), for the mixins of [E] and for whatever the functions and allocators of the
    program [U] do and wherever they fail. *)
From Coq Require Import List Arith ZArith NArith Lia Bool.
From Verif Require Import Base Sv Info TypeBuild TypeQuery Domain SpecReg SpecDom SpecOrd SpecLayout SpecList Heap Mutation Object SpecObj SpecMut SpecLog SpecAct
  ObjTheorems ObjTheorems2 ObjTheorems3 ObjTheorems4 ObjTheorems5 ObjTheorems6 ObjTheorems7 ObjTheorems8 ObjTheorems9 ObjTheorems10 ExEnv ExObj.
Import ListNotations.

(** C31. *)
Theorem C31_traits : forall E t,
  (default_constructible E t = true <-> forall m, In m (t_mixins t) -> m_init (e_mixin E m) = true) /\
  (copy_constructible E t = true <-> forall m, In m (t_mixins t) -> m_copy_init (e_mixin E m) = true) /\
  (copy_assignable E t = true <-> forall m, In m (t_mixins t) -> m_copy_asgn (e_mixin E m) = true) /\
  (equality_comparable E t = true <-> forall m, In m (t_mixins t) -> m_equals (e_mixin E m) = true \/ m_compare (e_mixin E m) = true) /\
  (comparable E t = true <-> forall m, In m (t_mixins t) -> m_compare (e_mixin E m) = true).
Proof. exact traits. Qed.
Print Assumptions C31_traits.
(** An object can be created if the trait holds, unless a function or an allocation fails, and never if it does not. *)
Theorem C31_create : forall E U tr s o r a sl s' res t, aligned_mixins E -> history E U tr s ->
  fair E s (ONew false o r a sl) -> w_type (s_w s) r = Some t -> op_run E U (ONew false o r a sl) s = (s', res) ->
  (default_constructible E t = false -> exists e, res = Throw e) /\
  (default_constructible E t = true -> res = Ok tt \/
     exists e l, res = Throw e /\ did s s' l /\ blames U False s s' l e /\ ((exists err, e = EUserFunc err) \/ e = EBadAlloc)).
Proof. intros E U tr s o r a sl s' res t A H. by_history A H. exact (create_trait E U A s o r a sl s' res t I T). Qed.
Print Assumptions C31_create.
Theorem C31_copy : forall E U tr s o src a s' res r t, aligned_mixins E -> history E U tr s ->
  fair E s (OCopy false o src a) -> type_of s src r t -> op_run E U (OCopy false o src a) s = (s', res) ->
  (copy_constructible E t = false -> exists e, res = Throw e) /\
  (copy_constructible E t = true -> res = Ok tt \/
     exists e l, res = Throw e /\ did s s' l /\ blames U False s s' l e /\ ((exists err, e = EUserFunc err) \/ e = EBadAlloc)).
Proof. intros E U tr s o src a s' res r t A H. by_history A H. exact (copied_trait E U A s o src a s' res r t I T). Qed.
Print Assumptions C31_copy.
Theorem C31_assign : forall E U tr s o src unw s' res r t t0, aligned_mixins E -> history E U tr s ->
  fair E s (OCopyFrom unw o src) -> type_of s src r t -> type_of s o r t0 -> op_run E U (OCopyFrom unw o src) s = (s', res) ->
  copy_assignable E t = true -> res <> Throw EMissingFunc.
Proof. intros E U tr s o src unw s' res r t t0 A H. by_history A H. exact (from_trait E U A s o src unw s' res r t t0 I T). Qed.
Print Assumptions C31_assign.
Theorem C31_compare : forall E U tr s o o' r t t', aligned_mixins E -> history E U tr s -> type_of s o r t -> type_of s o' r t' -> comparable E t = true ->
  exists z, compare E U s o o' = Ok z.
Proof. intros E U tr s o o' r t t' A H. by_history A H. exact (compare_trait E U s o o' r t t' I T). Qed.
Print Assumptions C31_compare.
Definition ob_type (s : st) (r : tref) : type_rec := match w_type (s_w s) r with Some t => t | None => empty_type 0 end.
(** Type 0 can be created, but an allocation or a function may fail; type 2 cannot; objects of type 4 cannot be copied,
    those of type 0 can. *)
Example C31_example : forall bad, In bad [[]; [22]; [25]] -> history ob_env (ob_user bad) (ob_trace bad []) (ob_st bad []) /\
  fair ob_env (ob_st bad []) (ONew false 9 (TReg 0) 7 false) /\ fair ob_env (ob_st bad []) (ONew false 9 (TReg 2) 7 false) /\
  fair ob_env (ob_st bad []) (OCopy false 9 4 7) /\ fair ob_env (ob_st bad []) (OCopyFrom false 1 2).
Proof.
  intros bad Hb. assert (Hf : ob_fine bad [] = true) by (destruct Hb as [<-|[<-|[<-|[]]]]; vm_compute; reflexivity). split; [now apply ob_history|].
  repeat match goal with |- fair _ _ _ /\ _ => split end; apply ob_fair; auto; destruct Hb as [<-|[<-|[<-|[]]]]; vm_compute; reflexivity.
Qed.
Example C31_results : default_constructible ob_env (ob_type (ob_st [] []) (TReg 0)) = true /\ default_constructible ob_env (ob_type (ob_st [] []) (TReg 2)) = false /\
  map (fun bad => snd (op_run ob_env (ob_user bad) (ONew false 9 (TReg 0) 7 false) (ob_st bad []))) [[]; [22]; [25]] = [Ok tt; Throw EBadAlloc; Throw (EUserFunc 7)] /\
  snd (op_run ob_env (ob_user []) (ONew false 9 (TReg 2) 7 false) (ob_st [] [])) = Throw EMissingFunc /\
  snd (op_run ob_env (ob_user []) (OCopy false 9 4 7) (ob_st [] [])) = Throw EMissingFunc /\
  snd (op_run ob_env (ob_user []) (OCopyFrom false 1 2) (ob_st [] [])) = Ok tt /\ compare ob_env (ob_user []) (ob_st [] []) 1 2 = Ok (-4)%Z.
Proof. vm_compute. auto 10. Qed.

(** C33. The events of any program are a legal sequence, also if it breaks the contracts but for undefined behaviour. *)
Theorem C33_legal : forall E U ok tr s, orun E U ok tr s ->
  exists v, legal E (s_log s) v /\ (forall b, v_blk v b = allocation s b) /\ (forall p, v_inst v p = option_map i_mixin (instance s p)).
Proof. exact c33_legal. Qed.
Print Assumptions C33_legal.
(** The living mixins are those of the objects. *)
Theorem C33_held : forall E U tr s m p v, aligned_mixins E -> history E U tr s -> m_destroy (e_mixin E m) = true ->
  (instance s p = Some {| i_mixin := m; i_val := v |} <-> exists o i, holds s o i m p v).
Proof. intros E U tr s m p v A. exact (c33_held E U A tr s m p v). Qed.
Print Assumptions C33_held.
(** At each address a mixin was destroyed as often as it was constructed, or once less if an object has it there. *)
Theorem C33_counts : forall E U tr s m p, aligned_mixins E -> history E U tr s -> m_destroy (e_mixin E m) = true ->
  times (is_birth m p) (s_log s) = times (is_death m p) (s_log s) \/
  times (is_birth m p) (s_log s) = S (times (is_death m p) (s_log s)) /\ exists o i v, holds s o i m p v.
Proof. intros E U tr s m p A. exact (c33_counts E U A tr s m p). Qed.
Print Assumptions C33_counts.
Theorem C33_end : forall E U tr s, aligned_mixins E -> history E U tr s -> (forall o, ~ is_nonempty s o) ->
  forall m p, m_destroy (e_mixin E m) = true -> times (is_birth m p) (s_log s) = times (is_death m p) (s_log s).
Proof. intros E U tr s A. exact (c33_end E U A tr s). Qed.
Print Assumptions C33_end.
(** A program in which the 23rd call fails: mixin 5 is not constructed, and later all objects are destroyed. *)
Definition ob_end : list oop := [OReset false 1 (TReg 1); OMutate false true 2 [MRemove 1; MAdd 5]; ODtor 1; ODtor 2; ODtor 3; ODtor 4; ODtor 5; ODtor 6].
Example C33_example : history ob_env (ob_user [23]) (ob_trace [23] ob_end) (ob_st [23] ob_end) /\ (forall o, ~ is_nonempty (ob_st [23] ob_end) o) /\
  map snd (ob_trace [23] ob_end) = repeat (Ok tt) 17 ++ [Throw (EUserFunc 7)] ++ repeat (Ok tt) 7 /\
  times (is_birth 0 (0, 40%N)) (s_log (ob_st [23] ob_end)) = 1 /\ times (is_birth 5 (10, 56%N)) (s_log (ob_st [23] ob_end)) = 0 /\ times (is_birth 5 (11, 56%N)) (s_log (ob_st [23] ob_end)) = 1.
Proof.
  split; [apply ob_history; vm_compute; reflexivity|]. split; [|vm_compute; auto].
  intros o (x & Hx & _). do 7 (destruct o as [|o]; [vm_compute in Hx; discriminate|]). vm_compute in Hx. discriminate.
Qed.

(** C34. *)
Theorem C34_counts : forall E U tr s b, aligned_mixins E -> history E U tr s ->
  times (is_alloc b) (s_log s) = times (is_free b) (s_log s) /\ allocation s b = None \/
  times (is_alloc b) (s_log s) = S (times (is_free b) (s_log s)) /\ exists o, owns E s o b /\ forall o', owns E s o' b -> o' = o.
Proof. intros E U tr s b A. exact (c34_counts E U A tr s b). Qed.
Print Assumptions C34_counts.
(** What is freed was allocated before, with the same allocator, size and alignment, and not freed since. *)
Theorem C34_matching : forall E U ok tr s l1 a b sz al l2, orun E U ok tr s -> s_log s = l1 ++ EvFree a b sz al :: l2 ->
  exists l0 l3, l1 = l0 ++ EvAlloc a b sz al :: l3 /\ times (is_free b) l3 = 0.
Proof. exact c34_matching. Qed.
Print Assumptions C34_matching.
Theorem C34_end : forall E U tr s, aligned_mixins E -> history E U tr s -> (forall o, ~ is_nonempty s o) ->
  forall b, times (is_alloc b) (s_log s) = times (is_free b) (s_log s) /\ allocation s b = None.
Proof. intros E U tr s A. exact (c34_end E U A tr s). Qed.
Print Assumptions C34_end.
(** The block of an object is as large as its type says; external mixins have blocks of their own. *)
Theorem C34_sizes : forall E U tr s o x b r t, aligned_mixins E -> history E U tr s -> s_obj s o = Some x -> o_data x = Some b -> type_of s o r t ->
  allocation s b = Some (AObj (o_alloc x), t_buf_size t, t_buf_align t) /\
  forall i m d c, has_mixin s o i m -> data_slot s b i = Some d -> md_buf d = Some c -> external (e_mixin E m) = true /\
    allocation s c = Some (match m_allocator (e_mixin E m) with Some n => AMix n | None => AObj (o_alloc x) end, m_buf_size (e_mixin E m), m_buf_off (e_mixin E m)).
Proof. intros E U tr s o x b r t A. exact (c34_sizes E U A tr s o x b r t). Qed.
Print Assumptions C34_sizes.
(** The program of C33: block 10 was allocated for the mutation that failed. *)
Example C34_example : let s := ob_st [23] ob_end in history ob_env (ob_user [23]) (ob_trace [23] ob_end) s /\
  map (fun b => (times (is_alloc b) (s_log s), times (is_free b) (s_log s))) (seq 0 12) = repeat (1, 1) 12 /\
  allocation (ob_st [] []) 3 = Some (AMix 3, 32%N, 8%N) /\ allocation (ob_st [] []) 2 = Some (AObj 8, 44%N, 8%N).
Proof. split; [apply ob_history; vm_compute; reflexivity|]. vm_compute. auto. Qed.

(** C35. Nothing at all changes, unless the caller gave functions that update common mixins ([upds]). *)
Theorem C35_failed : forall E U tr s op o unw s' e, aligned_mixins E -> history E U tr s -> fair E s op -> mutates op = Some (o, unw) ->
  (forall m k, ~ upds E op m k) -> op_run E U op s = (s', Throw e) ->
  unchanged s s' /\ types_kept s s' /\ (forall o' i m p v, holds s' o' i m p v <-> holds s o' i m p v).
Proof. intros E U tr s op o unw s' e A H. by_history A H. exact (mutation_throw E U A s op o unw s' e I T). Qed.
Print Assumptions C35_failed.
(** The creation of mixin 5 fails. *)
Example C35_example : let s := ob_st [23] [] in history ob_env (ob_user [23]) (ob_trace [23] []) s /\ fair ob_env s (OReset false 1 (TReg 1)) /\
  op_run ob_env (ob_user [23]) (OReset false 1 (TReg 1)) s = (ob_next [23] [] (OReset false 1 (TReg 1)), Throw (EUserFunc 7)) /\
  ob_events [23] [] (OReset false 1 (TReg 1)) = [EvAlloc (AObj 7) 10 76 8; EvCall FInit 5 (10, 56%N) None 7; EvFree (AObj 7) 10 76 8].
Proof. split; [apply ob_history; vm_compute; reflexivity|]. split; [apply ob_fair; vm_compute; reflexivity|]. split; [apply ob_run; vm_compute; reflexivity|]. vm_compute. reflexivity. Qed.

(** C36. Mixins that the object had and still has; the caller gave no functions to update them. *)
Theorem C36_keeps : forall E U tr s op o s', aligned_mixins E -> history E U tr s -> fair E s op -> mutates op = Some (o, false) -> op_run E U op s = (s', Ok tt) ->
  exists l, did s s' l /\ forall i j m p v, has_mixin s' o i m -> holds s o j m p v -> (forall k, ~ upds E op m k) -> exists p', holds s' o i m p' v /\
    ((external (e_mixin E m) = true \/ otype s' o = otype s o) /\ p' = p /\ calls m l = [] \/
     external (e_mixin E m) = false /\ otype s' o <> otype s o /\ allocation s (fst p') = None /\ allocation s' (fst p) = None /\
       calls m l = EvCall FMoveInit m p' (Some p) 0%Z :: destruction E m p).
Proof. intros E U tr s op o s' A H. by_history A H. exact (mutation_keeps E U A s op o s' I T). Qed.
Print Assumptions C36_keeps.

(** C37. *)
Theorem C37_target : forall E U tr s op o s', aligned_mixins E -> history E U tr s -> fair E s op -> mutates op = Some (o, false) -> op_run E U op s = (s', Ok tt) ->
  exists r t, wanted E s op r t /\ otype s' o = Some r /\
    (forall i m, nth_error (t_mixins t) i = Some m -> exists p v, holds s' o i m p v /\ get s' o (w_mid (s_w s') m) = Ok (Some p)) /\
    (forall i m p v, holds s' o i m p v -> nth_error (t_mixins t) i = Some m) /\
    (forall id, (forall m, In m (t_mixins t) -> w_mid (s_w s') m <> id) -> get s' o id = Ok None).
Proof. intros E U tr s op o s' A H. by_history A H. exact (mutation_has E U A s op o s' I T). Qed.
Print Assumptions C37_target.
Theorem C37_changes : forall E U tr s op o s', aligned_mixins E -> history E U tr s -> fair E s op -> mutates op = Some (o, false) -> op_run E U op s = (s', Ok tt) ->
  exists l, did s s' l /\
    (forall i m, has_mixin s' o i m -> ~ has_some s o m -> exists p v f, holds s' o i m p v /\ allocation s (fst p) = None /\
       calls m l = [EvCall f m p None 0%Z] /\ made_with E (inits E s op) i m f None) /\
    (forall j m p v, holds s o j m p v -> ~ has_some s' o m -> calls m l = destruction E m p /\ allocation s' (fst p) = None) /\
    (forall m, ~ has_some s o m -> ~ has_some s' o m -> calls m l = []).
Proof. intros E U tr s op o s' A H. by_history A H. exact (mutation_changes E U A s op o s' I T). Qed.
Print Assumptions C37_changes.
(** Object 1 has mixins 0 and 1. Mixin 1 is removed, 5 and 3 are added. *)
Definition ob_mut : oop := OMutate false true 1 [MRemove 1; MAddInit 9 5; MAddName [100]%N].
Example C36_C37_example : let s := ob_st [] [] in history ob_env (ob_user []) (ob_trace [] []) s /\ fair ob_env s ob_mut /\ mutates ob_mut = Some (1, false) /\
  op_run ob_env (ob_user []) ob_mut s = (ob_next [] [] ob_mut, Ok tt) /\
  ob_values s 1 = [(0, (0, 40%N), 2%Z); (1, (1, 8%N), 3%Z)] /\ ob_values (ob_next [] [] ob_mut) 1 = [(0, (10, 56%N), 2%Z); (5, (10, 72%N), 23%Z); (3, (10, 88%N), 24%Z)] /\
  ob_events [] [] ob_mut = [EvAlloc (AObj 7) 10 89 8; EvCall (FOverride 9) 5 (10, 72%N) None 0; EvCall FInit 3 (10, 88%N) None 0; EvCall FMoveInit 0 (10, 56%N) (Some (0, 40%N)) 0;
    EvCall FDestroy 0 (0, 40%N) None 0; EvCall FDestroy 1 (1, 8%N) None 0; EvFree (AMix 3) 1 32 8; EvFree (AObj 7) 0 44 8].
Proof.
  split; [apply ob_history; vm_compute; reflexivity|]. split; [apply ob_fair; vm_compute; reflexivity|]. split; [reflexivity|].
  split; [apply ob_run; vm_compute; reflexivity|]. vm_compute. auto.
Qed.

(** C38. *)
Theorem C38_object_of : forall E U tr s o i m p v, aligned_mixins E -> history E U tr s -> holds s o i m p v -> object_of s p = Some o.
Proof. intros E U tr s o i m p v A H. by_history A H. exact (back_pointer E A s o i m p v I T). Qed.
Print Assumptions C38_object_of.
(** No two mixins are at the same address. *)
Theorem C38_one_owner : forall E U tr s o i m p v o' i' m' v', aligned_mixins E -> history E U tr s -> holds s o i m p v -> holds s o' i' m' p v' ->
  o' = o /\ i' = i /\ m' = m /\ v' = v.
Proof. intros E U tr s o i m p v o' i' m' v' A H. by_history A H. exact (one_owner E A s o i m p v o' i' m' v' I T). Qed.
Print Assumptions C38_one_owner.
(** Mixin 1 of object 3 is now one of object 9. *)
Example C38_example : let s := ob_st [] [OMoved 9 3; ob_mut] in history ob_env (ob_user []) (ob_trace [] [OMoved 9 3; ob_mut]) s /\
  holds s 9 0 1 (5, 8%N) 10 /\ object_of s (5, 8%N) = Some 9 /\ object_of (ob_st [] []) (5, 8%N) = Some 3 /\ object_of s (10, 56%N) = Some 1.
Proof.
  split; [apply ob_history; vm_compute; reflexivity|]. split; [|vm_compute; auto].
  split; [|split; vm_compute; reflexivity]. exists (TReg 1). eexists. split; [eexists; split; [vm_compute; reflexivity|]; split; vm_compute; reflexivity|reflexivity].
Qed.

(** C39. Move construction always succeeds and calls nothing. *)
Theorem C39_construct : forall E U tr s o src s' res, aligned_mixins E -> history E U tr s -> fair E s (OMoved o src) -> op_run E U (OMoved o src) s = (s', res) ->
  res = Ok tt /\ took E s s' o src /\ did s s' [].
Proof. intros E U tr s o src s' res A H. by_history A H. exact (moved_spec E U A s o src s' res I T). Qed.
Print Assumptions C39_construct.
Theorem C39_assign : forall E U tr s o src s' res, aligned_mixins E -> history E U tr s -> fair E s (OMoveAssign o src) -> op_run E U (OMoveAssign o src) s = (s', res) ->
  match res with
  | Ok _ => o = src /\ s' = s \/ o <> src /\ ~ sealed s o /\ took E s s' o src /\ exists l, did s s' l /\ only_destroys E s o l
  | Throw e => s' = s /\ o <> src /\
      match e with ESealed => sealed s o | EMismatchedAllocators => exists x y, s_obj s o = Some x /\ s_obj s src = Some y /\ o_alloc x <> o_alloc y | _ => False end
  | Ub _ => False
  end.
Proof. intros E U tr s o src s' res A H. by_history A H. exact (move_spec E U A s o src s' res I T). Qed.
Print Assumptions C39_assign.
Example C39_example : let s := ob_st [] [] in history ob_env (ob_user []) (ob_trace [] []) s /\ fair ob_env s (OMoved 9 3) /\ fair ob_env s (OMoveAssign 1 4) /\ fair ob_env s (OMoveAssign 1 2) /\
  snd (op_run ob_env (ob_user []) (OMoveAssign 1 4) s) = Ok tt /\ ob_values (ob_next [] [] (OMoveAssign 1 4)) 1 = ob_values s 4 /\ length (ob_values s 4) = 3 /\
  snd (op_run ob_env (ob_user []) (OMoveAssign 1 2) s) = Throw EMismatchedAllocators.
Proof. split; [apply ob_history; vm_compute; reflexivity|]. do 3 (split; [apply ob_fair; vm_compute; reflexivity|]). vm_compute. auto. Qed.

(** C40. *)
Theorem C40_sealed : forall E U tr s op o s' res, aligned_mixins E -> history E U tr s -> fair E s op -> retypes op = Some o -> sealed s o -> op_run E U op s = (s', res) ->
  unchanged s s' /\ types_kept s s' /\ did s s' [] /\ (res = Ok tt -> nothing_to_do E s op).
Proof. intros E U tr s op o s' res A H. by_history A H. intros F R S Hr. destruct (sealed_spec E U A s op o s' res I T F R S Hr) as ((H1 & H2 & H3) & H4). auto. Qed.
Print Assumptions C40_sealed.
(** Object 3 is sealed and has type 1. *)
Example C40_example : let s := ob_st [] [] in history ob_env (ob_user []) (ob_trace [] []) s /\ sealed s 3 /\
  forall op r, In (op, r) [(OClear 3, Throw ESealed); (OReset false 3 (TReg 0), Throw ESealed); (OReset false 3 (TReg 1), Throw ESealed); (OMutateTo false 3 (TReg 0) [MSimple], Throw ESealed);
      (OMutateTo false 3 (TReg 1) [MSimple], Ok tt); (OMutate false true 3 [MRemove 5], Throw ESealed); (OCopyFrom false 3 1, Throw ESealed); (OMoveAssign 3 1, Throw ESealed)] ->
    fair ob_env s op /\ retypes op = Some 3 /\ snd (op_run ob_env (ob_user []) op s) = r.
Proof.
  split; [apply ob_history; vm_compute; reflexivity|]. split; [eexists; split; vm_compute; reflexivity|].
  intros op r H. cbn [In] in H. repeat (destruct H as [H|H]; [injection H as <- <-; split; [apply ob_fair; vm_compute; reflexivity|split; [reflexivity|vm_compute; reflexivity]]|]). destruct H.
Qed.
