(** Properties of the places of mixins in memory *)
From Coq Require Import List Arith ZArith NArith Lia Bool.
From Verif Require Import Base Sv Info MixinInfo TypeBuild TypeQuery Domain SpecLayout Heap Mutation Object SpecObj SpecMut SpecLog SpecAct SpecPlace PlaceProofs4 ObjTheorems4 ExEnv ExObj PropsObj.
Import ListNotations.

Lemma ob_sized : sized_mixins ob_env.
Proof.
  intros m d. subst d. cbn [ob_env e_mixin]. do 7 (destruct m as [|m]; [split; reflexivity|]). split; reflexivity.
Qed.

(** C74. Whatever pointer is given to a function of a mixin, as target or as source, at that moment the block it points
    into is allocated, and the mixin and the object pointer before it are in the block and aligned. *)
Theorem C74_in_bounds : forall E U tr s l1 e l2 m p, sized_mixins E -> aligned_mixins E -> history E U tr s ->
  s_log s = l1 ++ e :: l2 -> touches e m p ->
  exists size align, allocated l1 (fst p) size align /\ well_placed E size align m (snd p).
Proof. intros E U tr s l1 e l2 m p SZ AM. exact (c74_in_bounds E U SZ AM tr s l1 e l2 m p). Qed.
Print Assumptions C74_in_bounds.
(** Two such pointers into one block, at whatever times, are the same place of the same mixin or have no byte in common. *)
Theorem C74_apart : forall E U tr s e e' m m' b off off', sized_mixins E -> aligned_mixins E -> history E U tr s ->
  In e (s_log s) -> In e' (s_log s) -> touches e m (b, off) -> touches e' m' (b, off') ->
  (m = m' /\ off = off') \/ places_apart E m off m' off'.
Proof. intros E U tr s e e' m m' b off off' SZ AM. exact (c74_apart E U SZ AM tr s e e' m m' b off off'). Qed.
Print Assumptions C74_apart.
(** Nothing of that is in the array of mixin data with which the buffer of an object begins (16 bytes per mixin). *)
Theorem C74_array : forall E U tr s o x b r t e m off, sized_mixins E -> aligned_mixins E -> history E U tr s ->
  s_obj s o = Some x -> o_data x = Some b -> type_of s o r t -> In e (s_log s) -> touches e m (b, off) ->
  (16 * N.of_nat (length (t_mixins t)) <= off - 8)%N.
Proof. intros E U tr s o x b r t e m off SZ AM. exact (c74_array E U SZ AM tr s o x b r t e m off). Qed.
Print Assumptions C74_array.
(** What get gives: the mixins of all objects are in allocated memory, aligned, and apart from each other. *)
Theorem C74_objects : forall E U tr s o i m p v, sized_mixins E -> aligned_mixins E -> history E U tr s -> holds s o i m p v ->
  (exists a size align, allocation s (fst p) = Some (a, size, align) /\ well_placed E size align m (snd p)) /\
  forall o' i' m' p' v', holds s o' i' m' p' v' -> (o', i') <> (o, i) -> fst p' <> fst p \/ places_apart E m (snd p) m' (snd p').
Proof. intros E U tr s o i m p v SZ AM. exact (c74_objects E U SZ AM tr s o i m p v). Qed.
Print Assumptions C74_objects.
(** The object pointers that were written belong to a place in the block and are not in the bytes of any mixin. *)
Theorem C74_pointers : forall E U tr s p o, sized_mixins E -> aligned_mixins E -> history E U tr s -> object_of s p = Some o ->
  exists m a size align, allocation s (fst p) = Some (a, size, align) /\ well_placed E size align m (snd p) /\
    forall o' i m' p' v, holds s o' i m' p' v -> fst p' = fst p -> (p' = p /\ m' = m) \/ places_apart E m (snd p) m' (snd p').
Proof. intros E U tr s p o SZ AM. exact (c74_pointers E U SZ AM tr s p o). Qed.
Print Assumptions C74_pointers.

(** Object 3 has the external mixin 1 in block 5 and the mixins 5 and 0 in its buffer, block 4; object 6 is a copy of 1. *)
Example C74_example : let s := ob_st [] [] in sized_mixins ob_env /\ aligned_mixins ob_env /\ history ob_env (ob_user []) (ob_trace [] []) s /\
  (exists l1 l2, s_log s = l1 ++ EvCall FCopyInit 0 (8, 40%N) (Some (0, 40%N)) 0 :: l2 /\ touches (EvCall FCopyInit 0 (8, 40%N) (Some (0, 40%N)) 0) 0 (0, 40%N)) /\
  In (EvCall FInit 5 (4, 56%N) None 0) (s_log s) /\ In (EvCall FInit 0 (4, 72%N) None 0) (s_log s) /\ places_apart ob_env 5 56 0 72 /\
  (exists v, holds s 3 1 5 (4, 56%N) v) /\ (exists v, holds s 3 2 0 (4, 72%N) v) /\ object_of s (5, 8%N) = Some 3 /\
  allocation s 4 = Some (AObj 7, 76%N, 8%N) /\ (exists x r t, s_obj s 3 = Some x /\ o_data x = Some 4 /\ type_of s 3 r t /\ length (t_mixins t) = 3).
Proof.
  split; [exact ob_sized|]. split; [exact ob_aligned|]. split; [apply ob_history; vm_compute; reflexivity|].
  split; [exists (firstn 20 (s_log (ob_st [] []))), (skipn 21 (s_log (ob_st [] []))); split; [vm_compute; reflexivity|cbn; auto]|].
  split; [vm_compute; tauto|]. split; [vm_compute; tauto|]. split; [left; vm_compute; discriminate|].
  split; [eexists; split; [eexists (TReg 1), _; split; [eexists; vm_compute; eauto|vm_compute; reflexivity]|split; vm_compute; reflexivity]|].
  split; [eexists; split; [eexists (TReg 1), _; split; [eexists; vm_compute; eauto|vm_compute; reflexivity]|split; vm_compute; reflexivity]|].
  split; [vm_compute; reflexivity|]. split; [vm_compute; reflexivity|].
  eexists _, (TReg 1), _. split; [vm_compute; reflexivity|]. split; [vm_compute; reflexivity|]. split; [eexists; vm_compute; eauto|vm_compute; reflexivity].
Qed.
(** The mixin 6 has no data: size and alignment 0. In an object with the mixins 3 and 6 it is after the one byte of 3 and the padding, at the end of the buffer. *)
Definition ex_void : list oop := [ODom (DRegMixin 0 6); ODom (DGetType 0 [3; 6] true); ONew false 7 (TReg 5) 7 false].
Example C74_example_void : let s := ob_st [] ex_void in history ob_env (ob_user []) (ob_trace [] ex_void) s /\ (m_size (e_mixin ob_env 6), m_align (e_mixin ob_env 6)) = (0, 0)%N /\
  (exists v, holds s 7 0 3 (10, 40%N) v) /\ (exists v, holds s 7 1 6 (10, 56%N) v) /\ allocation s 10 = Some (AObj 7, 56%N, 8%N) /\ well_placed ob_env 56 8 6 56.
Proof.
  split; [apply ob_history; vm_compute; reflexivity|]. split; [reflexivity|].
  split; [eexists; split; [eexists (TReg 5), _; split; [eexists; vm_compute; eauto|vm_compute; reflexivity]|split; vm_compute; reflexivity]|].
  split; [eexists; split; [eexists (TReg 5), _; split; [eexists; vm_compute; eauto|vm_compute; reflexivity]|split; vm_compute; reflexivity]|].
  split; [vm_compute; reflexivity|]. split; [vm_compute; discriminate|]. split; [vm_compute; discriminate|].
  intros base [k ->]. split; [now left|]. exists (k + 6)%N. lia.
Qed.
