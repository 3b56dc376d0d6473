(** Theorems C79: memory of the default resource *)
From Coq Require Import List NArith ZArith Lia Bool.
From Verif Require Import Base Sv Info TypeBuild TypeQuery Domain SpecReg SpecDom SpecLayout ExEnv ExFirst ExKept TypeTheorems Resource ResourceProofs PropsDom PropsMsg PropsType.
Import ListNotations.
Local Open Scope N_scope.

(** C79. [libc] is any aligned_alloc that gives aligned blocks. *)
Theorem C79_allocate : forall bytes a, 0 < a -> bytes + a < 4294967296 ->
  (exists s, resource_size bytes a = Ok s /\ bytes <= s < bytes + a /\ (a | s)) /\
  forall libc, (forall al n q, libc al n = Some q -> (al | q)) ->
    (exists p s, resource_allocate libc bytes a = Ok (p, s) /\ (a | p) /\ bytes <= s) \/ resource_allocate libc bytes a = Throw EBadAlloc.
Proof.
  intros bytes a A B. destruct (resource_enough bytes a A B) as (s & R & S & D). split; [eauto|].
  intros libc L. unfold resource_allocate. rewrite R. cbn [bind]. destruct (libc a s) as [q|] eqn:Q; [left|now right].
  exists q, s. split; [reflexivity|]. split; [eauto|lia].
Qed.
Print Assumptions C79_allocate.
(** Every mixin of an object lies in the memory that the resource gave. *)
Theorem C79_object : forall E w d r t libc p s, reachable E w -> aligned_mixins E -> has_type w d r t -> space E (t_mixins t) < 4294967296 ->
  0 < t_buf_align t -> t_buf_size t + t_buf_align t < 4294967296 -> (forall al n q, libc al n = Some q -> (al | q)) ->
  resource_allocate libc (t_buf_size t) (t_buf_align t) = Ok (p, s) ->
  forall i m o, nth_error (t_mixins t) i = Some m -> nth_error (t_offsets t) i = Some o -> external (e_mixin E m) = false ->
    aligned_to (m_align (e_mixin E m)) (p + o) /\ p + o + m_size (e_mixin E m) <= p + s.
Proof.
  intros E w d r t libc p s R A HT SP A0 B L H i m o Hi Ho X.
  destruct (resource_gives libc _ _ p s A0 B L H) as (D & S).
  destruct (c21 E w d r t R A HT SP) as (_ & _ & G & _). destruct (G i m o Hi Ho) as (_ & G2). destruct (G2 X) as (_ & G3 & _ & _ & G4).
  destruct (G3 p D) as (G5 & _). split; [exact G5|lia].
Qed.
Print Assumptions C79_object.
Example C79_example : reachable ex_env ex_mw /\ aligned_mixins ex_env /\ has_type ex_mw 0 (TReg 0) (ex_type ex_mw (TReg 0)) /\
  let t := ex_type ex_mw (TReg 0) in (t_buf_size t, t_buf_align t, space ex_env (t_mixins t)) = (96, 16, 116) /\
  resource_allocate (fun al n => Some (al * 1000)) (t_buf_size t) (t_buf_align t) = Ok (16000, 96) /\ resource_size 33 32 = Ok 64.
Proof. split; [exact ex_mreach|]. split; [exact ex_aligned|]. split; [exact ex_t0|]. vm_compute. auto. Qed.

(** Near 2^32 bytes and beyond: no memory at all, or less than asked for. One mixin of 2^32 - 25 bytes, for which the layout of
    objects is correct. *)
Definition ex_large : env := {|
  e_mixin := fun m => ex_mixin (ex_sv (600 + N.of_nat m) [101; N.of_nat m]%N) 4294967271 8 true [] 0 false;
  e_feature := ex_features; e_rule := ex_rules; e_tc := ex_tc; e_settings := ex_settings; e_canon := fun d => (100 + d)%nat |}.
Theorem C79_large_refuted :
  (exists bytes a, pow2 a /\ bytes < 4294967296 /\ 0 < bytes /\ resource_size bytes a = Ok 0) /\
  (exists bytes a s, pow2 a /\ 4294967296 <= bytes /\ resource_size bytes a = Ok s /\ s < 17) /\
  exists E w d r t o, reachable E w /\ aligned_mixins E /\ has_type w d r t /\ t_mixins t = [0%nat] /\ t_offsets t = [o] /\ external (e_mixin E 0) = false /\
    o + m_size (e_mixin E 0) = t_buf_size t /\ t_buf_size t < 4294967296 /\ resource_size (t_buf_size t) (t_buf_align t) = Ok 0.
Proof.
  split; [|split].
  - exists 4294967295, 8. split; [exists 3; reflexivity|]. vm_compute. auto.
  - exists 4294967312, 8, 16. split; [exists 3; reflexivity|]. vm_compute. split; [discriminate|]. auto.
  - pose (ops := [DRegMixin 0 0; DGetType 0 [0%nat] true]). pose (w := ex_after ex_large ops).
    exists ex_large, w, 0%nat, (TReg 0), (ex_type w (TReg 0)), 24.
    split; [exists (ex_tr ex_large ops); apply ex_run_after; vm_compute; reflexivity|]. split; [intros m; right; exists 3; reflexivity|].
    split; [ex_typ|]. vm_compute. auto 10.
Qed.
Print Assumptions C79_large_refuted.
