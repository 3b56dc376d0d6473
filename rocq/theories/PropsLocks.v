(** Property C59: locks *)
From Coq Require Import List Arith Bool.
From Verif Require Import Base Info Locks LockProofs.
Import ListNotations.

(** C59: any number of threads, each making any calls on any domains, whose rules look up things by name in any domains: at any time, in any
    schedule, all threads are done or one can go on; the schedule can go on to where all are done; and no schedule goes on for ever. Whether or not
    readers wait for waiting writers ([pref]); the schedules of [lsteps false] are all schedules, those of [lsteps true] are among them. *)
Theorem C59_no_deadlock : forall pref ts ts', starts call_locks ts -> lsteps false ts ts' ->
  (finished ts' \/ exists ts'', lstep pref ts' ts'') /\ (exists ts'', lsteps pref ts' ts'' /\ finished ts'') /\ Acc (fun b a => lstep pref a b) ts'.
Proof. exact c59_no_deadlock. Qed.
Print Assumptions C59_no_deadlock.

(** C59: with dbg_dmp of domains among the calls, if readers do not wait for waiting writers. Missing: mutexes where they do; see below. *)
Theorem C59_dump_partial : forall ts ts', starts (fun p => call_locks p \/ exists d rules types, p = dump_locks d rules types) ts -> lsteps false ts ts' ->
  (finished ts' \/ exists ts'', lstep false ts' ts'') /\ exists ts'', lsteps false ts' ts'' /\ finished ts''.
Proof. exact c59_readers. Qed.
Print Assumptions C59_dump_partial.

(** Three threads on two domains whose rules look up mixins in each other's domain: one asks for a type in domain 0, one in domain 1, and
    one unregisters a mixin and then dumps a type. *)
Definition ex_threads : list lthread :=
  [{| l_prog := concat [with_lock (LT 0) Sh [] ++ lookup_locks 0 [1; 0] true]; l_held := [] |};
   {| l_prog := concat [lookup_locks 1 [0; 1] true; with_lock (LT 1) Un []]; l_held := [] |};
   {| l_prog := concat [with_lock (LT 0) Un [] ++ with_lock (LE 0) Un []; with_lock (LT 0) Sh (with_lock (LE 0) Sh [])]; l_held := [] |}].
(** Thread 0 is about to look up a mixin in domain 1 while it has the types of domain 0, thread 1 the other way round. *)
Definition ex_threads_later : list lthread :=
  [{| l_prog := rule_lookups [1; 0] ++ [Rel (LT 0) Sh; Acq (LT 0) Un; Rel (LT 0) Un]; l_held := [(LT 0, Sh)] |};
   {| l_prog := rule_lookups [0; 1] ++ [Rel (LT 1) Sh; Acq (LT 1) Un; Rel (LT 1) Un; Acq (LT 1) Un; Rel (LT 1) Un]; l_held := [(LT 1, Sh)] |};
   nth 2 ex_threads {| l_prog := []; l_held := [] |}].
Example C59_example : starts call_locks ex_threads /\ lsteps false ex_threads ex_threads_later /\ ~ finished ex_threads_later.
Proof.
  split; [|split].
  - intros t [<-|[<-|[<-|[]]]]; (split; [reflexivity|]); (eexists; split; [|reflexivity]); repeat constructor.
  - assert (FREE : forall ts l, (forall t m, In t ts -> In (l, m) (l_held t) -> m = Sh) -> can_acquire false ts l Sh).
    { intros ts l H. split; [|discriminate]. intros t m K K2. split; [reflexivity|eauto]. }
    eapply (go_acq _ 0); [reflexivity|apply FREE; intros t m [<-|[<-|[<-|[]]]] []|].
    eapply (go_rel _ 0); [reflexivity|].
    eapply (go_acq _ 0); [reflexivity|apply FREE; intros t m [<-|[<-|[<-|[]]]] []|].
    eapply (go_acq _ 1); [reflexivity|apply FREE; intros t m [<-|[<-|[<-|[]]]] K; cbn in K; [destruct K as [K|[]]; congruence|destruct K..]|].
    apply go_stop. reflexivity.
  - intros F. destruct (F _ (or_introl eq_refl)) as [X _]. discriminate X.
Qed.

Example C59_dump_example : starts (fun p => call_locks p \/ exists d rules types, p = dump_locks d rules types)
  [{| l_prog := concat [dump_locks 0 true true; with_lock (LT 1) Un []]; l_held := [] |};
   {| l_prog := concat [with_lock (LE 0) Un []; with_lock (LT 0) Un []]; l_held := [] |}].
Proof.
  intros t [<-|[<-|[]]]; (split; [reflexivity|]); (eexists; split; [|reflexivity]); repeat (apply Forall_cons || apply Forall_nil); try (left; constructor).
  right. exists 0, true, true. reflexivity.
Qed.

(** C59: where readers wait for waiting writers, a thread that dumps a domain and one that registers a mixin and then collects the domain's
    types can be stuck for ever. *)
Theorem C59_dump_refuted : exists d ts ts',
  ts = [{| l_prog := dump_locks d true true; l_held := [] |}; {| l_prog := with_lock (LE d) Un [] ++ with_lock (LT d) Un []; l_held := [] |}] /\
  lsteps true ts ts' /\ ~ finished ts' /\ forall ts'', ~ lstep true ts' ts''.
Proof.
  exists 0. eexists. exists [{| l_prog := [Acq (LT 0) Sh; Rel (LT 0) Sh; Acq (LT 0) Sh; Rel (LT 0) Sh; Rel (LE 0) Sh; Rel (LT 0) Sh]; l_held := [(LE 0, Sh); (LT 0, Sh)] |};
    {| l_prog := [Acq (LT 0) Un; Rel (LT 0) Un]; l_held := [] |}]. split; [reflexivity|]. split; [|split].
  - eapply (go_acq _ 1); [reflexivity|split; [|intros _ X; discriminate X]; intros t m [<-|[<-|[]]] []|].
    eapply (go_acq _ 0); [reflexivity| |].
    { split.
      - intros t m [<-|[<-|[]]] K; cbn in K; [destruct K|destruct K as [K|[]]; congruence].
      - intros _ _ t p [<-|[<-|[]]] X; cbn in X; discriminate X. }
    eapply (go_rel _ 1); [reflexivity|].
    eapply (go_acq _ 0); [reflexivity| |apply go_stop; reflexivity].
    split.
    + intros t m [<-|[<-|[]]] K; cbn in K; [destruct K as [K|[]]; congruence|destruct K].
    + intros _ _ t p [<-|[<-|[]]] X; cbn in X; discriminate X.
  - intros F. destruct (F _ (or_introl eq_refl)) as [X _]. discriminate X.
  - intros ts'' S. inversion S as [i l m p h N [A B]|i l m p h N]; subst; destruct i as [|[|[|i]]]; cbn in N; try discriminate N.
    + injection N as <- <- <- <-. eapply B; [reflexivity|reflexivity|right; left; reflexivity|reflexivity].
    + injection N as <- <- <- <-. destruct (A _ Sh (or_introl eq_refl)) as [X _]; [right; left; reflexivity|]. discriminate X.
Qed.
Print Assumptions C59_dump_refuted.
