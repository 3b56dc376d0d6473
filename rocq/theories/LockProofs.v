(** Threads that lock in order never get stuck. *)
From Coq Require Import List Arith Bool Lia.
From Verif Require Import Base BaseLemmas Info Locks.
Import ListNotations.

Definition rank (l : lk) : nat := match l with LT _ => 0 | LE _ => 1 end.

(** A program and the locks held before it: every lock is of a higher rank than those held, or ([re]) it is one that is already held shared. *)
Definition fresh (h : list (lk * mode)) (l : lk) : Prop := forall l' m', In (l', m') h -> rank l' < rank l.
Definition again (h : list (lk * mode)) (l : lk) (m : mode) : Prop := m = Sh /\ In (l, Sh) h /\ forall m', In (l, m') h -> m' = Sh.
Fixpoint ordered (re : bool) (h : list (lk * mode)) (p : list instr) : Prop :=
  match p with
  | [] => h = []
  | Acq l m :: r => (fresh h l \/ (re = true /\ again h l m)) /\ ordered re ((l, m) :: h) r
  | Rel l m :: r => exists h', h = (l, m) :: h' /\ ordered re h' r
  end.

(** A program that leaves the locks it found *)
Definition neutral (re : bool) (ok : list (lk * mode) -> Prop) (p : list instr) : Prop :=
  forall h r, ok h -> ordered re h r -> ordered re h (p ++ r).

Lemma neutral_nil re ok : neutral re ok [].
Proof. intros h r _ H. exact H. Qed.
Lemma neutral_app re ok p q : neutral re ok p -> neutral re ok q -> neutral re ok (p ++ q).
Proof. intros A B h r K H. rewrite <- app_assoc. auto. Qed.
Lemma neutral_lock re (ok ok' : list (lk * mode) -> Prop) l m p : (forall h, ok h -> (fresh h l \/ (re = true /\ again h l m)) /\ ok' ((l, m) :: h)) ->
  neutral re ok' p -> neutral re ok (with_lock l m p).
Proof.
  intros A B h r K H. unfold with_lock. cbn [app ordered]. destruct (A h K) as [A1 A2]. split; [exact A1|]. rewrite <- app_assoc. apply B; [exact A2|].
  cbn. exists h. auto.
Qed.

Definition none (h : list (lk * mode)) : Prop := h = [].
Definition types_only (h : list (lk * mode)) : Prop := forall l m, In (l, m) h -> rank l = 0.
Definition anything (h : list (lk * mode)) : Prop := True.

Lemma lock_none re l m : forall h, none h -> (fresh h l \/ (re = true /\ again h l m)) /\ types_only ((l, m) :: h) \/ rank l = 1.
Proof. intros h ->. destruct (rank l) eqn:R; [left|right; destruct l; cbn in *; congruence]. split; [left; intros l' m' []|]. intros l' m' [K|[]]. congruence. Qed.

Lemma leaf_none re l m : neutral re none (with_lock l m []).
Proof. apply neutral_lock with anything; [|apply neutral_nil]. intros h ->. split; [left; intros l' m' []|exact I]. Qed.
Lemma leaf_elements re d m : neutral re types_only (with_lock (LE d) m []).
Proof. apply neutral_lock with anything; [|apply neutral_nil]. intros h K. split; [left|exact I]. intros l' m' H. rewrite (K _ _ H). cbn. lia. Qed.
Lemma neutral_lookups re ds : neutral re types_only (rule_lookups ds).
Proof. induction ds as [|d ds IH]; [apply neutral_nil|]. apply neutral_app; [apply leaf_elements|exact IH]. Qed.
Lemma types_none re d m p : neutral re types_only p -> neutral re none (with_lock (LT d) m p).
Proof.
  intros B. apply neutral_lock with types_only; [|exact B]. intros h ->. split; [left; intros l' m' []|]. intros l' m' [K|[]]. injection K as <- <-. reflexivity.
Qed.
Lemma lookup_none re d ds store : neutral re none (lookup_locks d ds store).
Proof. apply neutral_app; [apply types_none, neutral_lookups|]. destruct store; [apply leaf_none|apply neutral_nil]. Qed.

Lemma call_neutral re p : call_locks p -> neutral re none p.
Proof.
  destruct 1; try apply leaf_none; try apply neutral_nil.
  - apply neutral_app; apply leaf_none.
  - apply lookup_none.
  - apply neutral_app; [apply leaf_none|apply lookup_none].
  - apply types_none, leaf_elements.
Qed.
Lemma dump_neutral d rules types : neutral true none (dump_locks d rules types).
Proof.
  apply neutral_lock with (fun h => h = [(LT d, Sh)]).
  { intros h ->. split; [left; intros l' m' []|reflexivity]. }
  apply neutral_lock with (fun h => h = [(LE d, Sh); (LT d, Sh)]).
  { intros h ->. split; [left|reflexivity]. intros l' m' [K|[]]. injection K as <- <-. cbn. lia. }
  assert (B : neutral true (fun h => h = [(LE d, Sh); (LT d, Sh)]) (with_lock (LT d) Sh [])).
  { apply neutral_lock with anything; [|apply neutral_nil]. intros h ->. split; [right|exact I]. split; [reflexivity|]. split; [reflexivity|]. split; [right; now left|].
    intros m' [K|[K|[]]]; congruence. }
  apply neutral_app; [destruct rules|destruct types]; try exact B; apply neutral_nil.
Qed.
Lemma calls_ordered re (calls : list instr -> Prop) cs : (forall p, calls p -> neutral re none p) -> Forall calls cs -> ordered re [] (concat cs).
Proof.
  intros N F. induction F as [|p cs P F IH]; [reflexivity|]. cbn. apply N; [exact P|reflexivity|exact IH].
Qed.

(** ** The invariant *)
Definition compat (ts : list lthread) : Prop :=
  forall i j ti tj l m m', i <> j -> nth_error ts i = Some ti -> nth_error ts j = Some tj -> In (l, m) (l_held ti) -> In (l, m') (l_held tj) -> both_shared m m'.
Definition LInv (re : bool) (ts : list lthread) : Prop :=
  (forall t, In t ts -> ordered re (l_held t) (l_prog t)) /\ compat ts.

Lemma linv_start re (calls : list instr -> Prop) ts : (forall p, calls p -> neutral re none p) -> starts calls ts -> LInv re ts.
Proof.
  intros N S. split.
  - intros t I0. destruct (S t I0) as (H & cs & F & P). rewrite H, P. eapply calls_ordered; eauto.
  - intros i j ti tj l m m' _ Ni _ K _. apply nth_error_In in Ni. destruct (S ti Ni) as (H & _). rewrite H in K. destruct K.
Qed.

Lemma in_set_nth {A} i (x y : A) l : In y (set_nth i x l) -> y = x \/ In y l.
Proof. revert i. induction l as [|a l IH]; intros [|i]; cbn; [tauto..| |]; [intros [K|K]; auto|]. intros [K|K]; [auto|]. destruct (IH i K); auto. Qed.

Lemma linv_step re pref ts ts' : LInv re ts -> lstep pref ts ts' -> LInv re ts'.
Proof.
  intros [O C] S. destruct S as [i l m p h Ni [CA _]|i l m p h Ni].
  - pose proof (O _ (nth_error_In _ _ Ni)) as Oi. cbn in Oi. split.
    + intros t K. apply in_set_nth in K. destruct K as [-> |K]; [apply Oi|auto].
    + assert (L : i < length ts) by (apply nth_error_Some; congruence).
      assert (NEW : forall j tj m', j <> i -> nth_error ts j = Some tj -> In (l, m') (l_held tj) -> both_shared m m').
      { intros j tj m' _ Nj K. apply (CA tj m'); [eapply nth_error_In; eauto|exact K]. }
      intros a b ta tb l0 m0 m1 NE Na Nb Ka Kb. rewrite nth_error_set_nth in Na, Nb.
      destruct (Nat.eqb_spec i a) as [<-|NA], (Nat.eqb_spec i b) as [<-|NB]; cbn [andb] in *; try congruence.
      * rewrite (proj2 (Nat.ltb_lt _ _) L) in Na. injection Na as <-. destruct Ka as [Ka|Ka].
        -- injection Ka as <- <-. eapply NEW; eauto.
        -- eapply (C i b); eauto.
      * rewrite (proj2 (Nat.ltb_lt _ _) L) in Nb. injection Nb as <-. destruct Kb as [Kb|Kb].
        -- injection Kb as <- <-. destruct (NEW a ta m0) as [X Y]; auto. split; auto.
        -- eapply (C a i); eauto.
      * eapply (C a b); eauto.
  - pose proof (O _ (nth_error_In _ _ Ni)) as Oi. cbn in Oi. split.
    + intros t K. apply in_set_nth in K. destruct K as [-> |K]; [|auto]. destruct Oi as (h' & E1 & Oi). injection E1 as <-. exact Oi.
    + assert (L : i < length ts) by (apply nth_error_Some; congruence).
      intros a b ta tb l0 m0 m1 NE Na Nb Ka Kb. rewrite nth_error_set_nth in Na, Nb.
      destruct (Nat.eqb_spec i a) as [<-|NA], (Nat.eqb_spec i b) as [<-|NB]; cbn [andb] in *; try congruence.
      * rewrite (proj2 (Nat.ltb_lt _ _) L) in Na. injection Na as <-. eapply (C i b); eauto. now right.
      * rewrite (proj2 (Nat.ltb_lt _ _) L) in Nb. injection Nb as <-. eapply (C a i); eauto. now right.
      * eapply (C a b); eauto.
Qed.
Lemma linv_steps re pref ts ts' : LInv re ts -> lsteps pref ts ts' -> LInv re ts'.
Proof. intros I0 S. induction S as [|a b c S IH T]; [exact I0|]. eapply linv_step; [apply IH, I0|exact T]. Qed.

(** ** Progress *)
Definition is_rel (t : lthread) : bool := match l_prog t with Rel _ _ :: _ => true | _ => false end.
Definition at_rank (n : nat) (t : lthread) : bool := match l_prog t with Acq l _ :: _ => rank l =? n | _ => false end.
Definition wants_unique (l : lk) (t : lthread) : bool := match l_prog t with Acq l' Un :: _ => lk_eqb l' l | _ => false end.
Definition idle (t : lthread) : bool := match l_prog t with [] => true | _ => false end.

Lemma lk_eqb_spec a b : reflect (a = b) (lk_eqb a b).
Proof. destruct a, b; cbn; try (constructor; congruence); destruct (Nat.eqb_spec d d0); constructor; congruence. Qed.

Lemma again_or_fresh (h : list (lk * mode)) (l : lk) : fresh h l \/ exists l' m', In (l', m') h /\ rank l <= rank l'.
Proof.
  induction h as [|[l0 m0] h IH]; [left; intros ? ? []|]. destruct IH as [F|(l' & m' & K & R)]; [|right; exists l', m'; split; [now right|exact R]].
  destruct (le_lt_dec (rank l) (rank l0)) as [R|R]; [right; exists l0, m0; split; [now left|exact R]|left]. intros l' m' [K|K]; [congruence|eauto].
Qed.

Lemma existsb_false {A} (f : A -> bool) l : existsb f l = false -> forall x, In x l -> f x = false.
Proof. intros H x K. destruct (f x) eqn:F; [|reflexivity]. assert (existsb f l = true) by (apply existsb_exists; eauto). congruence. Qed.

(** A thread waits for a lock nobody has. *)
Lemma free_progress pref ts i l m p h : nth_error ts i = Some {| l_prog := Acq l m :: p; l_held := h |} ->
  (forall t m', In t ts -> ~ In (l, m') (l_held t)) -> exists ts', lstep pref ts ts'.
Proof.
  intros Ni FR. destruct (existsb (wants_unique l) ts) eqn:WU.
  - apply existsb_exists in WU. destruct WU as (t & K & W). unfold wants_unique in W. destruct t as [[|[l' [|]|] p'] h']; try discriminate W. cbn in W.
    destruct (lk_eqb_spec l' l); [subst l'|discriminate]. apply In_nth_error in K. destruct K as [j Nj]. eexists. eapply ls_acq; [exact Nj|]. split.
    + intros t m' K1 K2. exfalso. eapply FR; eauto.
    + intros _ X. discriminate X.
  - eexists. eapply ls_acq; [exact Ni|]. split; [intros t m' K1 K2; exfalso; eapply FR; eauto|].
    intros _ _ t q K P. pose proof (existsb_false _ _ WU t K) as X. unfold wants_unique in X. rewrite P in X. destruct (lk_eqb_spec l l); congruence.
Qed.

Lemma progress re pref ts : LInv re ts -> re = false \/ pref = false -> finished ts \/ exists ts', lstep pref ts ts'.
Proof.
  intros [O C] RP. destruct (existsb is_rel ts) eqn:HR.
  { right. apply existsb_exists in HR. destruct HR as (t & K & R). destruct t as [[|[|l m] p] h]; try discriminate R. pose proof (O _ K) as Ot. cbn in Ot. destruct Ot as (h' & -> & _).
    apply In_nth_error in K. destruct K as [i Ni]. eexists. eapply ls_rel. exact Ni. }
  pose proof (existsb_false _ _ HR) as NR.
  (* nobody is about to release: who holds something waits for something of a higher rank, or for something it already has *)
  set (re_acq := fun t => match l_prog t with Acq l Sh :: _ => existsb (fun x => lk_eqb (fst x) l) (l_held t) | _ => false end).
  destruct (existsb re_acq ts) eqn:RA.
  { right. apply existsb_exists in RA. destruct RA as (t & K & R). unfold re_acq in R. destruct t as [[|[l [|]|] p] h]; try discriminate R. cbn in R. apply existsb_exists in R.
    destruct R as ([l' m0] & Kh & X). cbn in X. destruct (lk_eqb_spec l' l); [subst l'|discriminate]. pose proof (O _ K) as Ot. cbn in Ot. destruct Ot as [[F|[RE (_ & A1 & A2)]] _].
    - specialize (F _ _ Kh). lia.
    - apply In_nth_error in K. destruct K as [i Ni]. eexists. eapply ls_acq; [exact Ni|]. split.
      + intros t m' Kt Km. split; [reflexivity|]. apply In_nth_error in Kt. destruct Kt as [j Nj]. destruct (Nat.eq_dec i j) as [<-|NE].
        * rewrite Ni in Nj. injection Nj as <-. apply (A2 m' Km).
        * destruct (C i j _ t l Sh m' NE Ni Nj A1 Km) as [_ Y]. exact Y.
      + intros ->. destruct RP; congruence. }
  pose proof (existsb_false _ _ RA) as NRA.
  assert (HOLD : forall t l m p, In t ts -> l_prog t = Acq l m :: p -> fresh (l_held t) l).
  { intros t l m p K P. pose proof (O _ K) as Ot. rewrite P in Ot. cbn in Ot. destruct Ot as [[F|[_ (-> & A1 & _)]] _]; [exact F|]. exfalso.
    specialize (NRA t K). unfold re_acq in NRA. rewrite P in NRA. pose proof (existsb_false _ _ NRA (l, Sh) A1) as X. cbn in X. destruct (lk_eqb_spec l l); congruence. }
  assert (WAIT : forall t x, In t ts -> In x (l_held t) -> exists l m p, l_prog t = Acq l m :: p).
  { intros t x K Kx. destruct t as [[|[l m|l m] p] h]; cbn in *; eauto.
    - specialize (O _ K). cbn in O. subst h. destruct Kx.
    - specialize (NR _ K). discriminate NR. }
  destruct (existsb (at_rank 1) ts) eqn:R1.
  - right. apply existsb_exists in R1. destruct R1 as (t & K & R). destruct t as [[|[l m|] p] h]; try discriminate R. cbn in R. apply Nat.eqb_eq in R.
    apply In_nth_error in K. destruct K as [i Ni]. apply free_progress with i l m p h; [exact Ni|]. intros t m' K Kh.
    destruct (WAIT t _ K Kh) as (l2 & m2 & p2 & P). pose proof (HOLD t l2 m2 p2 K P l m' Kh). destruct l2; cbn in *; lia.
  - destruct (existsb (at_rank 0) ts) eqn:R0.
    + right. pose proof (existsb_false _ _ R1) as N1. apply existsb_exists in R0. destruct R0 as (t & K & R). destruct t as [[|[l m|] p] h]; try discriminate R.
      apply In_nth_error in K. destruct K as [i Ni]. apply free_progress with i l m p h; [exact Ni|]. intros t m' K Kh.
      destruct (WAIT t _ K Kh) as (l2 & m2 & p2 & P). pose proof (HOLD t l2 m2 p2 K P l m' Kh). specialize (N1 t K). unfold at_rank in N1. rewrite P in N1. destruct l2; cbn in *; [lia|discriminate].
    + left. pose proof (existsb_false _ _ R1) as N1. pose proof (existsb_false _ _ R0) as N0. intros t K. specialize (NR t K). specialize (N1 t K). specialize (N0 t K).
      pose proof (O _ K) as Ot. destruct t as [[|[[] m|l m] p] h]; cbn in *; try discriminate. auto.
Qed.

(** ** Completion *)
Definition work (ts : list lthread) : nat := fold_right (fun t n => length (l_prog t) + n) 0 ts.
Lemma work_set ts : forall i t x, nth_error ts i = Some t -> length (l_prog t) = S (length (l_prog x)) -> work ts = S (work (set_nth i x ts)).
Proof.
  induction ts as [|a ts IH]; intros [|i] t x N L; cbn in N; try discriminate.
  - injection N as ->. cbn. rewrite L. reflexivity.
  - cbn [set_nth work fold_right]. fold (work ts). rewrite (IH i t x N L). unfold work. lia.
Qed.
Lemma step_work pref ts ts' : lstep pref ts ts' -> work ts = S (work ts').
Proof. intros S. destruct S; (eapply work_set; [eassumption|reflexivity]). Qed.

Lemma lsteps_cons pref b c : lsteps pref b c -> forall a, lstep pref a b -> lsteps pref a c.
Proof. induction 1 as [b|b c d S IH T]; intros a A; [eapply lss_snoc; [apply lss_nil|exact A]|]. eapply lss_snoc; eauto. Qed.

Lemma completion re pref : re = false \/ pref = false -> forall ts, LInv re ts -> exists ts', lsteps pref ts ts' /\ finished ts'.
Proof.
  intros RP ts. remember (work ts) as n eqn:EN. revert ts EN. induction n as [|n IH]; intros ts EN I0.
  - destruct (progress re pref ts I0 RP) as [F|[ts' S]]; [exists ts; split; [constructor|exact F]|]. apply step_work in S. lia.
  - destruct (progress re pref ts I0 RP) as [F|[ts' S]]; [exists ts; split; [constructor|exact F]|]. pose proof (step_work _ _ _ S) as W.
    destruct (IH ts') as (ts2 & A & B); [lia|eapply linv_step; eauto|]. exists ts2. split; [|exact B]. eapply lsteps_cons; eauto.
Qed.

(** ** C59 *)
Lemma c59_progress ts ts' pref : starts call_locks ts -> lsteps false ts ts' ->
  (finished ts' \/ exists ts'', lstep pref ts' ts'') /\ exists ts'', lsteps pref ts' ts'' /\ finished ts''.
Proof.
  intros S L. assert (I0 : LInv false ts'). { eapply linv_steps; [eapply linv_start; [|exact S]|exact L]. intros p. apply call_neutral. }
  split; [apply (progress false); auto|apply (completion false); auto].
Qed.
Lemma c59_readers ts ts' : starts (fun p => call_locks p \/ exists d rules types, p = dump_locks d rules types) ts -> lsteps false ts ts' ->
  (finished ts' \/ exists ts'', lstep false ts' ts'') /\ exists ts'', lsteps false ts' ts'' /\ finished ts''.
Proof.
  intros S L. assert (I0 : LInv true ts').
  { eapply linv_steps; [eapply linv_start; [|exact S]|exact L]. intros p [P|(d & rules & types & ->)]; [now apply call_neutral|apply dump_neutral]. }
  split; [apply (progress true); auto|apply (completion true); auto].
Qed.
Lemma lstep_weaker ts ts' pref : lstep pref ts ts' -> lstep false ts ts'.
Proof. intros S. destruct S as [i l m p h N [A _]|i l m p h N]; [eapply ls_acq; eauto; split; [exact A|discriminate]|eapply ls_rel; eauto]. Qed.
Lemma lsteps_weaker ts ts' pref : lsteps pref ts ts' -> lsteps false ts ts'.
Proof. intros S. induction S as [|a b c S IH T]; [constructor|]. eapply lss_snoc; [exact IH|eapply lstep_weaker; exact T]. Qed.
Lemma schedules_end pref : forall ts, Acc (fun b a => lstep pref a b) ts.
Proof.
  intros ts. remember (work ts) as n eqn:EN. revert ts EN. induction n as [|n IH]; intros ts EN; constructor; intros b S; pose proof (step_work _ _ _ S); [lia|].
  apply IH. lia.
Qed.
Lemma c59_no_deadlock pref ts ts' : starts call_locks ts -> lsteps false ts ts' ->
  (finished ts' \/ exists ts'', lstep pref ts' ts'') /\ (exists ts'', lsteps pref ts' ts'' /\ finished ts'') /\ Acc (fun b a => lstep pref a b) ts'.
Proof. intros S L. destruct (c59_progress ts ts' pref S L) as [A B]. split; [exact A|]. split; [exact B|]. apply schedules_end. Qed.

(** Schedules, step by step *)
Lemma go_acq pref i l m p h ts ts' : nth_error ts i = Some {| l_prog := Acq l m :: p; l_held := h |} -> can_acquire pref ts l m ->
  lsteps pref (set_nth i {| l_prog := p; l_held := (l, m) :: h |} ts) ts' -> lsteps pref ts ts'.
Proof. intros N C S. eapply lsteps_cons; [exact S|]. eapply ls_acq; eauto. Qed.
Lemma go_rel pref i l m p h ts ts' : nth_error ts i = Some {| l_prog := Rel l m :: p; l_held := (l, m) :: h |} ->
  lsteps pref (set_nth i {| l_prog := p; l_held := h |} ts) ts' -> lsteps pref ts ts'.
Proof. intros N S. eapply lsteps_cons; [exact S|]. eapply ls_rel; eauto. Qed.
Lemma go_stop pref ts ts' : ts = ts' -> lsteps pref ts ts'.
Proof. intros ->. constructor. Qed.
