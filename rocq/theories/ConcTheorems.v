(** Consequences of linearizability. *)
From Coq Require Import List Arith ZArith NArith Lia Bool.
From Verif Require Import Base Sv Info Registry TypeMut Rules TypeBuild TypeQuery Domain ElemProofs TypesProofs SpecReg SpecDom DomTheorems SpecRule RuleTheorems2
  Conc SpecConc CongProofs ConcProofs.
Import ListNotations.

Section ConcTheorems.
Variable E : env.

(** ** Answers are effects *)
Definition curs := fold_left (fun (cur : nat -> option dop) e => match e with HCall i o => fun x => if x =? i then Some o else cur x | HRet _ _ => cur end).

Lemma answers_app h h' : forall cur, answers_from cur (h ++ h') = answers_from cur h ++ answers_from (curs h cur) h'.
Proof.
  induction h as [|[i o|i r] h IH]; intros cur; cbn; [reflexivity|apply IH|]. destruct (cur i); cbn; [f_equal|]; apply IH.
Qed.
Lemma curs_app h h' cur : curs (h ++ h') cur = curs h' (curs h cur).
Proof. apply fold_left_app. Qed.

Lemma answers_effects g p : one_by_one g p ->
  (forall o r, In (o, r) (answers (seen g)) -> In (o, r) (effects g)) /\
  (forall i, match p i with
     | Idle => True | Called o => curs (seen g) (fun _ => None) i = Some o
     | Did r => exists o, curs (seen g) (fun _ => None) i = Some o /\ In (o, r) (effects g) end).
Proof.
  unfold answers. induction 1 as [|g p i o O [IH1 IH2] P|g p i o r O [IH1 IH2] P|g p i r O [IH1 IH2] P]; rewrite ?seen_app, ?effects_app.
  - cbn. split; [contradiction|auto].
  - cbn [seen effects]. rewrite app_nil_r. split.
    + intros o' r'. rewrite answers_app, in_app_iff. cbn. intros [K|[]]. auto.
    + intros j. rewrite curs_app. cbn [curs fold_left]. specialize (IH2 j). unfold set_phase. destruct (Nat.eqb_spec j i) as [->|N]; [reflexivity|exact IH2].
  - cbn [seen effects]. rewrite app_nil_r. split.
    + intros o' r' K. apply in_or_app. auto.
    + intros j. unfold set_phase. destruct (Nat.eqb_spec j i) as [->|N].
      * specialize (IH2 i). rewrite P in IH2. exists o. split; [exact IH2|]. apply in_or_app. right. now left.
      * specialize (IH2 j). destruct (p j); auto. destruct IH2 as (o' & A & B). exists o'. split; [exact A|]. apply in_or_app. now left.
  - cbn [seen effects]. rewrite app_nil_r. split.
    + intros o' r'. rewrite answers_app, in_app_iff. specialize (IH2 i). rewrite P in IH2. destruct IH2 as (o & A & B). cbn [answers_from]. rewrite A. cbn.
      intros [K|[K|[]]]; [auto|]. injection K as -> ->. exact B.
    + intros j. rewrite curs_app. cbn [curs fold_left]. specialize (IH2 j). unfold set_phase. destruct (Nat.eqb_spec j i); [exact I|exact IH2].
Qed.

(** ** Only questions *)
Definition asks_pos (p : pos) : Prop :=
  match p with
  | PAtomic o => calm o
  | PPurge _ _ | PUnreg _ _ => False
  | _ => True
  end.

Lemma enter_asks o : calm o -> asks_pos (enter o).
Proof. destruct o; cbn; auto. intros _. now destruct (dm =? d). Qed.
Lemma section_asks w p w' p' : section E w p = (w', p') -> asks_pos p -> asks_pos p'.
Proof.
  destruct p; cbn [section asks_pos]; intros X A; try contradiction.
  - destruct (dstep E w o). injection X as <- <-. exact I.
  - destruct (find_query _ _); injection X as <- <-; exact I.
  - destruct (lookup_type _ _ _ _) as [[t|oq ms [t|]]|e|u]; injection X as <- <-; exact I.
  - injection X as <- <-; exact I.
  - destruct (build_type _ _ _ _ _ _ _); injection X as <- <-; exact I.
  - destruct (insert_type _ _ _ _); injection X as <- <-; exact I.
  - injection X as <- <-; exact I.
Qed.

Lemma only_asks_app h x : only_asks (h ++ [x]) -> only_asks h /\ forall i o, x = HCall i o -> calm o.
Proof.
  intros H. split.
  - intros i o K. apply (H i o). apply in_or_app. now left.
  - intros i o ->. apply (H i o). apply in_or_app. right. now left.
Qed.

Lemma asks_quiet w0 h s : crun E any_step w0 h s -> only_asks h -> crun E quiet w0 h s /\ (forall i p, c_th s i = Some p -> asks_pos p).
Proof.
  induction 1 as [|h s i o C IH HI|h s i p w' p' C IH HI Q X NUB|h s i r C IH HI]; intros A.
  - split; [constructor|]. intros i p K. discriminate K.
  - apply only_asks_app in A. destruct A as [A A2]. destruct (IH A) as [B1 B2]. split; [now apply cr_call|]. cbn [c_th]. intros j p K.
    destruct (Nat.eq_dec j i) as [->|N]; [rewrite set_th_same in K; injection K as <-; apply enter_asks; eauto|]. rewrite set_th_other in K by exact N. eauto.
  - destruct (IH A) as [B1 B2]. split.
    + eapply cr_step; eauto. intros j pj NJ Hj. specialize (B2 _ _ HI) as BI. specialize (B2 _ _ Hj). split.
      * destruct p as [o| | | | | | | |]; try (now intros []); try contradiction. destruct o; try (now intros []); contradiction.
      * intros d m ->. contradiction.
    + cbn [c_th]. intros j pj K. destruct (Nat.eq_dec j i) as [->|N]; [rewrite set_th_same in K; injection K as <-; eapply section_asks; eauto|]. rewrite set_th_other in K by exact N. eauto.
  - apply only_asks_app in A. destruct A as [A _]. destruct (IH A) as [B1 B2]. split; [now apply cr_ret|]. cbn [c_th]. intros j p K.
    destruct (Nat.eq_dec j i) as [->|N]; [rewrite set_th_same in K; discriminate|]. rewrite set_th_other in K by exact N. eauto.
Qed.

(** ** Comparison with the call in the first state *)
Record still (w w' : world) : Prop := {
  st_calm : calmly E w w';
  st_keep : forall d q r, find_query q (d_queries (w_dom w d)) = Some r -> find_query q (d_queries (w_dom w' d)) = Some r;
  st_made : forall d r ms, typed w' d r ms -> typed w d r ms \/ exists t, build_type E (w_fid w) (w_mid w) (w_mdom w) true d ms = Ok t
}.

Lemma calmly_trans w w' w'' : calmly E w w' -> calmly E w' w'' -> calmly E w w''.
Proof.
  intros C1 C2. constructor.
  - rewrite (cl_mid _ _ _ C2). apply C1.
  - rewrite (cl_mdom _ _ _ C2). apply C1.
  - rewrite (cl_fid _ _ _ C2). apply C1.
  - intros d. destruct (cl_regs _ _ _ C1 d) as [A B], (cl_regs _ _ _ C2 d) as [A' B']. split; congruence.
  - intros d r ms T. apply (cl_types _ _ _ C2). now apply (cl_types _ _ _ C1).
  - intros d q r F. destruct (cl_new _ _ _ C2 d q r F) as [K|(ms & A & T)].
    + destruct (cl_new _ _ _ C1 d q r K) as [K'|(ms & A & T)]; [now left|right]. exists ms. split; [exact A|]. now apply (cl_types _ _ _ C2).
    + right. exists ms. split; [|exact T]. rewrite <- A. symmetry. apply asked_regs; [apply (cl_mid _ _ _ C1)|apply (cl_regs _ _ _ C1)|]. now rewrite (proj2 (cl_regs _ _ _ C1 d)).
Qed.

Lemma still_refl w : still w w.
Proof. constructor; auto. apply calmly_refl. Qed.
Lemma still_trans w w' w'' : still w w' -> still w' w'' -> still w w''.
Proof.
  intros [C1 K1 M1] [C2 K2 M2]. constructor.
  - eapply calmly_trans; eauto.
  - auto.
  - intros d r ms T. destruct (M2 d r ms T) as [T'|X]; [now apply M1|right]. now rewrite (cl_mid _ _ _ C1), (cl_mdom _ _ _ C1), (cl_fid _ _ _ C1) in X.
Qed.

Lemma still_get_type a w d q w' r : reachable E w -> get_type E a w d q = (w', r) -> still w w'.
Proof.
  intros R G. pose proof (calmly_get_type E a w d q w' r R G) as CA. pose proof (get_type_case E a w d q) as C. rewrite G in C.
  assert (KS : forall r, find_query q (d_queries (w_dom w d)) = None -> calmly E w (store_found w d q r) -> still w (store_found w d q r)).
  { intros r0 F C0. constructor; [exact C0| |].
    - intros d2 q2 r2 F2. unfold store_found, set_dom, upd. cbn. destruct (Nat.eqb_spec d2 d) as [->|N]; [|exact F2]. cbn. rewrite find_query_store.
      destruct (span_equiv_spec q q2) as [->|N]; [congruence|exact F2].
    - intros d2 r2 ms (t & [T I2] & M). left. exists t. split; [split|exact M]; [exact T|]. unfold store_found, set_dom, upd in I2. cbn in I2.
      destruct (Nat.eqb_spec d2 d) as [->|N]; exact I2. }
  inversion C; subst; try apply still_refl; auto.
  constructor; [exact CA| |].
  - intros d2 q2 r2 F2. cbn [w_dom]. unfold upd. destruct (Nat.eqb_spec d2 d) as [->|N]; [|exact F2]. cbn. rewrite find_query_store.
    destruct (span_equiv_spec q q2) as [->|N]; [congruence|exact F2].
  - intros d2 r2 ms2 (t2 & [T I2] & M). cbn in T, I2. unfold tupd in T. destruct (tref_eqb_spec r2 (TReg (w_next w))) as [->|N].
    + injection T as <-. destruct I2 as [I2|I2]; [discriminate|]. unfold upd in I2. destruct (Nat.eqb_spec d2 d) as [->|ND].
      * right. exists t. match goal with H : build_type _ _ _ _ _ _ _ = Ok t |- _ => rename H into B end.
        destruct (build_type_ok E _ _ _ _ _ _ _ B) as (MM & _ & _ & _ & -> & _). rewrite <- M, MM. exact B.
      * exfalso. destruct (winv_reachable E w R) as [_ TI]. destruct (ti_types _ _ TI d2 _ I2) as (n & tx & K1 & K2 & _). injection K1 as <-. lia.
    + left. exists t2. split; [split|exact M]; [exact T|]. destruct I2 as [I2|I2]; [now left|right]. unfold upd in I2. destruct (Nat.eqb_spec d2 d) as [->|ND]; [|exact I2].
      cbn in I2. apply in_app_or in I2. destruct I2 as [I2|[I2|[]]]; [exact I2|congruence].
Qed.

Lemma still_step w o w' r : reachable E w -> calm o -> dstep E w o = (w', r) -> still w w'.
Proof.
  intros R C S. pose proof (calm_step E w o w' r R C S) as CA. destruct o; try contradiction; cbn [dstep] in S.
  - assert (Q : w' = w \/ exists l, w' = set_dom w d (with_tcs (w_dom w d) l)).
    { unfold register_type_class in S. destruct (register_tc _ _ _); injection S as <- <-; eauto. }
    destruct Q as [-> |[l ->]]; [apply still_refl|]. constructor; [exact CA| |].
    + intros d2 q2 r2 F2. unfold set_dom, upd. cbn. destruct (Nat.eqb_spec d2 d) as [->|N]; exact F2.
    + intros d2 r2 ms (t & [T I2] & M). left. exists t. split; [split|exact M]; [exact T|]. unfold set_dom, upd in I2. cbn in I2. destruct (Nat.eqb_spec d2 d) as [->|N]; exact I2.
  - injection S as <- <-. constructor; [exact CA| |].
    + intros d2 q2 r2 F2. unfold set_dom, upd. cbn. destruct (Nat.eqb_spec d2 d) as [->|N]; exact F2.
    + intros d2 r2 ms (t & [T I2] & M). left. exists t. split; [split|exact M]; [exact T|]. unfold set_dom, upd in I2. cbn in I2. destruct (Nat.eqb_spec d2 d) as [->|N]; exact I2.
  - unfold retty in S. destruct (get_type E alloc_ok w d q) as [w1 x] eqn:G. injection S as <- <-. eapply still_get_type; eauto.
  - unfold retty in S. destruct (get_type_mut E alloc_ok w d dm q) as [w1 x] eqn:G. injection S as <- <-. cbn [fst].
    unfold get_type_mut in G. destruct (Nat.eqb_spec dm d) as [->|N]; cbn [negb] in G; [|injection G as <- <-; apply still_refl].
    apply (still_get_type alloc_ok w d q w1 x R). rewrite <- get_type_mut_same. unfold get_type_mut. rewrite Nat.eqb_refl. exact G.
  - assert (Q : w' = w \/ exists t n, w_type w r0 = Some t /\ w' = with_type w r0 (set_nobj t n)).
    { unfold incr_nobj in S. destruct (w_type w r0) eqn:T; injection S as <- <-; eauto. }
    destruct Q as [-> |(t & n & T & ->)]; [apply still_refl|]. constructor; [exact CA|auto|].
    intros d2 r2 ms (t2 & [T2 I2] & M). left. cbn in T2. unfold tupd in T2. destruct (tref_eqb_spec r2 r0) as [->|N]; [exists t; injection T2 as <-|exists t2]; (split; [split|]); auto.
  - assert (Q : w' = w \/ exists t n, w_type w r0 = Some t /\ w' = with_type w r0 (set_nobj t n)).
    { unfold decr_nobj in S. destruct (w_type w r0) as [t|] eqn:T; [|injection S as <- <-; now left]. destruct (t_nobj t); injection S as <- <-; eauto. }
    destruct Q as [-> |(t & n & T & ->)]; [apply still_refl|]. constructor; [exact CA|auto|].
    intros d2 r2 ms (t2 & [T2 I2] & M). left. cbn in T2. unfold tupd in T2. destruct (tref_eqb_spec r2 r0) as [->|N]; [exists t; injection T2 as <-|exists t2]; (split; [split|]); auto.
Qed.

Ltac askeq AS A :=
  match type of AS with ?x = _ => match goal with H : x = Ok _ |- _ => rewrite AS, A in H; injection H as H; subst end end.

(** What a call in a later state gives, compared with the call in the first state *)
Lemma still_answer w0 w d q w' r : reachable E w0 -> reachable E w -> still w0 w -> get_type E true w d q = (w', r) -> ~ is_ub r ->
  (exists e, get_type E true w0 d q = (w0, Throw e) /\ r = Throw e) \/
  (exists w1 t0 t ms, get_type E true w0 d q = (w1, Ok t0) /\ r = Ok t /\ typed w1 d t0 ms /\ typed w' d t ms).
Proof.
  intros R0 R ST G NU. destruct ST as [CA KE MA].
  assert (AS : asked E w d q = asked E w0 d q).
  { apply asked_regs; [apply (cl_mid _ _ _ CA)|apply (cl_regs _ _ _ CA)|now rewrite (proj2 (cl_regs _ _ _ CA d))]. }
  pose proof (cl_mid _ _ _ CA) as E1. pose proof (cl_mdom _ _ _ CA) as E2. pose proof (cl_fid _ _ _ CA) as E3.
  assert (BT : forall ms, build_type E (w_fid w) (w_mid w) (w_mdom w) true d ms = build_type E (w_fid w0) (w_mid w0) (w_mdom w0) true d ms) by (intros ms; now rewrite E1, E2, E3).
  pose proof (get_type_case E true w0 d q) as C0. destruct (get_type E true w0 d q) as [w1 r0] eqn:G0.
  assert (TW : forall t0, r0 = Ok t0 -> exists ms, typed w1 d t0 ms).
  { intros t0 ->. destruct (get_type_has_type E true w0 d q w1 t0 R0 G0) as [t T]. exists (t_mixins t). now apply has_type_typed. }
  assert (OKQ : forall ms, asked E w0 d q = Ok (q, ms) -> forall t, find_query q (d_queries (w_dom w d)) = Some t -> find_query q (d_queries (w_dom w0 d)) = None -> typed w d t ms).
  { intros ms A t F F0. destruct (cl_new _ _ _ CA d q t F) as [K|(ms' & A' & T)]; [congruence|]. rewrite A in A'. injection A' as <-. exact T. }
  assert (NOTY : forall ms e, find_type w0 ms (d_types (w_dom w0 d)) = None -> ms <> [] -> build_type E (w_fid w0) (w_mid w0) (w_mdom w0) true d ms = e -> (forall t, e <> Ok t) ->
     forall t, ~ typed w d t ms).
  { intros ms e FT N B NO t T. destruct (MA d t ms T) as [T0|(t' & B')]; [|apply (NO t'); congruence]. rewrite (typed_find E w0 d t ms R0 N T0) in FT. discriminate. }
  (* the answer when the list of mixins of the query is known *)
  assert (ANS : forall ms, asked E w0 d q = Ok (q, ms) -> find_query q (d_queries (w_dom w0 d)) = None -> forall t, r = Ok t -> typed w' d t ms).
  { intros ms A F0 t ->. pose proof (calmly_get_type E true w d q w' (Ok t) R G) as CG. pose proof (get_type_case E true w d q) as C. rewrite G in C. inversion C; subst; try congruence.
    - eapply OKQ; eauto.
    - askeq AS A. apply (cl_types _ _ _ CG). destruct (winv_reachable E w R) as [_ TI]. destruct (ti_empty _ _ TI d) as [k HT]. exists (set_nobj (empty_type d) k). split; [split; auto|reflexivity].
    - askeq AS A. apply (cl_types _ _ _ CG). match goal with H : find_type _ _ _ = _ |- _ => apply find_type_some in H; destruct H as (I2 & t' & T' & M) end. exists t'. split; [split; auto|exact M].
    - askeq AS A. destruct (get_type_has_type E true w d q _ _ R G) as [tt [T I2]]. exists tt. split; [split; auto|]. cbn in T. unfold tupd in T.
      destruct (tref_eqb_spec (TReg (w_next w)) (TReg (w_next w))); [|congruence]. injection T as <-. match goal with H : build_type _ _ _ _ _ _ _ = Ok _ |- _ => apply build_type_ok in H; apply H end. }
  pose proof (get_type_case E true w d q) as C. rewrite G in C.
  inversion C0 as [t F|e F A|u F A|F A|ms rr F A N FT|ms t F A N FT B|ms e F A N FT B|ms u F A N FT B]; subst.
  - (* stored in the first state *) right. pose proof (KE d q t F) as F'. destruct (TW t eq_refl) as [ms T]. exists w1, t, t, ms. split; [reflexivity|].
    unfold get_type in G. rewrite F' in G. injection G as <- <-. split; [reflexivity|]. split; [exact T|]. now apply (cl_types _ _ _ CA).
  - left. exists e. split; [reflexivity|]. inversion C as [tx Fx|ex Fx Ax|ux Fx Ax|Fx Ax|mx rx Fx Ax Nx FTx|mx tx Fx Ax Nx FTx Bx|mx ex Fx Ax Nx FTx Bx|mx ux Fx Ax Nx FTx Bx]; subst; try congruence.
    destruct (cl_new _ _ _ CA d q tx Fx) as [K|(ms' & A' & _)]; congruence.
  - (* undefined behaviour *) exfalso. inversion C as [tx Fx|ex Fx Ax|ux Fx Ax|Fx Ax|mx rx Fx Ax Nx FTx|mx tx Fx Ax Nx FTx Bx|mx ex Fx Ax Nx FTx Bx|mx ux Fx Ax Nx FTx Bx]; subst; try congruence; try (now apply NU).
    destruct (cl_new _ _ _ CA d q tx Fx) as [K|(ms' & A' & _)]; congruence.
  - right. assert (X : exists t, r = Ok t).
    { inversion C as [tx Fx|ex Fx Ax|ux Fx Ax|Fx Ax|mx rx Fx Ax Nx FTx|mx tx Fx Ax Nx FTx Bx|mx ex Fx Ax Nx FTx Bx|mx ux Fx Ax Nx FTx Bx]; subst; eauto; try congruence; try (askeq AS A; congruence). }
    destruct X as [t ->]. exists (store_found w0 d q (TEmpty d)), (TEmpty d), t, []. split; [reflexivity|]. split; [reflexivity|]. split; [|now apply ANS].
    destruct (winv_reachable E w0 R0) as [_ TI]. destruct (ti_empty _ _ TI d) as [k HT]. exists (set_nobj (empty_type d) k). split; [split; auto|reflexivity].
  - right. assert (T0 : typed w0 d rr ms).
    { apply find_type_some in FT. destruct FT as (I2 & t' & T' & M). exists t'. split; [split; auto|exact M]. }
    pose proof (cl_types _ _ _ CA _ _ _ T0) as T1. pose proof (typed_find E w d rr ms R N T1) as FT1.
    assert (X : exists t, r = Ok t).
    { inversion C as [tx Fx|ex Fx Ax|ux Fx Ax|Fx Ax|mx rx Fx Ax Nx FTx|mx tx Fx Ax Nx FTx Bx|mx ex Fx Ax Nx FTx Bx|mx ux Fx Ax Nx FTx Bx]; subst; eauto; try congruence; askeq AS A; congruence. }
    destruct X as [t ->]. exists (store_found w0 d q rr), rr, t, ms. split; [reflexivity|]. split; [reflexivity|]. split; [|now apply ANS].
    apply (cl_types _ _ _ (calmly_get_type E true w0 d q _ _ R0 G0)). exact T0.
  - right. rewrite <- BT in B.
    assert (X : exists t', r = Ok t').
    { inversion C as [tx Fx|ex Fx Ax|ux Fx Ax|Fx Ax|mx rx Fx Ax Nx FTx|mx tx Fx Ax Nx FTx Bx|mx ex Fx Ax Nx FTx Bx|mx ux Fx Ax Nx FTx Bx]; subst; eauto; try congruence; askeq AS A; congruence. }
    destruct X as [t' ->]. eexists _, (TReg (w_next w0)), t', ms. split; [reflexivity|]. split; [reflexivity|]. split; [|now apply ANS].
    exists t. split; [split|apply build_type_ok in B; apply B].
    + cbn. unfold tupd. destruct (tref_eqb_spec (TReg (w_next w0)) (TReg (w_next w0))); congruence.
    + right. cbn. unfold upd. rewrite Nat.eqb_refl. cbn. apply in_or_app. right. now left.
  - left. exists e. split; [reflexivity|]. assert (NT := NOTY ms (Throw e) FT N B ltac:(discriminate)).
    inversion C as [tx Fx|ex Fx Ax|ux Fx Ax|Fx Ax|mx rx Fx Ax Nx FTx|mx tx Fx Ax Nx FTx Bx|mx ex Fx Ax Nx FTx Bx|mx ux Fx Ax Nx FTx Bx]; subst; try congruence; try (askeq AS A; rewrite BT in Bx; congruence).
    + exfalso. eapply NT. eapply OKQ; eauto.
    + exfalso. askeq AS A. apply (NT rx).
      match goal with H : find_type w _ _ = _ |- _ => apply find_type_some in H; destruct H as (I2 & t' & T' & M) end. exists t'. split; [split; auto|exact M].
  - exfalso. assert (NT := NOTY ms (Ub u) FT N B ltac:(discriminate)).
    inversion C as [tx Fx|ex Fx Ax|ux Fx Ax|Fx Ax|mx rx Fx Ax Nx FTx|mx tx Fx Ax Nx FTx Bx|mx ex Fx Ax Nx FTx Bx|mx ux Fx Ax Nx FTx Bx]; subst; try congruence; try (now apply NU); try (askeq AS A; rewrite BT in Bx; congruence).
    + eapply NT. eapply OKQ; eauto.
    + askeq AS A. apply (NT rx).
      match goal with H : find_type w _ _ = _ |- _ => apply find_type_some in H; destruct H as (I2 & t' & T' & M) end. exists t'. split; [split; auto|exact M].
Qed.

End ConcTheorems.
